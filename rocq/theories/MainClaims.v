(** * Vocabulary of the statements about templates and the whole output file *)
From Coq Require Import ZArith NArith String Ascii List Bool.
From Verif Require Import Arith Prim GcodeSpec GcodeText.
Import ListNotations.
Open Scope string_scope.

(** ** Templates *)

(** a template is text and names in braces *)
Inductive piece := Text (s : string) | Slot (w : string).
Definition piece_text (p : piece) : string :=
  match p with Text s => s | Slot w => "{" ++ w ++ "}" end.
Definition template (ps : list piece) : string := String.concat "" (map piece_text ps).

Definition no_open (s : string) : Prop := allc (isnt "{") s = true.
Definition no_brace (s : string) : Prop := no_open s /\ allc (isnt "}") s = true.
(** braces do not enclose braces *)
Definition piece_ok (p : piece) : Prop := match p with Text s => no_open s | Slot w => no_brace w end.

(** what becomes of a piece: a name that is listed is replaced by its value, everything else
    stays *)
Definition filled (m : list (string * string)) (p : piece) (out : string) : Prop :=
  match p with
  | Text s => out = s
  | Slot w =>
      (exists v, In ("{" ++ w ++ "}", v) m /\ out = v) \/
      (~ In ("{" ++ w ++ "}") (map fst m) /\ out = "{" ++ w ++ "}")
  end.

(** the keys of the list are different names in braces, the values have no opening brace *)
Definition map_ok (m : list (string * string)) : Prop :=
  NoDup (map fst m) /\
  Forall (fun kv => (exists w, no_brace w /\ fst kv = "{" ++ w ++ "}") /\ no_open (snd kv)) m.

(** ** The whole file as the printer reads it *)

(** The text of a line before the first semicolon is its code. M117 shows the rest of the
    line. In numbers a plus sign is allowed. *)
Fixpoint code_of (s : string) : string :=
  match s with
  | EmptyString => EmptyString
  | String c r => if Ascii.eqb c ";" then EmptyString else String c (code_of r)
  end.
Definition read_val2 (s : string) : option val :=
  match s with
  | String "+" r => match unsigned_val r with Some n => Some (VFin (Z.of_N n)) | None => read_val s end
  | _ => read_val s
  end.
Definition read_word2 (s : string) : option word :=
  match s with
  | EmptyString => None
  | String a r => if is_letter a then option_map (pair a) (read_val2 r) else None
  end.
(** an instruction, or nothing to do *)
Definition read_line2 (s : string) : option (option instr) :=
  match words_of (code_of s) with
  | [] => Some None
  | w :: ws =>
      if w =? "M117" then Some None
      else match all_some (map read_word2 (w :: ws)) with
           | Some (c :: cs) => Some (Some (Instr c cs))
           | _ => None
           end
  end.
Fixpoint somes {T} (l : list (option T)) : list T :=
  match l with [] => [] | Some x :: r => x :: somes r | None :: r => somes r end.
(** the instructions of a file; [None] if some line makes no sense *)
Definition read_file (s : string) : option (list instr) :=
  option_map somes (all_some (map read_line2 (lines_of s))).

(** The printer with its modes and temperatures: G90/G91 make all axes absolute or relative,
    M82/M83 the extruder; G28 homes the given axes or all; M104/M109 and M140/M190 set the
    temperatures. *)
Record printer := Printer { p_m : mach; p_rel : bool; p_relE : bool; p_ext : val; p_bed : val }.

Definition set_m (p : printer) (m : mach) : printer := Printer m (p_rel p) (p_relE p) (p_ext p) (p_bed p).

(** relative words become absolute ones *)
Definition absolute (p : printer) (w : word) : word :=
  let m := p_m p in
  let '(l, v) := w in
  if Ascii.eqb l "X" then (l, if p_rel p then vplus (m_x m) v else v)
  else if Ascii.eqb l "Y" then (l, if p_rel p then vplus (m_y m) v else v)
  else if Ascii.eqb l "Z" then (l, if p_rel p then vplus (m_z m) v else v)
  else if Ascii.eqb l "E" then (l, if p_relE p then vplus (m_e m) v else v)
  else w.

Definition home (m : mach) (ws : list word) : mach :=
  let all := negb (has "X" ws || has "Y" ws || has "Z" ws) in
  let h l v := if all || has l ws then VFin 0 else v in
  Mach (h "X"%char (m_x m)) (h "Y"%char (m_y m)) (h "Z"%char (m_z m)) (m_e m) (m_tool m) (m_f m) (m_fan m) (m_disp m).

Definition pexec (p : printer) (i : instr) : printer :=
  match i with
  | Comment _ => p
  | Instr c ws =>
      if is_cmd c "G" 90 then Printer (p_m p) false false (p_ext p) (p_bed p)
      else if is_cmd c "G" 91 then Printer (p_m p) true true (p_ext p) (p_bed p)
      else if is_cmd c "M" 82 then Printer (p_m p) (p_rel p) false (p_ext p) (p_bed p)
      else if is_cmd c "M" 83 then Printer (p_m p) (p_rel p) true (p_ext p) (p_bed p)
      else if is_cmd c "G" 28 then set_m p (home (p_m p) ws)
      else if is_cmd c "M" 104 || is_cmd c "M" 109 then
        Printer (p_m p) (p_rel p) (p_relE p) (dflt (arg "S" ws) (p_ext p)) (p_bed p)
      else if is_cmd c "M" 140 || is_cmd c "M" 190 then
        Printer (p_m p) (p_rel p) (p_relE p) (p_ext p) (dflt (arg "S" ws) (p_bed p))
      else if is_cmd c "G" 0 || is_cmd c "G" 1 then set_m p (exec (p_m p) (Instr c (map (absolute p) ws)))
      else set_m p (exec (p_m p) i)
  end.
Definition prun (p : printer) (is : list instr) : printer := fold_left pexec is p.

(** the instructions of a list without its comments *)
Definition no_comments (is : list instr) : list instr :=
  filter (fun i => match i with Comment _ => false | _ => true end) is.

(** ** What the header and the footer do *)

(** the printer is ready, whatever state [p] it was in: fan off, nozzle over the middle, empty
    extruder register of tool 0, absolute coordinates, heated; the bed was not moved *)
Record ready (bed ext speed : Z) (p q : printer) : Prop := Ready {
  rd_fan : m_fan (p_m q) = false;
  rd_e : m_e (p_m q) = VFin 0;
  rd_tool : m_tool (p_m q) = 0%Z;
  rd_f : m_f (p_m q) = VFin (1000 * speed);
  rd_x : m_x (p_m q) = VFin 0;
  rd_y : m_y (p_m q) = VFin 0;
  rd_abs : p_rel q = false /\ p_relE q = false;
  rd_ext : p_ext q = VFin (1000 * ext);
  rd_bed : p_bed q = VFin (1000 * bed);
  rd_disp : forall t, t <> 0%Z -> m_disp (p_m q) t = m_disp (p_m p) t
}.

(** the printer is switched off: heaters off, nozzle over the middle half a millimetre higher,
    filament of the tool 6 mm back, absolute coordinates; fan and other tools as before *)
Record stopped (p q : printer) : Prop := Stopped {
  st_ext : p_ext q = VFin 0;
  st_bed : p_bed q = VFin 0;
  st_fan : m_fan (p_m q) = m_fan (p_m p);
  st_tool : m_tool (p_m q) = m_tool (p_m p);
  st_x : m_x (p_m q) = VFin 0;
  st_y : m_y (p_m q) = VFin 0;
  st_z : forall z, m_z (p_m p) = VFin z -> m_z (p_m q) = VFin (z + 500);
  st_abs : p_rel q = false /\ p_relE q = false;
  st_disp : forall t, t <> m_tool (p_m p) -> m_disp (p_m q) t = m_disp (p_m p) t;
  st_disp0 : forall e d, m_e (p_m p) = VFin e -> m_disp (p_m p) (m_tool (p_m p)) = VFin d ->
    m_disp (p_m q) (m_tool (p_m p)) = VFin (d - 6000)
}.
