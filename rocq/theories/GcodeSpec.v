(** * What a printer makes of G-code text: reader and executor

    Specification, independent of goosli. The text is split into lines at "\n",
    a line into words at blanks. A line whose first character is ";" is a
    comment. A word is a letter and a number. *)
From Coq Require Import ZArith NArith String Ascii List Bool.
From Coq Require Import DecimalString.
Import ListNotations.
Open Scope string_scope.

(** ** Reader *)

(** pieces of a text separated by the character [c] *)
Fixpoint split_on (c : ascii) (s : string) : list string :=
  match s with
  | EmptyString => [EmptyString]
  | String a r =>
      if Ascii.eqb a c then EmptyString :: split_on c r
      else match split_on c r with
           | [] => [String a EmptyString]
           | w :: ws => String a w :: ws
           end
  end.

Definition is_empty (s : string) : bool := match s with EmptyString => true | _ => false end.
Definition nonempty (s : string) : bool := negb (is_empty s).

Definition newline : ascii := ascii_of_nat 10.
Definition lines_of (s : string) : list string := filter nonempty (split_on newline s).
Definition words_of (s : string) : list string := filter nonempty (split_on " " s).

(** A number in thousandths; the texts NaN, +Inf and -Inf, which strconv can
    produce, are recognised but are not numbers. *)
Inductive val := VFin (z : Z) | VInf (neg : bool) | VNaN.

Definition digits (s : string) : option N :=
  if is_empty s then None else option_map N.of_uint (NilEmpty.uint_of_string s).

Definition unsigned_val (s : string) : option N :=
  match split_on "." s with
  | [i] => option_map (fun n => n * 1000)%N (digits i)
  | [i; f] =>
      match digits i, digits f, String.length f with
      | Some a, Some b, 1%nat => Some (a * 1000 + b * 100)%N
      | Some a, Some b, 2%nat => Some (a * 1000 + b * 10)%N
      | Some a, Some b, 3%nat => Some (a * 1000 + b)%N
      | _, _, _ => None
      end
  | _ => None
  end.

Definition read_val (s : string) : option val :=
  if s =? "NaN" then Some VNaN
  else if s =? "+Inf" then Some (VInf false)
  else if s =? "-Inf" then Some (VInf true)
  else match s with
       | String "-" r => option_map (fun n => VFin (- Z.of_N n)) (unsigned_val r)
       | _ => option_map (fun n => VFin (Z.of_N n)) (unsigned_val s)
       end.

(** a word: letter and value *)
Definition word := (ascii * val)%type.

Definition is_letter (a : ascii) : bool :=
  let n := nat_of_ascii a in (Nat.leb 65 n && Nat.leb n 90)%bool.

Definition read_word (s : string) : option word :=
  match s with
  | EmptyString => None
  | String a r => if is_letter a then option_map (pair a) (read_val r) else None
  end.

Inductive instr :=
| Comment (text : string)
| Instr (cmd : word) (args : list word).

Fixpoint all_some {T} (l : list (option T)) : option (list T) :=
  match l with
  | [] => Some []
  | Some x :: r => option_map (cons x) (all_some r)
  | None :: _ => None
  end.

Definition read_line (s : string) : option instr :=
  match s with
  | String ";" r => Some (Comment r)
  | _ => match all_some (map read_word (words_of s)) with
         | Some (c :: ws) => Some (Instr c ws)
         | _ => None
         end
  end.

(** [None] if some line is not well-formed *)
Definition read_gcode (s : string) : option (list instr) := all_some (map read_line (lines_of s)).

(** ** Executor *)

(** value of the first word with the given letter *)
Definition arg (l : ascii) (ws : list word) : option val :=
  option_map snd (find (fun w => Ascii.eqb (fst w) l) ws).

Definition vsubt (a b : val) : val :=
  match a, b with VFin x, VFin y => VFin (x - y) | _, _ => VNaN end.
Definition vplus (a b : val) : val :=
  match a, b with VFin x, VFin y => VFin (x + y) | _, _ => VNaN end.

(** The printer: head position, extruder register E (shared by the tools, as
    G92 E sets it), selected tool, feedrate, fan, and for each tool how far its
    motor has really been moved since start. *)
Record mach := Mach {
  m_x : val; m_y : val; m_z : val;
  m_e : val;
  m_tool : Z;
  m_f : val;
  m_fan : bool;
  m_disp : Z -> val
}.

Definition mach0 : mach :=
  Mach (VFin 0) (VFin 0) (VFin 0) (VFin 0) 0 (VFin 0) false (fun _ => VFin 0).

Definition dflt (o : option val) (d : val) : val := match o with Some v => v | None => d end.

Definition upd_disp (f : Z -> val) (t : Z) (v : val) : Z -> val :=
  fun u => if (u =? t)%Z then v else f u.

(** linear move, absolute coordinates, absolute extrusion (M82) *)
Definition exec_move (m : mach) (ws : list word) : mach :=
  let e := dflt (arg "E" ws) (m_e m) in
  Mach (dflt (arg "X" ws) (m_x m)) (dflt (arg "Y" ws) (m_y m)) (dflt (arg "Z" ws) (m_z m))
       e (m_tool m) (dflt (arg "F" ws) (m_f m)) (m_fan m)
       match arg "E" ws with
       | Some v => upd_disp (m_disp m) (m_tool m) (vplus (m_disp m (m_tool m)) (vsubt v (m_e m)))
       | None => m_disp m
       end.

Definition is_cmd (w : word) (l : ascii) (n : Z) : bool :=
  Ascii.eqb (fst w) l && match snd w with VFin z => (z =? n * 1000)%Z | _ => false end.

Definition exec (m : mach) (i : instr) : mach :=
  match i with
  | Comment _ => m
  | Instr c ws =>
      if is_cmd c "G" 0 || is_cmd c "G" 1 then exec_move m ws
      else if is_cmd c "G" 92 then
        Mach (m_x m) (m_y m) (m_z m) (dflt (arg "E" ws) (m_e m)) (m_tool m) (m_f m) (m_fan m) (m_disp m)
      else if is_cmd c "M" 106 then
        Mach (m_x m) (m_y m) (m_z m) (m_e m) (m_tool m) (m_f m) true (m_disp m)
      else if is_cmd c "M" 107 then
        Mach (m_x m) (m_y m) (m_z m) (m_e m) (m_tool m) (m_f m) false (m_disp m)
      else match c with
           | ("T"%char, VFin t) =>
               Mach (m_x m) (m_y m) (m_z m) (m_e m) (t / 1000) (m_f m) (m_fan m) (m_disp m)
           | _ => m   (* anything else does not concern the parts modelled here *)
           end
  end.

Definition run (m : mach) (is : list instr) : mach := fold_left exec is m.

(** ** Kinds of instructions *)

Definition has (l : ascii) (ws : list word) : bool :=
  match arg l ws with Some _ => true | None => false end.

(** a print move: G1 with an E word and without an F word (retractions and bed
    motions carry an F word) *)
Definition is_print (i : instr) : bool :=
  match i with
  | Instr c ws => is_cmd c "G" 1 && has "E" ws && negb (has "F" ws)
  | Comment _ => false
  end.

(** a travel move to a new place: G0 with an X word *)
Definition is_travel (i : instr) : bool :=
  match i with
  | Instr c ws => is_cmd c "G" 0 && has "X" ws
  | Comment _ => false
  end.

(** ";LAYER:k" *)
Definition layer_marker (i : instr) : option N :=
  match i with
  | Comment t => if String.prefix "LAYER:" t then digits (String.substring 6 (String.length t - 6) t) else None
  | _ => None
  end.

(** layer numbers in the order of the text *)
Fixpoint markers (is : list instr) : list N :=
  match is with
  | [] => []
  | i :: r => match layer_marker i with Some k => k :: markers r | None => markers r end
  end.

(** ** Where in the text an instruction stands *)

(** the layer (last ";LAYER:k" seen) and the section (last other comment) *)
Record ctx := Ctx { c_layer : option N; c_sect : string }.
Definition ctx0 : ctx := Ctx None "".

Definition see (c : ctx) (i : instr) : ctx :=
  match i with
  | Comment t => match layer_marker i with
                 | Some k => Ctx (Some k) ""
                 | None => Ctx (c_layer c) t
                 end
  | Instr _ _ => c
  end.

(** one step of an execution: place, machine before, instruction, machine after *)
Record event := Event { ev_at : ctx; ev_before : mach; ev_instr : instr; ev_after : mach }.

Fixpoint events (c : ctx) (m : mach) (is : list instr) : list event :=
  match is with
  | [] => []
  | i :: r => let c' := see c i in let m' := exec m i in Event c' m i m' :: events c' m' r
  end.
