(** * Vocabulary of the statements about where the head prints *)
From Coq Require Import ZArith NArith Reals String List Bool.
From Verif Require Import Arith ArithR Prim Gcode GcodeSpec GcodeInstr GcodeClaims GeomSpec.
Import ListNotations.
Close Scope R_scope.
Close Scope Z_scope.
Close Scope string_scope.
Close Scope num_scope.

Section Any.
Context {A : Arith}.

(** the head is, on every axis, where some vertex of the path is written *)
Definition among (p : path) (m : mach) : Prop :=
  (exists q, In q p /\ m_x m = V (px q)) /\ (exists q, In q p /\ m_y m = V (py q)) /\ (exists q, In q p /\ m_z m = V (pz q)).

(** the paths of the section that a comment opens *)
Definition section_paths (l : layer) (sec : string) : list path :=
  if String.eqb sec "OUTER_PATHES" then l_paths l
  else if String.eqb sec "MIDDLE_PATHES" then l_middle l
  else if String.eqb sec "INNER_PATHES" then match l_inner l with Some ps => ps | None => [] end
  else if String.eqb sec "FILL_PATHES" then l_fill l
  else [].

(** a print move stays among the vertices of a path of the section of [l] it is in *)
Definition moves_in (l : layer) (e : event) : Prop :=
  is_print (ev_instr e) = true ->
  exists p, In p (section_paths l (c_sect (ev_at e))) /\ among p (ev_before e) /\ among p (ev_after e).
(** of the layer of [ls] that the text says, counting from [k] *)
Definition moves_among (k : N) (ls : list layer) (e : event) : Prop :=
  is_print (ev_instr e) = true ->
  exists j l, c_layer (ev_at e) = Some (k + N.of_nat j)%N /\ nth_error ls j = Some l /\ moves_in l e.
End Any.

Local Open Scope R_scope.
(** a written number *)
Definition written (v : val) (x : R) : Prop := exists z, v = VFin z /\ x = IZR z / 1000.
(** half a thousandth for the text, and half of the eighth decimal *)
Definition slack : R := 5 / 10 ^ 4 + 5 / 10 ^ 9.
(** not beyond the least and the greatest of the values [g] takes on the vertices *)
Definition between (g : Rpoint -> R) (m : Rmesh) (v : val) : Prop :=
  exists x, written v x /\
    forall lo hi, (forall a, In a (vertices m) -> lo <= g a <= hi) -> lo - slack <= x <= hi + slack.
Definition near (c : R) (v : val) : Prop := exists x, written v x /\ Rabs (x - c) <= slack.
