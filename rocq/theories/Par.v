(** * Goroutines: the two patterns used by the code

    Every interleaving of the steps below is an execution. A step of a worker is
    the evaluation of a loop condition, of a loop body, or a channel operation. *)
From Coq Require Import List PeanoNat.
Import ListNotations.

Definition upd_at {T} (l : list T) (i : nat) (x : T) : list T := firstn i l ++ x :: skipn (S i) l.

(** ** primitives/utils.go:48-59 DoInParallelAndWait with a strided loop

    for i := wi; i < n; i += wn { arr[i] = f(i) }
    (primitives/mesh.go:40-44, primitives/stl.go:99-107). Simplified: an iteration
    is one test step and one step for the body with the increment; [log] records
    the indices written. *)
Section Strided.
Context {T : Type}.
Variables (n wn : nat) (f : nat -> T).

Inductive pc := Test (i : nat) | Body (i : nat) | Fin.
Record pstate := PS { arr : list T; pcs : list pc; log : list nat }.

(** make([]T, n); goroutine wi starts at i = wi *)
Definition pinit (d : T) : pstate := PS (repeat d n) (map Test (seq 0 wn)) [].

Inductive pstep : pstate -> pstate -> Prop :=
| ps_enter a p l w i : nth_error p w = Some (Test i) -> i < n ->
    pstep (PS a p l) (PS a (upd_at p w (Body i)) l)
| ps_exit a p l w i : nth_error p w = Some (Test i) -> n <= i ->
    pstep (PS a p l) (PS a (upd_at p w Fin) l)
| ps_body a p l w i : nth_error p w = Some (Body i) ->
    pstep (PS a p l) (PS (upd_at a i (f i)) (upd_at p w (Test (i + wn))) (l ++ [i])).

(** wg.Wait() returns: every worker has called Done *)
Definition waited (s : pstate) : Prop := Forall (fun c => c = Fin) (pcs s).
End Strided.

(** ** slicers/slice_by_vector.go:48-50, 112-123, 147-160: jobs, workers, results *)
Section Pipeline.
Context {J L : Type}.
Variables (capI capO n : nat) (work : J -> L).

(** slicingWorker: ranging over the channel, computing, sending, or returned *)
Inductive wk := Idle | Busy (j : J) | Ready (l : L) | Gone.
(** [todo]: jobs the main goroutine has not sent; [closed]: close(in) done;
    [inq], [outq]: buffers of the channels; [got]: layers[0..i) *)
Record qstate := QS { todo : list J; closed : bool; inq : list J; wks : list wk; outq : list L; got : list L }.

Definition qinit (jobs : list J) (wn : nat) : qstate := QS jobs false [] (repeat Idle wn) [] [].

Inductive qstep : qstate -> qstate -> Prop :=
(* in <- job, blocks while the buffer is full *)
| q_send j r iq ws oq g : length iq < capI ->
    qstep (QS (j :: r) false iq ws oq g) (QS r false (iq ++ [j]) ws oq g)
| q_close iq ws oq g : qstep (QS [] false iq ws oq g) (QS [] true iq ws oq g)
(* for job := range in *)
| q_take td c j iq ws w oq g : nth_error ws w = Some Idle ->
    qstep (QS td c (j :: iq) ws oq g) (QS td c iq (upd_at ws w (Busy j)) oq g)
| q_leave td ws w oq g : nth_error ws w = Some Idle ->
    qstep (QS td true [] ws oq g) (QS td true [] (upd_at ws w Gone) oq g)
| q_work td c iq ws w j oq g : nth_error ws w = Some (Busy j) ->
    qstep (QS td c iq ws oq g) (QS td c iq (upd_at ws w (Ready (work j))) oq g)
(* out <- Layer, blocks while the buffer is full *)
| q_put td c iq ws w l oq g : nth_error ws w = Some (Ready l) -> length oq < capO ->
    qstep (QS td c iq ws oq g) (QS td c iq (upd_at ws w Idle) (oq ++ [l]) g)
(* layers[i] = <-out, after close(in), n times *)
| q_recv iq ws l oq g : length g < n ->
    qstep (QS [] true iq ws (l :: oq) g) (QS [] true iq ws oq (g ++ [l])).

(** the receiving loop is over *)
Definition collected (s : qstate) : Prop := closed s = true /\ length (got s) = n.
End Pipeline.

(** zero or more steps; [k] steps *)
Inductive star {X} (step : X -> X -> Prop) : X -> X -> Prop :=
| star_refl s : star step s s
| star_step s t u : star step s t -> step t u -> star step s u.
Inductive steps {X} (step : X -> X -> Prop) : nat -> X -> X -> Prop :=
| steps_0 s : steps step 0 s s
| steps_S k s t u : steps step k s t -> step t u -> steps step (S k) s u.
