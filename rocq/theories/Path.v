(** * Package primitives: path.go, and the path-related parts of point.go and plane.go *)
From Coq Require Import ZArith NArith String List Bool PeanoNat.
From Verif Require Import Arith Prim.
Import ListNotations.
Open Scope num_scope.

Section PathModel.
Context {A : Arith}.

(** primitives/path.go:9-15 Reverse *)
Definition path_rev (p : path) : path := rev p.

(** primitives/path.go:17-27 Equal *)
Fixpoint path_equal (p q : path) : bool :=
  match p, q with
  | [], [] => true
  | a :: p', b :: q' => pt_equal a b && path_equal p' q'
  | _, _ => false
  end.

(** primitives/path.go:48-54 IsClosed *)
Definition isClosed (p : path) : bool :=
  match p with
  | [] | [_] => true
  | a :: _ => pt_equal a (last p a)
  end.

(** primitives/path.go:29-46 IsWindingCW; Points[0] of an empty path panics *)
Fixpoint wind_sum (acc : num) (p : path) : num :=
  match p with
  | a :: (b :: _) as r => wind_sum (acc + (px b - px a) * (py b + py a)) r
  | _ => acc
  end.
Definition isWindingCW (p : path) : res bool :=
  match p with
  | [] => Panic
  | a :: _ =>
      let z := last p a in
      let sum := wind_sum n0 p + (px a - px z) * (py a + py z) in
      Ok (sum >? n0)
  end.
(** primitives/path.go:56-62 IsHole, IsSolid *)
Definition isHole (p : path) : res bool := b <- isWindingCW p ;; Ok (negb b).
Definition isSolid (p : path) : res bool := b <- isHole p ;; Ok (negb b).

(** primitives/path.go:64-75 Close *)
Definition path_close (p : path) : path :=
  match p with
  | a :: _ => if isClosed p then p else p ++ [a]
  | [] => p
  end.

(** primitives/path.go:321-395 FindCentroid. The accumulators of the loop. *)
Record cent := Cent { c_a : num; c_a2 : num; c_a3 : num; c_cx : num; c_cy : num;
                      c_cy2 : num; c_cz2 : num; c_cx2 : num; c_cz : num }.
Definition cent_step (c : cent) (p q : point) : cent :=
  let d := px p * py q - px q * py p in
  let d2 := px p * pz q - px q * pz p in
  let d3 := py p * pz q - py q * pz p in
  Cent (c_a c + d) (c_a2 c + d2) (c_a3 c + d3)
       (c_cx c + (px p + px q) * d) (c_cy c + (py p + py q) * d)
       (c_cy2 c + (py p + py q) * d3) (c_cz2 c + (pz p + pz q) * d3)
       (c_cx2 c + (px p + px q) * d2) (c_cz c + (pz p + pz q) * d2).
Fixpoint cent_sum (c : cent) (p : path) : cent :=
  match p with
  | a :: (b :: _) as r => cent_sum (cent_step c a b) r
  | _ => c
  end.
(** The code after the loop; [p0] is Points[0]. For an empty path all areas are
    zero and Points[0] panics. *)
Definition cent_finish (c : cent) (p0 : point) : point :=
  let half := nlit 5 10 in
  let six := nofZ 6 in
  let a := c_a c * half in
  let a2 := c_a2 c * half in
  let a3 := c_a3 c * half in
  let za := almostZero a in
  let za2 := almostZero a2 in
  let za3 := almostZero a3 in
  let x := if negb za then c_cx c / six / a else n0 in
  let y := if negb za then c_cy c / six / a else n0 in
  let x1 := if negb za2 then c_cx2 c / six / a2 else n0 in
  let z := if negb za2 then c_cz c / six / a2 else n0 in
  let y1 := if negb za3 then c_cy2 c / six / a3 else n0 in
  let z1 := if negb za3 then c_cz2 c / six / a3 else n0 in
  (* lines 371-375 *)
  let '(x, y, z) := if za && za2 then (px p0, y1, z1) else (x, y, z) in
  (* lines 376-379 *)
  let '(x, y) := if za && za3 then (x1, py p0) else (x, y) in
  (* lines 380-382 *)
  let z := if za2 && za3 then pz p0 else z in
  (* lines 384-392 *)
  let x := if za && negb za2 then x1 else x in
  let y := if za && negb za3 then y1 else y in
  let z := if za2 && negb za3 then z1 else z in
  P3 x y z.
Definition cent0 : cent := Cent n0 n0 n0 n0 n0 n0 n0 n0 n0.
Definition findCentroid (p : path) : res point :=
  match p with
  | [] => Panic
  | p0 :: _ => Ok (cent_finish (cent_sum cent0 p) p0)
  end.

(** primitives/plane.go:91-100 IntersectPathCodirectedWith *)
Fixpoint ipcw_loop (p : plane) (cp : point) (v : vector) (pts : path) : option point :=
  match pts with
  | a :: (b :: _) as r =>
      match intersectSegment p a b with
      | Some q => if codirected (vectorTo cp q) v then Some q else ipcw_loop p cp v r
      | None => ipcw_loop p cp v r
      end
  | _ => None
  end.
Definition intersectPathCodirectedWith (p : plane) (pth : path) (v : vector) : res (option point) :=
  cp <- findCentroid pth ;; Ok (ipcw_loop p cp v pth).

(** primitives/point.go:86-101 Inside *)
Fixpoint inside_count (a : point) (pl : plane) (v : vector) (pts : path) : nat :=
  match pts with
  | p :: (q :: _) as r =>
      (match intersectSegment pl p q with
       | Some i => if codirected (vectorTo a i) v then 1 else 0
       | None => 0
       end + inside_count a pl v r)%nat
  | _ => 0%nat
  end.
Definition pt_inside (a : point) (pth : path) : bool :=
  match pth with
  | p0 :: (p1 :: _ :: _ :: _) as r =>
      let n := vectorTo p0 p1 in
      let pl := Pl a n in
      let v := projectOnPlane (vectorTo a p0) pl in
      Nat.odd (inside_count a pl v pth)
  | _ => false
  end.

(** consecutive pairs of a path, as the loops "for i := 1; i < len; i++" visit them *)
Fixpoint segs (p : path) : list (point * point) :=
  match p with
  | a :: (b :: _) as r => (a, b) :: segs r
  | _ => []
  end.

(** primitives/path.go:77-96 IsInside *)
Definition path_isInside (p p1 : path) : bool :=
  if existsb (fun s => existsb (fun t => isIntersectingSegment (L2 (fst s) (snd s)) (L2 (fst t) (snd t)))
                               (segs p1)) (segs p)
  then false
  else existsb (fun q => pt_inside q p1) p.

(** ** JoinPaths3 *)

(** primitives/path.go:107-110 sortp *)
Definition sortp := (point * nat)%type.

(** primitives/path.go:208-231 tryJoin; empty paths panic. The append may reuse
    spare capacity of the first path's array; the old slice header is overwritten
    by the caller, so the value semantics below is what callers observe. *)
Definition tryJoin (p1 p2 : path) : res (option path) :=
  match p1, p2 with
  | a1 :: r1, a2 :: r2 =>
      if pt_equal (last p1 a1) a2 then Ok (Some (p1 ++ r2))
      else if pt_equal (last p2 a2) a1 then Ok (Some (p2 ++ r1))
      else Ok None
  | _, _ => Panic
  end.

(** primitives/path.go:116-127: the two end points of each path, tagged *)
Fixpoint endpoints_from (i : nat) (ps : list path) : res (list sortp) :=
  match ps with
  | [] => Ok []
  | (a :: _) as p :: r => es <- endpoints_from (S i) r ;; Ok ((a, i) :: (last p a, i) :: es)
  | [] :: _ => Panic
  end.

(** primitives/path.go:128-132: the comparator given to sort.Slice *)
Definition sortp_less (b c : point) : bool :=
  (px b <? px c) || (almostZero (px b - px c) && (py b <? py c))
  || (almostZero (px b - px c) && almostZero (py b - py c) && (pz b <? pz c)).

(** slice update l[i] = x *)
Fixpoint upd {T} (l : list T) (i : nat) (x : T) : list T :=
  match l, i with
  | [], _ => []
  | _ :: r, O => x :: r
  | y :: r, S j => y :: upd r j x
  end.

(** primitives/path.go:138-141: "for w[j] != j { j = w[j] }" *)
Fixpoint find_root (fuel : nat) (w : list nat) (j : nat) : res nat :=
  match fuel with
  | O => Diverge
  | S f => k <- idx w j ;; if Nat.eqb k j then Ok j else find_root f w k
  end.

(** primitives/path.go:134-157: one step of the main loop on adjacent sorted end points *)
Definition join_step (st : list path * list nat) (b c : sortp) : res (list path * list nat) :=
  let '(ps, w) := st in
  if pt_equal (fst b) (fst c) then
    j1 <- find_root (length w) w (snd b) ;;
    p1 <- idx ps j1 ;;
    j2 <- find_root (length w) w (snd c) ;;
    if Nat.eqb j1 j2 then Ok st else
    p2 <- idx ps j2 ;;
    r <- tryJoin p1 p2 ;;
    match r with
    | Some q => Ok (upd ps j1 q, upd w j2 j1)
    | None => Ok st
    end
  else Ok st.

Fixpoint join_loop (st : list path * list nat) (a : list sortp) : res (list path * list nat) :=
  match a with
  | b :: (c :: _) as r => st' <- join_step st b c ;; join_loop st' r
  | _ => Ok st
  end.

(** primitives/path.go:158-164: the paths that are roots, in index order *)
Definition roots_of (st : list path * list nat) : list path :=
  let '(ps, w) := st in
  map snd (filter (fun x => Nat.eqb (fst (fst x)) (snd (fst x)))
             (combine (combine w (seq 0 (length ps))) ps)).

(** primitives/path.go:113-165 JoinPaths3. [srt] is what sort.Slice does to the
    slice of end points: the comparator is not a strict weak order, so nothing
    but "a permutation" is known about it. *)
Definition joinPaths3 (srt : list sortp -> list sortp) (p : list path) : res (list path) :=
  a <- endpoints_from 0 p ;;
  st <- join_loop (p, seq 0 (length p)) (srt a) ;;
  Ok (roots_of st).

(** ** MinimizeLines *)

(** primitives/path.go:182-192. [res_rev] is the result so far, last point first;
    [l1] the current line. Returns (result reversed, l1). *)
Fixpoint min_loop (res_rev : path) (l1 : line) (rest : path) : path * line :=
  match rest with
  | [] => (res_rev, l1)
  | pt :: r =>
      let l2 := L2 (lp2 l1) pt in
      if isCollinear l1 l2
      then min_loop (pt :: tl res_rev) (L2 (lp1 l1) pt) r
      else min_loop (pt :: res_rev) l2 r
  end.

(** primitives/path.go:193-204: the seam of a closed result. [res] always has at
    least two points here. *)
Definition min_seam (res : path) (l1 : line) : path :=
  match res with
  | a :: b :: _ =>
      if isClosed res then
        let l2 := L2 a b in
        if isCollinear l1 l2 then
          if l_len l1 >? l_len l2
          then tl (removelast res ++ [b])                  (* res[last]=res[1]; res=res[1:] *)
          else match rev res with
               | _ :: y :: _ => removelast (y :: tl res)   (* res[0]=res[len-2]; drop last *)
               | _ => res
               end
        else res
      else res
  | _ => res
  end.

(** primitives/path.go:176-206 MinimizeLines *)
Definition minimizeLines (p : path) : path :=
  match p with
  | a :: b :: (c :: r) as rest =>
      let '(rr, l1) := min_loop [b; a] (L2 a b) rest in
      min_seam (rev rr) l1
  | _ => p
  end.

(** primitives/path.go:167-173 JoinPaths3AndMinimize *)
Definition joinPaths3AndMinimize (srt : list sortp -> list sortp) (p : list path) : res (list path) :=
  joined <- joinPaths3 srt p ;; Ok (map minimizeLines joined).

(** ** JoinPaths2 *)

(** The Go map lookup: association list, keys compared with Go's == on Point.
    Keys are pairwise different (as ==) because insertion happens only after a
    failed lookup; a NaN key never matches, which in Go makes every insertion a
    new entry, as here. *)
Definition lookup := list (point * path).
Definition lk_find (k : point) (m : lookup) : option path :=
  match find (fun e => pt_eqb (fst e) k) m with Some e => Some (snd e) | None => None end.
Definition lk_del (k : point) (m : lookup) : lookup := filter (fun e => negb (pt_eqb (fst e) k)) m.

(** One pass, primitives/path.go:240-256. [todo] is paths[i:]; each iteration
    either merges, reverses or inserts. Fuel bounds the number of iterations. *)
Fixpoint join2_pass (fuel : nat) (todo : list path) (m : lookup) (yes : bool) : res (lookup * bool) :=
  match fuel with
  | O => match todo with [] => Ok (m, yes) | _ => Diverge end
  | S f =>
    match todo with
    | [] => Ok (m, yes)
    | cur :: rest =>
      match cur with
      | [] => Panic
      | a :: r =>
        let ks := mapKey a in
        match lk_find ks m with
        | Some p => join2_pass f ((p ++ r) :: rest) (lk_del ks m) true
        | None =>
          let ke := mapKey (last cur a) in
          match lk_find ke m with
          | Some _ => join2_pass f (path_rev cur :: rest) m yes
          | None => join2_pass f rest (m ++ [(ke, cur)]) yes
          end
        end
      end
    end
  end.

(** Rounds, primitives/path.go:236-259. [ord k] is the iteration order Go's
    randomised map range (toslice, path.go:98-105) picks in round k. *)
Fixpoint join2_rounds (fuel : nat) (ord : nat -> list path -> list path) (k : nat)
    (paths : list path) : res (list path) :=
  match fuel with
  | O => Diverge
  | S f =>
    '(m, yes) <- join2_pass (3 * length paths) paths [] false ;;
    let paths' := ord k (map snd m) in
    if yes then join2_rounds f ord (S k) paths' else Ok paths'
  end.

(** primitives/path.go:233-261 JoinPaths2 *)
Definition joinPaths2 (ord : nat -> list path -> list path) (p : list path) : res (list path) :=
  join2_rounds (S (length p)) ord 0 p.

(** primitives/plane.go:26-34 IntersectMesh *)
Definition intersectMesh (ord : nat -> list path -> list path) (p : plane) (m : mesh) : res layer :=
  let paths := flat_map (fun t => match intersectTriangle p t with
                                  | Some l => [[lp1 l; lp2 l]]
                                  | None => []
                                  end) m in
  js <- joinPaths2 ord paths ;;
  Ok (Layer_ 0 (pl_n p) js [] None []).

End PathModel.
