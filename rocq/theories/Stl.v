(** * STL files: primitives/stl.go

    Files are lists of bytes ([Z], 0..255). Coordinates are float64, so this
    part of the model is written for [ArithF64 E] only. *)
From Coq Require Import String Ascii ZArith List Bool.
From Flocq Require Import Core IEEE754.BinarySingleNaN.
From Flocq Require IEEE754.Binary IEEE754.Bits.
From Verif Require Import Arith ArithF64 Prim.
Import ListNotations.
Close Scope num_scope.
Local Open Scope Z_scope.

(** ** float32 *)

(** Go float32: IEEE-754 binary32, NaNs identified *)
Definition f32 := binary_float 24 128.
#[global] Instance prec24 : FLX.Prec_gt_0 24 := eq_refl.
#[global] Instance emax128 : Prec_lt_emax 24 128 := eq_refl.

(** Go conversion float32(x) of a float64 (stl.go:129-140): round to nearest even *)
Definition to32 (x : f64) : f32 :=
  match x with
  | B754_nan => B754_nan
  | B754_infinity s => B754_infinity s
  | B754_zero s => B754_zero s
  | B754_finite s m e _ => binary_normalize 24 128 _ _ mode_NE (SpecFloat.cond_Zopp s (Zpos m)) e s
  end.

(** Go conversion float64(x) of a float32 (stl.go:87): exact *)
Definition of32 (x : f32) : f64 :=
  match x with
  | B754_nan => B754_nan
  | B754_infinity s => B754_infinity s
  | B754_zero s => B754_zero s
  | B754_finite s m e _ => binary_normalize 53 1024 _ _ mode_NE (SpecFloat.cond_Zopp s (Zpos m)) e s
  end.

(** math.Float32bits (used by binary.Write, stl.go:141) and math.Float32frombits
    (stl.go:87). Simplified: every NaN is written with the payload 2^22, Go keeps
    the payload; read back, all NaNs are the same. *)
Definition bits32 (x : f32) : Z :=
  Bits.bits_of_b32 (Binary.BSN2B 24 128 Bits.default_nan_pl32 x).
Definition frombits32 (b : Z) : f32 := Binary.B2BSN 24 128 (Bits.b32_of_bits b).

(** binary.LittleEndian for a uint32 (stl.go:37, 87, 124, 141) *)
Definition le32 (w : Z) : list Z :=
  [w mod 256; (w / 256) mod 256; (w / 65536) mod 256; (w / 16777216) mod 256].
Definition word_of (b : list Z) : Z :=
  match b with
  | [b0; b1; b2; b3] => b0 + 256 * b1 + 65536 * b2 + 16777216 * b3
  | _ => 0
  end.

(** Go slice expression b[lo:hi], which panics when out of range *)
Definition slice {X} (b : list X) (lo hi : nat) : res (list X) :=
  if ((lo <=? hi) && (hi <=? length b))%nat
  then Ok (firstn (hi - lo) (skipn lo b)) else Panic.

(** ** SaveSTL *)
Section Stl.
Variable E : elem.
Let AE := ArithF64 E.
Let point := @point AE.
Let triangle := @triangle AE.
Let mesh := list triangle.

(** the twelve bytes of a [3]float32 (stl.go:17, 129-140) *)
Definition enc3 (x y z : f64) : list Z :=
  le32 (bits32 (to32 x)) ++ le32 (bits32 (to32 y)) ++ le32 (bits32 (to32 z)).
Definition encP (p : point) : list Z := enc3 (@px AE p) (@py AE p) (@pz AE p).
Definition encV (p : @vector AE) : list Z := enc3 (@vx AE p) (@vy AE p) (@vz AE p).

(** stl.go:12-15 and 122-124: the 84 bytes written for the header; the blank
    field is written as zeros, Count is uint32(len(mesh.Triangles)) *)
Definition stl_header (m : mesh) : list Z :=
  repeat 0 80 ++ le32 (Z.of_nat (length m) mod 2 ^ 32).
(** stl.go:16-19 and 128-141: the 50 bytes written for a triangle *)
Definition stl_record (t : triangle) : list Z :=
  encV (@t_n AE t) ++ encP (@t1 AE t) ++ encP (@t2 AE t) ++ encP (@t3 AE t) ++ [0; 0].
(** stl.go:122-144: the successive arguments of w.Write: binary.Write encodes a
    value completely and hands it to the writer in one call *)
Definition stl_chunks (m : mesh) : list (list Z) := stl_header m :: map stl_record m.

(** ** LoadSTL *)

(** outcome of LoadSTL: a mesh and an error flag (stl.go:21) *)
Inductive loaded :=
| Fails                                 (** nil mesh, non-nil error *)
| Gives (m : mesh) (err : bool).        (** mesh; [err]: non-nil error as well *)

(** stl.go:86-88 makeFloat on b[lo:lo+4] *)
Definition makeFloat (b : list Z) (lo : nat) : res f64 :=
  w <- slice b lo (lo + 4) ;; Ok (of32 (frombits32 (word_of w))).

Definition readPoint (b : list Z) (lo : nat) : res point :=
  x <- makeFloat b lo ;; y <- makeFloat b (lo + 4) ;; z <- makeFloat b (lo + 8) ;;
  Ok (@P3 AE x y z).

(** stl.go:101-105: what a worker stores at index i *)
Definition readTriangle (b : list Z) (i : nat) : res triangle :=
  let j := (i * 50)%nat in
  p1 <- readPoint b (j + 12) ;; p2 <- readPoint b (j + 24) ;; p3 <- readPoint b (j + 36) ;;
  Ok (@newTriangle AE p1 p2 p3).

(** stl.go:90-113 loadSTLBinary, [rest] being the file after the header.
    io.ReadFull fails if fewer than count*50 bytes are left. Every index is
    filled by exactly one of the strided workers (C20), hence the plain list. *)
Definition loadSTLBinary (rest : list Z) (count : nat) : res loaded :=
  if (length rest <? count * 50)%nat then Ok Fails
  else
    let b := firstn (count * 50) rest in
    ts <- rmap (readTriangle b) (seq 0 count) ;; Ok (Gives ts false).

(** ** ASCII *)

(** bufio.ScanLines (stl.go:59-60): the lines of a text, without the newline,
    an empty last line not being reported *)
Fixpoint split_lines (cur : list Z) (b : list Z) : list (list Z) :=
  match b with
  | [] => match cur with [] => [] | _ => [rev cur] end
  | c :: b => if c =? 10 then rev cur :: split_lines [] b else split_lines (c :: cur) b
  end.

(** ScanLines drops one carriage return at the end of a line *)
Definition drop_cr (l : list Z) : list Z :=
  match rev l with
  | 13 :: r => rev r
  | _ => l
  end.

(** white space of strings.TrimSpace and strings.Fields. Simplified: the ASCII
    characters only; Go also knows some non-ASCII white space, so the model is
    exact for files all of whose bytes are below 128. *)
Definition is_space (c : Z) : bool :=
  (c =? 32) || ((9 <=? c) && (c <=? 13)).

Fixpoint trim_left (l : list Z) : list Z :=
  match l with
  | c :: r => if is_space c then trim_left r else l
  | [] => []
  end.
(** strings.TrimSpace (stl.go:61) *)
Definition trim_space (l : list Z) : list Z := rev (trim_left (rev (trim_left l))).

(** strings.Fields (stl.go:65) *)
Fixpoint fields_from (cur : list Z) (l : list Z) : list (list Z) :=
  match l with
  | [] => match cur with [] => [] | _ => [rev cur] end
  | c :: r =>
      if is_space c
      then match cur with [] => fields_from [] r | _ => rev cur :: fields_from [] r end
      else fields_from (c :: cur) r
  end.
Definition fields : list Z -> list (list Z) := fields_from [].

Section Ascii.
(** primitives/utils.go:99-105 ParseFloat: any function of the text (an
    unparsable text is reported on stdout, and still gives a number) *)
Variable parse : list Z -> f64.

(** stl.go:61-69: the point of a line, if it is accepted *)
Definition line_point (raw : list Z) : res (option point) :=
  let l := trim_space (drop_cr raw) in
  if (length l <? 12)%nat then Ok None
  else
    c <- idx l 0 ;;
    if negb (c =? 118) then Ok None
    else
      tail <- slice l 7 (length l) ;;
      match fields tail with
      | [a; b; c] => Ok (Some (@P3 AE (parse a) (parse b) (parse c)))
      | _ => Ok None
      end.

(** bufio.MaxScanTokenSize *)
Definition max_token : nat := Z.to_nat 65536.

(** state of the loop stl.go:56-80: i, p1, p2 (p3 is never read later) and the
    triangles, latest first *)
Record ascii_state := AS { a_i : Z; a_p1 : point; a_p2 : point; a_ts : list triangle }.

(** stl.go:70-79 *)
Definition ascii_step (s : ascii_state) (px : point) : ascii_state :=
  let m := a_i s mod 3 in
  let i' := a_i s + 1 in
  if m =? 0 then AS i' px (a_p2 s) (a_ts s)
  else if m =? 1 then AS i' (a_p1 s) px (a_ts s)
  else AS i' (a_p1 s) (a_p2 s) (@newTriangle AE (a_p1 s) (a_p2 s) px :: a_ts s).

(** stl.go:60-80; Scan stops with an error at a line that does not fit,
    with its newline, in 65536 bytes *)
Fixpoint ascii_loop (s : ascii_state) (ls : list (list Z)) : res (ascii_state * bool) :=
  match ls with
  | [] => Ok (s, false)
  | l :: ls =>
      if (max_token <=? length l)%nat then Ok (s, true)
      else
        p <- line_point l ;;
        ascii_loop (match p with Some p => ascii_step s p | None => s end) ls
  end.

(** stl.go:55-83 loadSTLAscii: the mesh is returned also when the scanner failed *)
Definition loadSTLAscii (file : list Z) : res loaded :=
  '(s, err) <- ascii_loop (AS 0 (@originPoint AE) (@originPoint AE) []) (split_lines [] file) ;;
  Ok (Gives (rev (a_ts s)) err).

(** stl.go:21-52 LoadSTL on an existing, readable regular file with the given
    contents, which nobody changes meanwhile *)
Definition loadSTL (file : list Z) : res loaded :=
  if (length file <? 84)%nat then Ok Fails
  else
    count <- slice file 80 84 ;;
    let count := word_of count in
    if Z.of_nat (length file) =? count * 50 + 84
    then loadSTLBinary (skipn 84 file) (Z.to_nat count)
    else loadSTLAscii file.
End Ascii.

(** ** bufio.Writer over a disk that stops accepting bytes *)

(** the file written so far, and bufio.Writer's buffer and sticky error (Go's
    bufio.Writer with its default size of 4096, stl.go:121) *)
Record wstate := WS { w_file : list Z; w_buf : list Z; w_err : bool }.

Section Disk.
(** number of bytes the disk accepts in all *)
Variable limit : nat.

(** os.File.Write: writes what fits; an error iff not everything was written *)
Definition disk_write (file p : list Z) : list Z * nat * bool :=
  let n := Nat.min (length p) (limit - length file) in
  (file ++ firstn n p, n, (n <? length p)%nat).

Definition buf_size : nat := Z.to_nat 4096.

(** bufio.Writer.Flush *)
Definition w_flush (s : wstate) : wstate :=
  if w_err s then s
  else if (length (w_buf s) =? 0)%nat then s
  else let '(f, n, e) := disk_write (w_file s) (w_buf s) in
       WS f (skipn n (w_buf s)) e.

(** bufio.Writer.Write: the loop, with fuel *)
Fixpoint w_loop (fuel : nat) (s : wstate) (p : list Z) : res (wstate * list Z) :=
  if ((buf_size - length (w_buf s) <? length p)%nat && negb (w_err s))%bool
  then match fuel with
       | O => Diverge
       | S fuel =>
           if (length (w_buf s) =? 0)%nat
           then let '(f, n, e) := disk_write (w_file s) p in
                w_loop fuel (WS f (w_buf s) e) (skipn n p)
           else let n := Nat.min (length p) (buf_size - length (w_buf s)) in
                w_loop fuel (w_flush (WS (w_file s) (w_buf s ++ firstn n p) (w_err s))) (skipn n p)
       end
  else Ok (s, p).
(** bufio.Writer.Write; the flag of the state is the returned error. SaveSTL
    never runs out of the fuel (StlProofs3.save_spec). *)
Definition w_write (s : wstate) (p : list Z) : res wstate :=
  '(s, p) <- w_loop (2 + length p) s p ;;
  if w_err s then Ok s
  else Ok (WS (w_file s) (w_buf s ++ p) false).

(** stl.go:124-144: write the chunks, stopping at the first error *)
Fixpoint save_loop (s : wstate) (cs : list (list Z)) : res wstate :=
  match cs with
  | [] => Ok s
  | c :: cs =>
      s <- w_write s c ;;
      if w_err s then Ok s else save_loop s cs
  end.

(** stl.go:115-147 SaveSTL once os.Create has succeeded: the file left on the
    disk and whether an error is returned. The result of w.Flush() is ignored
    (stl.go:145-146), and so is that of the deferred Close, which is not
    modelled. *)
Definition saveSTL (m : mesh) : res (list Z * bool) :=
  s <- save_loop (WS [] [] false) (stl_chunks m) ;;
  if w_err s then Ok (w_file s, true)
  else Ok (w_file (w_flush s), false).
End Disk.
End Stl.
