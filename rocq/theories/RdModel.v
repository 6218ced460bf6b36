(** Model of ugens/BufRd.h reading a Buffer.h buffer.
    The float array a buffer points to is a function with a length ([rb_len]); reading outside it is undefined ([None]).
    The buffer is not modified while it is read.  Indices are [size_t] with the wrap-around written out. *)
From Coq Require Import ZArith Bool List.
From Verif Require Import Flt UtilModel.
Import ListNotations.
Local Open Scope flt_scope.

Definition bind {A B} (x : option A) (f : A -> option B) : option B := match x with Some a => f a | None => None end.
Notation "x <- e ;; f" := (bind e (fun x => f)) (at level 61, e at next level, right associativity).

(** Buffer.h:34-45 [struct Buffer]; [rb_data = None] is a null [data] pointer, [rb_len] the length of the array behind it. *)
Record rbuf := RBuf { rb_data : option (Z -> f32); rb_len : Z; rb_ch : Z; rb_sr : f32; rb_n : Z }.
(** Buffer.h:71-73 [isValid]. *)
Definition rb_valid (b : rbuf) : bool :=
  match rb_data b with None => false | _ => true end && (0 <? rb_n b)%Z && ((rb_ch b =? 1)%Z || (rb_ch b =? 2)%Z).
(** [data[i]]. *)
Definition rb_at (b : rbuf) (i : Z) : option f32 :=
  d <- rb_data b ;; if (0 <=? i)%Z && (i <? rb_len b)%Z then Some (d i) else None.
(** Buffer.h:107-112 [getSample]. *)
Definition rb_get (b : rbuf) (i : Z) : option f32 :=
  if match rb_data b with None => true | _ => false end || (rb_n b <=? i)%Z then Some zero else rb_at b (wrap64 (i * rb_ch b)).
(** Buffer.h:122-131 [getStereoSample]. *)
Definition rb_get2 (b : rbuf) (i : Z) : option (f32 * f32) :=
  if match rb_data b with None => true | _ => false end || (rb_n b <=? i)%Z then Some (zero, zero)
  else if (rb_ch b =? 1)%Z then x <- rb_at b i ;; Some (x, x)
  else let j := wrap64 (i * 2) in l <- rb_at b j ;; r <- rb_at b (wrap64 (j + 1)) ;; Some (l, r).

(** BufRd.h:55-63 data members. *)
Record bufrd := BufRd { rd_buf : option rbuf; rd_loop : bool; rd_mode : Z }.
(** BufRd.h:69-73 [init]. *)
Definition rd_init (b : option rbuf) : bufrd := BufRd b true 2.
(** BufRd.h:79-97 setters; the mode is a [uint8_t]. *)
Definition rd_setBuffer (r : bufrd) (b : option rbuf) : bufrd := BufRd b (rd_loop r) (rd_mode r).
Definition rd_setLoop (r : bufrd) (l : bool) : bufrd := BufRd (rd_buf r) l (rd_mode r).
Definition rd_setInterpolation (r : bufrd) (m : Z) : bufrd := BufRd (rd_buf r) (rd_loop r) m.

(** BufRd.h:114-128, 179-193: wrapped or clamped phase. *)
Definition rd_phase (loop : bool) (n : Z) (phase : f32) : f32 :=
  let nf := fofZ n in
  if loop then
    let a := ffmod phase nf in
    if a <? zero then a + nf else a
  else clamp phase zero (nf - one).
(** BufRd.h:257-263 [wrapIndex]. *)
Definition rd_wrap (loop : bool) (i n : Z) : Z := if loop then (i mod n)%Z else if (i <? n)%Z then i else (n - 1)%Z.
(** BufRd.h:274-287 [cubicInterp]. *)
Definition rd_cubic (y0 y1 y2 y3 t : f32) : f32 :=
  let t2 := t * t in
  let t3 := t2 * t in
  let a0 := - half * y0 + fdec 3 2 * y1 - fdec 3 2 * y2 + half * y3 in
  let a1 := y0 - fdec 5 2 * y1 + two * y2 - half * y3 in
  let a2 := - half * y0 + half * y2 in
  a0 * t3 + a1 * t2 + a2 * t + y1.
(** BufRd.h:130-134: integer part (undefined when it does not fit [size_t]) and fraction. *)
Definition rd_split (p : f32) : option (Z * f32) := i <- to_size p ;; Some (i, p - fofZ i).
(** BufRd.h:145 indices of the four taps. *)
Definition rd_prev (loop : bool) (i n : Z) : Z := if (i =? 0)%Z then rd_wrap loop (n - 1) n else rd_wrap loop (i - 1) n.
Definition rd_next (loop : bool) (i d n : Z) : Z := rd_wrap loop (wrap64 (i + d)) n.
(** BufRd.h:108-159 [tick]. *)
Definition rd_tick (r : bufrd) (phase : f32) : option f32 :=
  match rd_buf r with
  | None => Some zero
  | Some b =>
    if negb (rb_valid b) then Some zero
    else
      let n := rb_n b in
      let lp := rd_loop r in
      s <- rd_split (rd_phase lp n phase) ;;
      let '(i, frac) := s in
      if (rd_mode r =? 2)%Z then
        s0 <- rb_get b i ;; s1 <- rb_get b (rd_next lp i 1 n) ;; Some (lerp s0 s1 frac)
      else if (rd_mode r =? 4)%Z then
        sm <- rb_get b (rd_prev lp i n) ;; s0 <- rb_get b i ;; s1 <- rb_get b (rd_next lp i 1 n) ;; s2 <- rb_get b (rd_next lp i 2 n) ;;
        Some (rd_cubic sm s0 s1 s2 frac)
      else rb_get b i
  end.
(** BufRd.h:170-222 [tickStereo]. *)
Definition rd_tick2 (r : bufrd) (phase : f32) : option (f32 * f32) :=
  match rd_buf r with
  | None => Some (zero, zero)
  | Some b =>
    if negb (rb_valid b) then Some (zero, zero)
    else
      let n := rb_n b in
      let lp := rd_loop r in
      s <- rd_split (rd_phase lp n phase) ;;
      let '(i, frac) := s in
      if (rd_mode r =? 2)%Z then
        s0 <- rb_get2 b i ;; s1 <- rb_get2 b (rd_next lp i 1 n) ;; Some (lerp (fst s0) (fst s1) frac, lerp (snd s0) (snd s1) frac)
      else if (rd_mode r =? 4)%Z then
        sm <- rb_get2 b (rd_prev lp i n) ;; s0 <- rb_get2 b i ;; s1 <- rb_get2 b (rd_next lp i 1 n) ;; s2 <- rb_get2 b (rd_next lp i 2 n) ;;
        Some (rd_cubic (fst sm) (fst s0) (fst s1) (fst s2) frac, rd_cubic (snd sm) (snd s0) (snd s1) (snd s2) frac)
      else rb_get2 b i
  end.
