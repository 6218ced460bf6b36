(** What the downsampler is specified against. *)
From Coq Require Import ZArith Reals Bool List.
From Flocq Require Import Core BinarySingleNaN.
From Verif Require Import Flt FltFacts Libm UtilModel SmoothSpec OscSpec DsModel.
Import ListNotations.
Local Open Scope R_scope.

(** One-pole lowpass of a signal over the reals, at rest before time 0. *)
Fixpoint lp (c : R) (u : nat -> R) (n : nat) : R := match n with O => c * u O | S m => (1 - c) * lp c u m + c * u n end.
(** Four in a row. *)
Definition lp4 (c : R) (u : nat -> R) : nat -> R := lp c (lp c (lp c (lp c u))).
(** Coefficient of the lowpass at 0.45 times the output rate for an oversampling factor. *)
Definition ideal_c (f : Z) : R := 1 - exp (- (2 * PI * (9 / 20) / IZR f)).
(** Mean of [m] consecutive values of a signal from [a] on. *)
Fixpoint sum (u : nat -> R) (a m : nat) : R := match m with O => 0 | S k => sum u a k + u (a + k)%nat end.
Definition mean (u : nat -> R) (a m : nat) : R := sum u a m / INR m.

(** What a listener remembers: the factor in force, the samples written since the last init, factor change or reset (oldest first), and how many of them since the last read. *)
Record ds_mem := Mem { me_f : Z; me_xs : list f32; me_m : nat }.
Definition clamp16 (f : Z) : Z := Z.max 1 (Z.min 16 f).
Definition ds_note (h : ds_mem) (o : ds_op) : ds_mem :=
  match o with
  | DsWrite x => Mem (me_f h) (me_xs h ++ [x]) (S (me_m h))
  | DsRead => Mem (me_f h) (me_xs h) 0
  | DsFactor f => Mem (clamp16 f) [] 0
  | DsReset => Mem (me_f h) [] 0
  end.
Definition ds_notes (f : Z) (ops : list ds_op) : ds_mem := fold_left ds_note ops (Mem (clamp16 f) [] 0).
(** The written signal. *)
Definition sig (xs : list f32) (n : nat) : R := B2R (nth n xs zero).
(** Samples within [b], factors are size_t values. *)
Definition ds_op_ok (b : R) (o : ds_op) : Prop := match o with DsWrite x => within b x | DsFactor f => (0 <= f < 2 ^ 64)%Z | _ => True end.
(** State after some calls. *)
Definition ds_after (L : libm) (rate : f32) (f : Z) (ops : list ds_op) : ds := fold_left (fun d o => fst (ds_call L d o)) ops (ds_init L rate f).
(** Calls that process [n] frames of [f] samples of the input. *)
Definition frames (f n : nat) (input : list f32) : list ds_op :=
  flat_map (fun i => map DsWrite (firstn f (skipn (i * f) input)) ++ [DsRead]) (seq 0 n).
(** The samples returned. *)
Fixpoint returned (l : list (option f32)) : list f32 := match l with [] => [] | Some y :: l => y :: returned l | None :: l => returned l end.
(** One channel of stereo calls. *)
Definition channel (left : bool) (o : ds2_op) : ds_op :=
  match o with D2Write l r => DsWrite (if left then l else r) | D2Read => DsRead | D2Factor f => DsFactor f | D2Reset => DsReset end.
