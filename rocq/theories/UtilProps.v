(** Property theorems for types.h, LinLin and Wrap (C14-C16). *)
From Coq Require Import ZArith Reals Bool.
From Flocq Require Import Core BinarySingleNaN.
From Verif Require Import Flt FltFacts UtilModel UtilProofs.
Local Open Scope R_scope.

(** C14: clamp, for every non-NaN value and bounds (infinities included). *)
Theorem C14_clamp : forall v lo hi : f32, is_nan v = false -> is_nan lo = false -> is_nan hi = false ->
  fle lo hi = true ->
  fle lo (clamp v lo hi) = true /\ fle (clamp v lo hi) hi = true /\
  (fle lo v = true -> fle v hi = true -> clamp v lo hi = v) /\
  (flt v lo = true -> clamp v lo hi = lo) /\ (flt hi v = true -> clamp v lo hi = hi).
Proof. exact clamp_spec. Qed.
Print Assumptions C14_clamp.
Example ex_C14_clamp : clamp (fofZ 7) zero one = one /\ clamp (fneg (fofZ 7)) zero one = zero /\
  clamp half zero one = half /\ clamp (B754_infinity true) zero one = zero.
Proof. vm_compute. auto. Qed.

(** A NaN is passed through unclamped. *)
Theorem C14_clamp_nan : forall v lo hi : f32, is_nan v = true -> is_nan (clamp v lo hi) = true.
Proof. exact clamp_nan. Qed.
Print Assumptions C14_clamp_nan.

(** C14: lerp never leaves a power-of-two bound on its end values. *)
Theorem C14_lerp_bounded : forall k (a b t : f32), (-125 <= k <= 126)%Z -> fin a -> fin b -> fin t ->
  0 <= B2R t <= 1 -> Rabs (B2R a) <= bpow radix2 k -> Rabs (B2R b) <= bpow radix2 k ->
  fin (lerp a b t) /\ Rabs (B2R (lerp a b t)) <= bpow radix2 k.
Proof. exact lerp_bound. Qed.
Print Assumptions C14_lerp_bounded.
Theorem C14_lerp_start : forall a b : f32, fin a -> fin (fsub b a) -> feq (lerp a b zero) a = true.
Proof. exact lerp_0. Qed.
Print Assumptions C14_lerp_start.
Theorem C14_lerp_monotone : forall a b t u : f32, fin a -> fin (fsub b a) -> 0 < B2R (fsub b a) -> fle t u = true ->
  fle (lerp a b t) (lerp a b u) = true.
Proof. exact lerp_mono. Qed.
Print Assumptions C14_lerp_monotone.
Example ex_C14_lerp : lerp (fofZ 2) (fofZ 4) half = fofZ 3.
Proof. vm_compute. reflexivity. Qed.
(** At t = 1 the end value is not reached in general. *)
Theorem C14_lerp_end_refuted : exists a b : f32, fin a /\ fin b /\ fin (lerp a b one) /\
  feq (lerp a b one) b = false /\ lerp a b one = zero /\ flt zero b = true.
Proof. exists one, (flit 1 (-30)). vm_compute. auto 10. Qed.
Print Assumptions C14_lerp_end_refuted.

(** C15 *)
Theorem C15_monotone : forall sl sh dl dh x y : f32,
  fin sl -> fin dl -> fin (fsub sh sl) -> 0 < B2R (fsub sh sl) -> fin (fsub dh dl) -> 0 < B2R (fsub dh dl) ->
  fle x y = true -> fle (LinLin x sl sh dl dh) (LinLin y sl sh dl dh) = true.
Proof. exact linlin_mono. Qed.
Print Assumptions C15_monotone.
Theorem C15_low_endpoint : forall sl sh dl dh : f32,
  fin sl -> fin dl -> fin (fsub sh sl) -> 0 < B2R (fsub sh sl) -> fin (fsub dh dl) ->
  feq (LinLin sl sl sh dl dh) dl = true.
Proof. exact linlin_low. Qed.
Print Assumptions C15_low_endpoint.
Theorem C15_bounded : forall k (sl sh dl dh x : f32), (-125 <= k <= 126)%Z ->
  fin sl -> fin sh -> fin x -> fin (fsub sh sl) -> 0 < B2R (fsub sh sl) ->
  B2R sl <= B2R x <= B2R sh -> fin dl -> fin dh ->
  Rabs (B2R dl) <= bpow radix2 k -> Rabs (B2R dh) <= bpow radix2 k ->
  fin (LinLin x sl sh dl dh) /\ Rabs (B2R (LinLin x sl sh dl dh)) <= bpow radix2 k.
Proof. exact linlin_bound. Qed.
Print Assumptions C15_bounded.
(** C15: an empty source range maps everything to the low end. *)
Theorem C15_empty_source_range : forall x s s' dl dh : f32, fin s -> fin s' -> feq s s' = true -> LinLin x s s' dl dh = dl.
Proof. intros x s s' dl dh F F' E. apply linlin_degenerate; auto. now apply feq_R. Qed.
Print Assumptions C15_empty_source_range.
Example ex_C15 : LinLin half zero one (fofZ 100) (fofZ 300) = fofZ 200 /\
  LinLin half one one (fofZ 100) (fofZ 300) = fofZ 100.
Proof. vm_compute. auto. Qed.
(** The high end of the destination range can be overshot. *)
Theorem C15_high_endpoint_refuted : exists sl sh dl dh : f32,
  fin sl /\ fin sh /\ fin dl /\ fin dh /\ flt sl sh = true /\ flt dl dh = true /\
  flt dh (LinLin sh sl sh dl dh) = true.
Proof. exists zero, one, (fneg one), (flit 1 (-30) - flit 1 (-25))%F. vm_compute. auto 10. Qed.
Print Assumptions C15_high_endpoint_refuted.

(** C16: default range. *)
Theorem C16_unit_range : forall x : f32, fin x ->
  fin (wrap_direct x zero one) /\ 0 <= B2R (wrap_direct x zero one) <= 1 /\
  (B2R (wrap_direct x zero one) = 1 -> - bpow radix2 (-25) <= B2R x < 0) /\
  B2R (wrap_direct x zero one) = @rnd 24 128 (B2R x - IZR (Zfloor (B2R x))).
Proof. exact wrap_unit. Qed.
Print Assumptions C16_unit_range.
(** C16: whole-number values wrap exactly. *)
Theorem C16_integers_exact : forall x lo hi : Z,
  (Z.abs x <= 2 ^ 22)%Z -> (Z.abs lo <= 2 ^ 22)%Z -> (Z.abs hi <= 2 ^ 22)%Z -> (lo < hi)%Z ->
  B2R (wrap_direct (fofZ x) (fofZ lo) (fofZ hi)) = IZR (lo + (x - lo) mod (hi - lo)) /\
  fin (wrap_direct (fofZ x) (fofZ lo) (fofZ hi)).
Proof. exact wrap_int. Qed.
Print Assumptions C16_integers_exact.
Example ex_C16 : wrap_direct (fofZ (-7)) (fofZ 2) (fofZ 5) = fofZ 2 /\ wrap_direct (flit 5 (-1)) zero one = half.
Proof. vm_compute. auto. Qed.
(** C16: for arbitrary bounds the result is congruent to the input and within
    the range up to 2^-20 of the magnitudes involved. *)
Theorem C16_error_bound : forall x lo hi : f32, fin x -> fin lo -> fin hi -> fin (fsub hi lo) ->
  Rabs (B2R x) <= bpow radix2 60 -> Rabs (B2R lo) <= bpow radix2 60 ->
  bpow radix2 (-60) <= B2R (fsub hi lo) <= bpow radix2 60 ->
  fin (wrap_direct x lo hi) /\
  exists k : Z,
    Rabs (B2R (wrap_direct x lo hi) - (B2R x - IZR k * B2R (fsub hi lo)))
      <= bpow radix2 (-20) * (Rabs (B2R x) + Rabs (B2R lo) + B2R (fsub hi lo)) /\
    B2R lo - bpow radix2 (-20) * (Rabs (B2R x) + Rabs (B2R lo) + B2R (fsub hi lo))
      <= B2R (wrap_direct x lo hi) <=
    B2R lo + B2R (fsub hi lo) + bpow radix2 (-20) * (Rabs (B2R x) + Rabs (B2R lo) + B2R (fsub hi lo)).
Proof. exact wrap_error. Qed.
Print Assumptions C16_error_bound.
(** C16: setRange then tick is the direct call, bit for bit; an empty range returns lo. *)
Theorem C16_cached_equals_direct : forall x lo hi : f32, wrap_tick (wrap_setRange lo hi) x = wrap_direct x lo hi.
Proof. exact wrap_cached. Qed.
Print Assumptions C16_cached_equals_direct.
Theorem C16_empty_range : forall x lo hi : f32, fle (fsub hi lo) zero = true -> wrap_direct x lo hi = lo.
Proof. exact wrap_degenerate. Qed.
Print Assumptions C16_empty_range.
(** The documented half-open range fails on both sides: the upper bound is
    returned for a tiny negative input, and 0.9f wrapped to [0, 0.1f) is negative. *)
Theorem C16_upper_exclusive_refuted : exists x : f32, fin x /\ wrap_direct x zero one = one.
Proof. exists (fneg (flit 1 (-40))). vm_compute. auto. Qed.
Print Assumptions C16_upper_exclusive_refuted.
Theorem C16_lower_bound_refuted : exists x hi : f32, fin x /\ fin hi /\ flt zero hi = true /\
  x = fdec 9 10 /\ hi = fdec 1 10 /\ flt (wrap_direct x zero hi) zero = true.
Proof. exists (fdec 9 10), (fdec 1 10). vm_compute. auto 10. Qed.
Print Assumptions C16_lower_bound_refuted.
