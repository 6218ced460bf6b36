(** Model of the random numbers SuperSaw draws (SuperSaw.h:77-79, 89-91, 108-109).
    The engine std::mt19937 is fixed by the C++ standard ([rand.eng.mers], [rand.predef]): a window on the sequence X_0, X_1, ...
    of 32-bit words; libstdc++ regenerates 624 words at a time in place, here the window moves on by one word with every draw.
    The standard leaves std::uniform_real_distribution<float> to the library; here it is that of libstdc++ (generate_canonical in bits/random.tcc). *)
From Coq Require Import ZArith Bool List.
From Flocq Require Import BinarySingleNaN.
From Verif Require Import Flt Libm UtilModel VcModel.
Import ListNotations.
Local Open Scope Z_scope.

(** [std::uint_fast32_t] arithmetic of the engine, modulo 2^32. *)
Definition u32 (x : Z) : Z := x mod 4294967296.
(** SuperSaw.h:90 [rng.seed(seed)]: X_0 = seed, X_i = 1812433253 (X_(i-1) xor (X_(i-1) >> 30)) + i; [n] further words. *)
Fixpoint mt_fill (n : nat) (i x : Z) : list Z :=
  match n with
  | O => []
  | S m => let y := u32 (1812433253 * Z.lxor x (Z.shiftr x 30) + i) in y :: mt_fill m (i + 1) y
  end.
Definition mt_seed (seed : Z) : list Z := let x := u32 seed in x :: mt_fill 623 1 x.
(** X_(i+624) from X_i, X_(i+1) and X_(i+397): upper bit of the first and lower 31 bits of the second, twisted. *)
Definition mt_twist (x0 x1 xm : Z) : Z :=
  let y := Z.lor (Z.land x0 2147483648) (Z.land x1 2147483647) in
  Z.lxor (Z.lxor xm (Z.shiftr y 1)) (if Z.odd y then 2567483615 else 0).
(** The tempering of a word on its way out: u = 11, d = ffffffff; s = 7, b = 9d2c5680; t = 15, c = efc60000; l = 18. *)
Definition mt_temper (x : Z) : Z :=
  let z := Z.lxor x (Z.land (Z.shiftr x 11) 4294967295) in
  let z := Z.lxor z (Z.land (u32 (Z.shiftl z 7)) 2636928640) in
  let z := Z.lxor z (Z.land (u32 (Z.shiftl z 15)) 4022730752) in
  Z.lxor z (Z.shiftr z 18).
(** One draw from the engine: the window X_i .. X_(i+623) moves on, the new word comes out tempered. *)
Definition mt_next (w : list Z) : list Z * Z :=
  let x := mt_twist (nth 0 w 0) (nth 1 w 0) (nth 397 w 0) in (tl w ++ [x], mt_temper x).
(** The next [n] words. *)
Fixpoint mt_words (n : nat) (w : list Z) : list Z :=
  match n with O => [] | S m => let (w1, z) := mt_next w in z :: mt_words m w1 end.

(** random.tcc:3349-3381 [generate_canonical<float, 24>]: one word is enough; a quotient rounded up to 1 becomes the float below. *)
Definition rn_canon (z : Z) : f32 :=
  let sum := fadd zero (fmul (fofZ z) one) in
  let ret := fdiv sum (fmul one (fofZ 4294967296)) in
  if fle one ret then flit 16777215 (-24) else ret.
(** SuperSaw.h:91 [uniform_real_distribution<Sample>(0.0f, 1.0f)]: [canonical * (b - a) + a]. *)
Definition rn_unit (z : Z) : f32 := fadd (fmul (rn_canon z) (fsub one zero)) zero.
(** SuperSaw.h:108-109 [dist(rng)]: draw number [k] after [rng.seed(seed)]. *)
Definition rn_draw (seed k : Z) : f32 := rn_unit (nth (Z.to_nat k) (mt_words (S (Z.to_nat k)) (mt_seed seed)) 0).
(** SuperSaw.h:86-121 [init(sr, seed)] ([unsigned int seed]). *)
Definition ss_start (L : libm) (sr : f32) (seed : Z) : ssaw := ss_init L sr (rn_draw seed).
