(** Model of ugens/FVerb.h, ugens/fverb/FVerb.cpp and the Faust program ugens/fverb/FVerbDSP.h.
    [None] is undefined behaviour: an index outside an array, an [int] overflow, a float-to-int conversion out of range,
    or a null pointer used.  Every two-element array fRecN/iRecN only carries its element [1] (the previous frame's value) from
    one frame to the next, so the state keeps one value for it; element [0] is a local of the frame function.
    The right and the left side of the network (input1 / fVec0-8, fRec0-2 and input0 / fVec9-16, fRec3-5) are the same
    statements on different variables: each is modelled once and used twice.  The left side writes some products with
    the factors exchanged ([fTemp1 * fRec52[0]] for [fRec26[0] * fTemp1]), which is the same float; where the
    association differs (line 920 against 853) the model keeps the difference. *)
From Coq Require Import ZArith Bool List.
From Verif Require Import Flt Libm UtilModel.
Import ListNotations.
Local Open Scope flt_scope.

Notation "x <- e ;; f" := (match e with Some x => f | None => None end) (at level 61, e at next level, right associativity).

(** ** Arrays *)
(** [float v[N]]: length and contents. *)
Record ring := Ring { r_len : Z; r_mem : Z -> f32 }.
(** FVerbDSP.h:428-609 [instanceClear] of one array. *)
Definition ring0 (len : Z) : ring := Ring len (fun _ => zero).
Definition r_in (r : ring) (i : Z) : bool := (0 <=? i)%Z && (i <? r_len r)%Z.
Definition rd (r : ring) (i : Z) : option f32 := if r_in r i then Some (r_mem r i) else None.
Definition wr (r : ring) (i : Z) (x : f32) : option ring :=
  if r_in r i then Some (Ring (r_len r) (fun j => if (j =? i)%Z then x else r_mem r j)) else None.
(** An [int] result. *)
Definition i32 (n : Z) : option Z := if (INT_MIN <=? n)%Z && (n <=? INT_MAX)%Z then Some n else None.
(** [v[(IOTA0 - k) & mask]] as an operand and [v[IOTA0 & mask] = x]; [&] on two's complement. *)
Definition tap (r : ring) (iota k mask : Z) : option f32 := i <- i32 (iota - k) ;; rd r (Z.land i mask).
Definition put (r : ring) (iota mask : Z) (x : f32) : option ring := wr r (Z.land iota mask) x.
(** [std::min<int>(65536, std::max<int>(0, n))]. *)
Definition lim (n : Z) : Z := Z.min 65536 (Z.max 0 n).
(** [std::max<float>(a, b)], [std::min<float>(a, b)]. *)
Definition fmaxf (a b : f32) : f32 := if a <? b then b else a.
Definition fminf (a b : f32) : f32 := if b <? a then b else a.

(** ** Constants *)

(** FVerbDSP.h:175-282 fConst0-5, 11, 12 and the tap lengths iConst6-10, 13-35. *)
Record fvk := FvK { k0 : f32; k1 : f32; k2 : f32; k3 : f32; k4 : f32; k5 : f32; k11 : f32; k12 : f32;
  c6 : Z; c7 : Z; c8 : Z; c9 : Z; c10 : Z; c13 : Z; c14 : Z; c15 : Z; c16 : Z; c17 : Z; c18 : Z; c19 : Z; c20 : Z; c21 : Z; c22 : Z; c23 : Z; c24 : Z; c25 : Z; c26 : Z; c27 : Z; c28 : Z; c29 : Z; c30 : Z; c31 : Z; c32 : Z; c33 : Z; c34 : Z; c35 : Z }.
(** FVerbDSP.h:347-348. *)
Definition fv_k0 (sr : Z) : f32 := fminf (fofZ 192000) (fmaxf one (fofZ sr)).
(** FVerbDSP.h:346-411 [instanceConstants]; literals as binary32 values. *)
Definition fv_consts (sr : Z) : option fvk :=
  let k0 := fv_k0 sr in
  let k1 := (flit 5780275 (-17) : f32) (* 44.1f *) / k0 in
  let k2 := one - k1 in
  let k3 := (flit 13176795 (-21) : f32) (* 6.2831855f *) / k0 in
  let k4 := (flit 14797505 (-25) : f32) (* 0.441f *) / k0 in
  let k5 := (flit 2959501 (-26) : f32) (* 0.0441f *) / k0 in
  let k11 := one / k0 in
  n12 <- to_int ((flit 5368709 (-29) : f32) (* 0.01f *) * k0) ;;
  let k12 := one / fofZ n12 in
  n6 <- to_int ((flit 4969497 (-30) : f32) (* 0.0046282047f *) * k0) ;;
  n7 <- to_int ((flit 3976247 (-30) : f32) (* 0.0037031686f *) * k0) ;;
  n8 <- to_int ((flit 7042045 (-29) : f32) (* 0.013116831f *) * k0) ;;
  n9 <- to_int ((flit 9694019 (-30) : f32) (* 0.009028259f *) * k0) ;;
  n10 <- to_int ((flit 1783083 (-24) : f32) (* 0.10628003f *) * k0) ;;
  n13 <- to_int ((flit 9509025 (-26) : f32) (* 0.14169551f *) * k0) ;;
  n14 <- to_int ((flit 11978169 (-27) : f32) (* 0.08924431f *) * k0) ;;
  n15 <- to_int ((flit 10553777 (-31) : f32) (* 0.0049144854f *) * k0) ;;
  n16 <- to_int ((flit 3744621 (-30) : f32) (* 0.00348745f *) * k0) ;;
  n17 <- to_int ((flit 13263657 (-30) : f32) (* 0.012352743f *) * k0) ;;
  n18 <- to_int ((flit 10293649 (-30) : f32) (* 0.009586708f *) * k0) ;;
  n19 <- to_int ((flit 4194163 (-25) : f32) (* 0.1249958f *) * k0) ;;
  n20 <- to_int ((flit 10041187 (-26) : f32) (* 0.14962535f *) * k0) ;;
  n21 <- to_int ((flit 8117735 (-27) : f32) (* 0.06048184f *) * k0) ;;
  n22 <- to_int ((flit 4807503 (-27) : f32) (* 0.03581869f *) * k0) ;;
  n23 <- to_int ((flit 13493479 (-31) : f32) (* 0.006283391f *) * k0) ;;
  n24 <- to_int ((flit 8974607 (-27) : f32) (* 0.06686603f *) * k0) ;;
  n25 <- to_int ((flit 2156837 (-25) : f32) (* 0.06427875f *) * k0) ;;
  n26 <- to_int ((flit 4500833 (-26) : f32) (* 0.06706764f *) * k0) ;;
  n27 <- to_int ((flit 6706151 (-26) : f32) (* 0.09992944f *) * k0) ;;
  n28 <- to_int ((flit 9596967 (-30) : f32) (* 0.008937872f *) * k0) ;;
  n29 <- to_int ((flit 8731075 (-31) : f32) (* 0.0040657236f *) * k0) ;;
  n30 <- to_int ((flit 12086405 (-30) : f32) (* 0.011256342f *) * k0) ;;
  n31 <- to_int ((flit 9520299 (-27) : f32) (* 0.070931755f *) * k0) ;;
  n32 <- to_int ((flit 5538099 (-27) : f32) (* 0.041262053f *) * k0) ;;
  n33 <- to_int ((flit 3013709 (-25) : f32) (* 0.08981553f *) * k0) ;;
  n34 <- to_int ((flit 4089309 (-25) : f32) (* 0.121870905f *) * k0) ;;
  n35 <- to_int ((flit 795989 (-26) : f32) (* 0.01186116f *) * k0) ;;
  Some (FvK k0 k1 k2 k3 k4 k5 k11 k12
    (lim (n6 + -1)) (lim (n7 + -1)) (lim (n8 + -1)) (lim (n9 + -1)) (lim n10 + 1) (lim n13) (lim (n14 + -1))
    (lim (n15 + -1)) (lim (n16 + -1)) (lim (n17 + -1)) (lim (n18 + -1)) (lim n19 + 1) (lim n20) (lim (n21 + -1))
    (lim n22) (lim n23) (lim n24) (lim n25) (lim n26) (lim n27) (lim n28)
    (lim n29) (lim n30) (lim n31) (lim n32) (lim n33) (lim n34) (lim n35))%Z.

(** ** Parameters *)
(** FVerbDSP.h:178-222 fHslider0-10. *)
Record fvsl := FvSl { s_damp : f32; s_dens : f32; s_dif2 : f32; s_dif1 : f32; s_hp : f32; s_lp : f32;
                      s_amt : f32; s_pre : f32; s_dec : f32; s_mf : f32; s_md : f32 }.
(** FVerbDSP.h:414-426 [instanceResetUserInterface]. *)
Definition fv_sl0 : fvsl :=
  FvSl (fofZ 5500) (fofZ 70) (fdec 125 2) (fofZ 75) (fofZ 100) (fofZ 10000) (fofZ 100) zero (fofZ 50) one half.
(** FVerbDSP.h:701-713 [Parameter]. *)
Inductive fvparam := PREDELAY | INPUT_AMOUNT | INPUT_LOW_PASS_CUTOFF | INPUT_HIGH_PASS_CUTOFF | INPUT_DIFFUSION_1
  | INPUT_DIFFUSION_2 | TAIL_DENSITY | DECAY | DAMPING | MODULATOR_FREQUENCY | MODULATOR_DEPTH.
(** FVerbDSP.h:715-751 [SetParamValue]. *)
Definition fv_setp (p : fvparam) (v : f32) (s : fvsl) : fvsl :=
  let 'FvSl h0 h1 h2 h3 h4 h5 h6 h7 h8 h9 h10 := s in
  match p with
  | PREDELAY => FvSl h0 h1 h2 h3 h4 h5 h6 v h8 h9 h10
  | INPUT_AMOUNT => FvSl h0 h1 h2 h3 h4 h5 v h7 h8 h9 h10
  | INPUT_LOW_PASS_CUTOFF => FvSl h0 h1 h2 h3 h4 v h6 h7 h8 h9 h10
  | INPUT_HIGH_PASS_CUTOFF => FvSl h0 h1 h2 h3 v h5 h6 h7 h8 h9 h10
  | INPUT_DIFFUSION_1 => FvSl h0 h1 h2 v h4 h5 h6 h7 h8 h9 h10
  | INPUT_DIFFUSION_2 => FvSl h0 h1 v h3 h4 h5 h6 h7 h8 h9 h10
  | TAIL_DENSITY => FvSl h0 v h2 h3 h4 h5 h6 h7 h8 h9 h10
  | DECAY => FvSl h0 h1 h2 h3 h4 h5 h6 h7 v h9 h10
  | DAMPING => FvSl v h1 h2 h3 h4 h5 h6 h7 h8 h9 h10
  | MODULATOR_FREQUENCY => FvSl h0 h1 h2 h3 h4 h5 h6 h7 h8 v h10
  | MODULATOR_DEPTH => FvSl h0 h1 h2 h3 h4 h5 h6 h7 h8 h9 v
  end.
(** FVerb.cpp:103-178: the limits and the clamp of each setter. *)
Definition fv_lo (p : fvparam) : f32 :=
  match p with INPUT_LOW_PASS_CUTOFF | INPUT_HIGH_PASS_CUTOFF => one | DAMPING => fofZ 10
             | MODULATOR_FREQUENCY => fdec 1 100 | _ => zero end.
Definition fv_hi (p : fvparam) : f32 :=
  match p with PREDELAY => fofZ 300 | INPUT_LOW_PASS_CUTOFF | DAMPING => fofZ 20000 | INPUT_HIGH_PASS_CUTOFF => fofZ 1000
             | MODULATOR_FREQUENCY => fofZ 4 | MODULATOR_DEPTH => fofZ 10 | _ => fofZ 100 end.
Definition fv_clamp (p : fvparam) (x : f32) : f32 :=
  if x <? fv_lo p then fv_lo p else if x >? fv_hi p then fv_hi p else x.

(** FVerbDSP.h:180-222: the smoothed parameters fRec8, 12, 15, 20, 24, 25, 27, 28, 29, 36, 37. *)
Record fvpar := FvPar { p8 : f32; p12 : f32; p15 : f32; p20 : f32; p24 : f32; p25 : f32; p27 : f32; p28 : f32;
                        p29 : f32; p36 : f32; p37 : f32 }.
Definition fv_par0 : fvpar := FvPar zero zero zero zero zero zero zero zero zero zero zero.
(** FVerbDSP.h:759-769 fSlow0-10, in the order of the smoothed parameters. *)
Definition fv_slow (L : libm) (k : fvk) (s : fvsl) : fvpar :=
  FvPar (k1 k * m_exp L (- (k3 k * s_damp s))) (k4 k * s_dens s) (k4 k * s_dif2 s) (k4 k * s_dif1 s)
    (k1 k * m_exp L (- (k3 k * s_hp s))) (k1 k * m_exp L (- (k3 k * s_lp s))) (k4 k * s_amt s) (k5 k * s_pre s)
    (k4 k * s_dec s) (k1 k * s_mf s) (k5 k * s_md s).
(** FVerbDSP.h:771-779, 781, 804, 808, 811 [fRecN[0] = fSlow + fConst2 * fRecN[1]]. *)
Definition fv_smooth (k : fvk) (w p : fvpar) : fvpar :=
  let f (a b : f32) := a + k2 k * b in
  FvPar (f (p8 w) (p8 p)) (f (p12 w) (p12 p)) (f (p15 w) (p15 p)) (f (p20 w) (p20 p)) (f (p24 w) (p24 p))
    (f (p25 w) (p25 p)) (f (p27 w) (p27 p)) (f (p28 w) (p28 p)) (f (p29 w) (p29 p)) (f (p36 w) (p36 p)) (f (p37 w) (p37 p)).

(** ** Input chain of one side *)
(** FVerbDSP.h:195-212 fVec0, fRec26, fRec23, fVec1, fRec21, fVec2, fRec18, fVec3, fRec16, fVec4, fRec13
    (left side: 238-252 fVec9, fRec52, fRec51, fVec10, fRec49, fVec11, fRec47, fVec12, fRec45, fVec13, fRec43). *)
Record fvin := FvIn { i_pre : ring; i_lp : f32; i_hp : f32; i_v1 : ring; i_r1 : f32; i_v2 : ring; i_r2 : f32;
                      i_v3 : ring; i_r3 : f32; i_v4 : ring; i_r4 : f32 }.
(** FVerbDSP.h:195-212, 238-252 (sizes) cleared at 450-487, 552-581. *)
Definition fv_in0 : fvin :=
  FvIn (ring0 131072) zero zero (ring0 1024) zero (ring0 1024) zero (ring0 4096) zero (ring0 2048) zero.
(** FVerbDSP.h:780-803 (left: 860-879).  [t1]-[t4]: iConst6-9 (left: iConst15-18), [it2]: iTemp2.
    Result: new state, fRec13[1] before the frame, fRec14. *)
Definition fv_input (p : fvpar) (it2 t1 t2 t3 t4 iota : Z) (x : f32) (s : fvin) : option (fvin * f32 * f32) :=
  let temp1 := one - p25 p in
  v0 <- put (i_pre s) iota 131071 (x * p27 p) ;;
  d0 <- tap v0 iota it2 131071 ;;
  let r26 := d0 + p25 p * i_lp s in
  let r23 := r26 * temp1 + p24 p * i_hp s in
  let temp3 := p24 p + one in
  let temp4 := half * temp3 * (r23 - i_hp s) - p20 p * i_r1 s in
  v1 <- put (i_v1 s) iota 1023 temp4 ;;
  r21 <- tap v1 iota t1 1023 ;;
  let r22 := p20 p * temp4 in
  let temp5 := r22 + i_r1 s - p20 p * i_r2 s in
  v2 <- put (i_v2 s) iota 1023 temp5 ;;
  r18 <- tap v2 iota t2 1023 ;;
  let r19 := p20 p * temp5 in
  let temp6 := r19 + i_r2 s - p15 p * i_r3 s in
  v3 <- put (i_v3 s) iota 4095 temp6 ;;
  r16 <- tap v3 iota t3 4095 ;;
  let r17 := p15 p * temp6 in
  let temp7 := r17 + i_r3 s - p15 p * i_r4 s in
  v4 <- put (i_v4 s) iota 2047 temp7 ;;
  r13 <- tap v4 iota t4 2047 ;;
  let r14 := p15 p * temp7 in
  Some (FvIn v0 r26 r23 v1 r21 v2 r18 v3 r16 v4 r13, i_r4 s, r14).

(** ** Modulated delay of one side *)
(** FVerbDSP.h:136-162: entry [i] of the sine table. *)
Definition fv_sin (L : libm) (i : Z) : f32 := m_sin L ((flit 13176795 (-37) : f32) (* 9.58738e-05f *) * fofZ i).
(** FVerbDSP.h:153-162 [fillFVerbDSPSIG0]: the loop itself, from counter values [v] = iVec6[1] and [c] = iRec34[1];
    the list is table[0..count-1]. *)
Fixpoint fv_fill (L : libm) (count : nat) (v c : Z) : list f32 :=
  match count with
  | O => []
  | S n => let c' := Z.rem (v + c) 65536 in fv_sin L c' :: fv_fill L n 1 c'
  end.
(** FVerbDSP.h:815-821, 884-889: the table index [std::max<int>(0, std::min<int>(n, 65535))]. *)
Definition fv_tix (n : Z) : Z := Z.max 0 (Z.min n 65535).
(** FVerbDSP.h:809-810: fRec35[0] from fRec35[1] and fRec36[0]. *)
Definition fv_phase (k : fvk) (p : fvpar) (r35 : f32) : option f32 :=
  let temp9 := r35 + k11 k * p36 p in
  n <- to_int temp9 ;; Some (temp9 - fofZ n).
(** FVerbDSP.h:812-823 iTemp10 (right). *)
Definition fv_dR (L : libm) (k : fvk) (p : fvpar) (r35 : f32) : option Z :=
  q <- to_int (r35 + flit 1 (-2)) ;;
  n <- to_int (fofZ 65536 * (r35 + (flit 1 (-2) - fofZ q))) ;;
  m <- to_int (k0 k * (p37 p * fv_sin L (fv_tix n) + (flit 16379785 (-29) : f32) (* 0.030509727f *))) ;;
  i32 (m + -1).
(** FVerbDSP.h:884-890 iTemp21 (left). *)
Definition fv_dL (L : libm) (k : fvk) (p : fvpar) (r35 : f32) : option Z :=
  n <- to_int (fofZ 65536 * r35) ;;
  m <- to_int (k0 k * (p37 p * fv_sin L (fv_tix n) + (flit 13746031 (-29) : f32) (* 0.025603978f *))) ;;
  i32 (m + -1).
(** FVerbDSP.h:224-227 fRec30, fRec31, iRec32, iRec33 (left: 255-258 fRec53, fRec54, iRec55, iRec56). *)
Record fvmod := FvMod { x_inc : f32; x_mix : f32; x_a : Z; x_b : Z }.
Definition fv_mod0 : fvmod := FvMod zero zero 0 0.
(** FVerbDSP.h:824-838 (left: 891-905) with [d] = iTemp10 (iTemp21). *)
Definition fv_modstep (k : fvk) (d : Z) (s : fvmod) : fvmod :=
  let temp11 :=
    if x_inc s <>? zero then (if (x_mix s >? zero) && (x_mix s <? one) then x_inc s else zero)
    else if (x_mix s =? zero) && negb (d =? x_a s)%Z then k12 k
    else if (x_mix s =? one) && negb (d =? x_b s)%Z then - k12 k
    else zero in
  FvMod temp11 (fmaxf zero (fminf one (x_mix s + temp11)))
    (if (x_mix s >=? one) && negb (x_b s =? d)%Z then d else x_a s)
    (if (x_mix s <=? zero) && negb (x_a s =? d)%Z then d else x_b s).

(** ** Half of the tank *)
(** FVerbDSP.h:216, 224-237 fVec5, fRec30-33, fRec10, fVec7, fRec9, fVec8, fRec6, fRec0, fRec1, fRec2
    (left: 254-268 fVec14, fRec53-56, fRec41, fVec15, fRec40, fVec16, fRec38, fRec3, fRec4, fRec5). *)
Record fvhalf := FvHalf { h_v5 : ring; h_mod : fvmod; h_r10 : f32; h_v7 : ring; h_r9 : f32; h_v8 : ring; h_r6 : f32;
                          h_out : ring; h_damp : ring; h_diff : ring }.
(** FVerbDSP.h:216-237 and 254-268 (sizes) cleared at 491-551, 582-609. *)
Definition fv_R0 : fvhalf :=
  FvHalf (ring0 131072) fv_mod0 zero (ring0 32768) zero (ring0 32768) zero (ring0 32768) (ring0 16384) (ring0 32768).
Definition fv_L0 : fvhalf :=
  FvHalf (ring0 131072) fv_mod0 zero (ring0 32768) zero (ring0 16384) zero (ring0 32768) (ring0 8192) (ring0 32768).
(** FVerbDSP.h:852-853 and 920: [fRec29[0] * fRec9[0] * fTemp0] (right), [fRec29[0] * fTemp0 * fRec40[0]] (left). *)
Definition fv_dampR (r29 r9 temp0 : f32) : f32 := r29 * r9 * temp0.
Definition fv_dampL (r29 r40 temp0 : f32) : f32 := r29 * temp0 * r40.
(** FVerbDSP.h:805-807, 824-859 (left: 880-883, 891-926).  [r13], [r14]: output of the input chain; [cross]: the other half's
    output as read at line 805 (881); [d]: iTemp10 (iTemp21); [t7], [t8]: iConst13, 14 (20, 21); [m8], [md]: masks of
    fVec8 and fRec1 (fVec16 and fRec4). *)
Definition fv_half (k : fvk) (p : fvpar) (damped : f32 -> f32 -> f32 -> f32) (t7 t8 m8 md iota d : Z)
    (r13 r14 cross : f32) (s : fvhalf) : option fvhalf :=
  let temp0 := one - p8 p in
  let temp8 := r13 + p29 p * cross + r14 + p12 p * h_r10 s in
  v5 <- put (h_v5 s) iota 131071 temp8 ;;
  let m := fv_modstep k d (h_mod s) in
  temp12 <- tap v5 iota (lim (x_a m)) 131071 ;;
  y <- tap v5 iota (lim (x_b m)) 131071 ;;
  let r10 := temp12 + x_mix m * (y - temp12) in
  let r11 := - (p12 p * temp8) in
  let temp13 := r11 + h_r10 s in
  v7 <- put (h_v7 s) iota 32767 temp13 ;;
  d7 <- tap v7 iota t7 32767 ;;
  let r9 := d7 + p8 p * h_r9 s in
  let temp14 := fminf half (fmaxf (flit 1 (-2)) (p29 p + (flit 5033165 (-25) : f32) (* 0.15f *))) in
  let temp15 := temp14 * h_r6 s + damped (p29 p) r9 temp0 in
  v8 <- put (h_v8 s) iota m8 temp15 ;;
  r6 <- tap v8 iota t8 m8 ;;
  let r7 := - (temp14 * temp15) in
  o <- put (h_out s) iota 32767 (r7 + h_r6 s) ;;
  dm <- put (h_damp s) iota md (r9 * temp0) ;;
  df <- put (h_diff s) iota 32767 temp13 ;;
  Some (FvHalf v5 m r10 v7 r9 v8 r6 o dm df).

(** ** One frame *)
Record fvdsp := FvDsp { d_k : fvk; d_sl : fvsl; d_iota : Z; d_par : fvpar; d_ph : f32;
                        d_inR : fvin; d_R : fvhalf; d_inL : fvin; d_L : fvhalf }.
(** FVerbDSP.h:428-610 [instanceClear]: everything but constants and sliders. *)
Definition fv_clear (s : fvdsp) : fvdsp :=
  FvDsp (d_k s) (d_sl s) 0 fv_par0 zero fv_in0 fv_R0 fv_in0 fv_L0.
(** FVerbDSP.h:612-621 [init], [instanceInit]. *)
Definition fv_dinit (sr : Z) : option fvdsp :=
  k <- fv_consts sr ;; Some (FvDsp k fv_sl0 0 fv_par0 zero fv_in0 fv_R0 fv_in0 fv_L0).

(** FVerbDSP.h:770-979: the body of the loop; [w]: fSlow0-10, [xl], [xr]: input0[i0], input1[i0]; result: the new state and
    output0[i0], output1[i0]. *)
Definition fv_frame (L : libm) (w : fvpar) (s : fvdsp) (xl xr : f32) : option (fvdsp * f32 * f32) :=
  let k := d_k s in
  let i := d_iota s in
  let p := fv_smooth k w (d_par s) in
  n2 <- to_int (k0 k * p28 p) ;;
  let it2 := lim n2 in
  inR <- fv_input p it2 (c6 k) (c7 k) (c8 k) (c9 k) i xr (d_inR s) ;;
  let '(iR, r13, r14) := inR in
  xR <- tap (h_out (d_L s)) i (c10 k) 32767 ;;
  ph <- fv_phase k p (d_ph s) ;;
  dR <- fv_dR L k p ph ;;
  R <- fv_half k p fv_dampR (c13 k) (c14 k) 32767 16383 i dR r13 r14 xR (d_R s) ;;
  inL <- fv_input p it2 (c15 k) (c16 k) (c17 k) (c18 k) i xl (d_inL s) ;;
  let '(iL, r43, r44) := inL in
  xL <- tap (h_out R) i (c19 k) 32767 ;;
  dL <- fv_dL L k p ph ;;
  Lf <- fv_half k p fv_dampL (c20 k) (c21 k) 16383 8191 i dL r43 r44 xL (d_L s) ;;
  a1 <- tap (h_diff R) i (c28 k) 32767 ;;
  a2 <- tap (h_diff R) i (c27 k) 32767 ;;
  a3 <- tap (h_out R) i (c26 k) 32767 ;;
  a4 <- tap (h_damp R) i (c25 k) 16383 ;;
  a5 <- tap (h_diff Lf) i (c24 k) 32767 ;;
  a6 <- tap (h_damp Lf) i (c23 k) 8191 ;;
  a7 <- tap (h_out Lf) i (c22 k) 32767 ;;
  b1 <- tap (h_diff Lf) i (c35 k) 32767 ;;
  b2 <- tap (h_diff Lf) i (c34 k) 32767 ;;
  b3 <- tap (h_out Lf) i (c33 k) 32767 ;;
  b4 <- tap (h_damp Lf) i (c32 k) 8191 ;;
  b5 <- tap (h_diff R) i (c31 k) 32767 ;;
  b6 <- tap (h_damp R) i (c30 k) 16383 ;;
  b7 <- tap (h_out R) i (c29 k) 32767 ;;
  let o0 := fdec 3 5 * (a1 + a2 + a3 - (a4 + a5 + a6 + a7)) in
  let o1 := fdec 3 5 * (b1 + b2 + b3 - (b4 + b5 + b6 + b7)) in
  j <- i32 (i + 1) ;;
  Some (FvDsp k (d_sl s) j p ph iR R iL Lf, o0, o1).
(** FVerbDSP.h:753-981 [compute] on the frames of a block. *)
Fixpoint fv_frames (L : libm) (w : fvpar) (s : fvdsp) (xs : list (f32 * f32)) : option (fvdsp * list (f32 * f32)) :=
  match xs with
  | [] => Some (s, [])
  | (xl, xr) :: t =>
      r <- fv_frame L w s xl xr ;;
      let '(s1, o0, o1) := r in
      q <- fv_frames L w s1 t ;;
      let '(s2, os) := q in Some (s2, (o0, o1) :: os)
  end.
Definition fv_compute (L : libm) (s : fvdsp) (xs : list (f32 * f32)) : option (fvdsp * list (f32 * f32)) :=
  fv_frames L (fv_slow L (d_k s) (d_sl s)) s xs.

(** ** The wrapper *)
(** FVerb.h:138-142: [fv_dsp]: *dsp or null, [fv_alloc]: allocatedBlockSize, [fv_bufs]: whether inputBuffers and outputBuffers point to
    allocated arrays (they are allocated and freed together). *)
Record fverb := FVerb { fv_dsp : option fvdsp; fv_alloc : Z; fv_bufs : bool }.
(** FVerb.h:139-142. *)
Definition fv_new : fverb := FVerb None 0 false.
(** FVerb.cpp:103-178: a setter; nothing happens before [init]. *)
Definition fv_set (p : fvparam) (x : f32) (f : fverb) : fverb :=
  match fv_dsp f with
  | None => f
  | Some d => FVerb (Some (FvDsp (d_k d) (fv_setp p (fv_clamp p x) (d_sl d)) (d_iota d) (d_par d) (d_ph d)
                             (d_inR d) (d_R d) (d_inL d) (d_L d))) (fv_alloc f) (fv_bufs f)
  end.
(** FVerb.cpp:14-33 [init]; the conversion of the sample rate to [int] is undefined out of range. *)
Definition fv_init (sr : f32) (f : fverb) : option fverb :=
  n <- to_int sr ;;
  d <- fv_dinit n ;;
  Some (fv_set INPUT_DIFFUSION_2 (fofZ 75) (fv_set INPUT_DIFFUSION_1 (fofZ 70) (fv_set TAIL_DENSITY (fofZ 80)
    (fv_set DECAY (fofZ 82) (fv_set PREDELAY (fofZ 150) (FVerb (Some d) (fv_alloc f) (fv_bufs f))))))).
(** FVerb.cpp:35-81 [allocateBuffers], [freeBuffers]: what is left allocated. *)
Definition fv_allocate (n : Z) (f : fverb) : fverb :=
  if (fv_alloc f >=? n)%Z then f else FVerb (fv_dsp f) n true.
(** FVerb.cpp:83-101 [process] on the frames (left, right); the caller's buffers hold the result afterwards.  The internal buffers only carry
    the block in and out ([memcpy] of numSamples each way), so their contents are not state.  Blocks of 2^31 frames or more are not modelled. *)
Definition fv_process (L : libm) (f : fverb) (xs : list (f32 * f32)) : option (fverb * list (f32 * f32)) :=
  match fv_dsp f with
  | None => Some (f, xs)
  | Some d =>
      let g := fv_allocate (Z.of_nat (length xs)) f in
      if fv_bufs g then
        r <- fv_compute L d xs ;;
        let '(d', ys) := r in Some (FVerb (Some d') (fv_alloc g) (fv_bufs g), ys)
      else None
  end.
(** FVerb.cpp:180-184 [reset]. *)
Definition fv_reset (f : fverb) : fverb :=
  match fv_dsp f with None => f | Some d => FVerb (Some (fv_clear d)) (fv_alloc f) (fv_bufs f) end.

(** A history of calls on one object; the result collects the frames delivered by [process]. *)
Inductive fvop := FvInit (sr : f32) | FvSet (p : fvparam) (x : f32) | FvReset | FvProc (xs : list (f32 * f32)).
Definition fv_op (L : libm) (o : fvop) (f : fverb) : option (fverb * list (f32 * f32)) :=
  match o with
  | FvInit sr => g <- fv_init sr f ;; Some (g, [])
  | FvSet p x => Some (fv_set p x f, [])
  | FvReset => Some (fv_reset f, [])
  | FvProc xs => fv_process L f xs
  end.
Fixpoint fv_run (L : libm) (h : list fvop) (f : fverb) : option (fverb * list (f32 * f32)) :=
  match h with
  | [] => Some (f, [])
  | o :: t => r <- fv_op L o f ;; let '(g, a) := r in q <- fv_run L t g ;; let '(g', b) := q in Some (g', a ++ b)
  end.
