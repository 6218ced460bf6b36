(** Inverting the input of a unit generator inverts its state and its output. *)
From Coq Require Import ZArith Bool List Reals.
From Flocq Require Import Core BinarySingleNaN.
From Verif Require Import Flt FltFacts Libm UtilModel Res PolSpec FltPol SmoothModel SmoothSpec LpModel LpSpec DsModel DsSpec MgModel MgSpec.
From Verif Require Import StModel MtModel RkModel ImModel MdModel ObModel.
Import ListNotations.
Local Open Scope flt_scope.

(** One step of a derivation of [opp a b]; a factor that is the same on both sides is a constant. *)
Ltac opp1 :=
  lazymatch goal with
  | |- opp (fmul ?a ?c) (fmul ?b ?c) => apply opp_mul_l; [|apply same_refl]
  | |- opp (fmul ?c ?a) (fmul ?c ?b) => apply opp_mul_r; [apply same_refl|]
  | |- opp (fadd _ _) (fadd _ _) => apply opp_add
  | |- opp (fsub _ _) (fsub _ _) => apply opp_sub
  | |- opp (fdiv _ ?c) (fdiv _ ?c) => apply opp_div
  | |- opp (fneg _) (fneg _) => apply opp_fneg
  | |- opp (f2d _) (f2d _) => apply opp_f2d
  | |- opp (d2f _) (d2f _) => apply opp_d2f
  | |- opp fzero fzero => exact opp_zero
  | |- opp zero zero => exact opp_zero
  end.
Ltac opps := repeat (assumption || opp1).

(** What the relation of two calls says, case by case. *)
Tactic Notation "rel_cases" hyp(H) ident(H1) :=
  try contradiction;
  lazymatch type of H with
  | _ = _ => destruct H
  | _ = _ /\ _ => destruct H as [<- H]
  | _ /\ _ => destruct H as [H H1]
  | _ => idtac
  end.

Section Run.
  Context {S O : Type} (call : S -> O -> S * option f32) (inv : O -> O) (R : S -> S -> Prop).
  Hypothesis step : forall s t o, R s t -> R (fst (call s o)) (fst (call t (inv o))) /\ oopp (snd (call s o)) (snd (call t (inv o))).
  Lemma run_opp os : forall s t, R s t -> R (fst (mg_run call s os)) (fst (mg_run call t (map inv os))) /\ Forall2 opp (snd (mg_run call s os)) (snd (mg_run call t (map inv os))).
  Proof.
    induction os as [|o os IH]; intros s t H; cbn [mg_run map]; [split; [exact H|constructor]|].
    destruct (step s t o H) as [A B]. destruct (call s o) as [s1 y], (call t (inv o)) as [t1 z]. cbn [fst snd] in A, B.
    destruct (IH s1 t1 A) as [C D]. destruct (mg_run call s1 os) as [s2 ys], (mg_run call t1 (map inv os)) as [t2 zs]. cbn [fst snd] in *.
    split; [exact C|]. destruct y, z; try destruct B; auto.
  Qed.
End Run.
Section Runs.
  Context {S O : Type} (step : S -> O -> S * list f32) (inv : O -> O) (ok : O -> Prop) (R : S -> S -> Prop).
  Hypothesis one : forall s t o, ok o -> R s t -> R (fst (step s o)) (fst (step t (inv o))) /\ Forall2 opp (snd (step s o)) (snd (step t (inv o))).
  Lemma runs_opp os : forall s t, Forall ok os -> R s t -> Forall2 opp (snd (runs step s os)) (snd (runs step t (map inv os))).
  Proof.
    induction os as [|o os IH]; intros s t K H; cbn [runs map]; [constructor|]. inversion K as [|? ? K1 K2]; subst.
    destruct (one s t o K1 H) as [A B]. destruct (step s o) as [s1 y], (step t (inv o)) as [t1 z]. cbn [fst snd] in A, B.
    specialize (IH s1 t1 K2 A). destruct (runs step s1 os) as [s2 ys], (runs step t1 (map inv os)) as [t2 zs]. cbn [fst snd] in *. now apply Forall2_app.
  Qed.
End Runs.

(** ** Lag, OnePoleLPF *)
Record lg_opp (s t : lag) : Prop := LgOpp { lgo_sr : lg_sr s = lg_sr t; lgo_time : lg_time s = lg_time t; lgo_c : lg_coeff s = lg_coeff t; lgo_y : opp (lg_prev s) (lg_prev t) }.
Definition lg_rel (o o' : lag_op) : Prop :=
  match o, o' with
  | GTick x, GTick x' => opp x x'
  | GTime x, GTime x' => x = x'
  | GSet x, GSet x' => opp x x'
  | GReset, GReset => True
  | _, _ => False
  end.
Lemma lg_flip_rel o : lg_rel o (lg_flip o).
Proof. destruct o; cbn; repeat split; apply opp_neg. Qed.
Lemma lg_step_rel L s t o o' : lg_rel o o' -> lg_opp s t -> lg_opp (fst (lg_op L s o)) (fst (lg_op L t o')) /\ oopp (snd (lg_op L s o)) (snd (lg_op L t o')).
Proof. intros Ho.
  destruct s as [a b c d], t as [a' b' c' d']. intros [E1 E2 E3 H]. cbn [lg_sr lg_time lg_coeff lg_prev] in *. subst a' b' c'.
  destruct o as [x|v|v|], o' as [x'|v'|v'|]; cbn [lg_rel] in Ho; rel_cases Ho Ho'; cbn; (split; [constructor; cbn; auto|auto]); try first [exact Ho|exact Ho']; try exact opp_zero; opps; first [exact Ho|exact Ho'].
Qed.
Lemma lg_step_opp L s t o : lg_opp s t -> lg_opp (fst (lg_op L s o)) (fst (lg_op L t (lg_flip o))) /\ oopp (snd (lg_op L s o)) (snd (lg_op L t (lg_flip o))).
Proof. exact (lg_step_rel L s t o _ (lg_flip_rel o)). Qed.
Record op_opp (s t : opl) : Prop := OpOpp { opo_sr : op_sr s = op_sr t; opo_c : op_cutoff s = op_cutoff t; opo_p : op_pole s = op_pole t; opo_g : op_gain s = op_gain t; opo_z : opp (op_z s) (op_z t) }.
Definition op_rel (o o' : opl_op) : Prop :=
  match o, o' with
  | PTick x, PTick x' => opp x x'
  | PTickMod x y, PTickMod x' y' => y = y' /\ opp x x'
  | PCutoff x, PCutoff x' => x = x'
  | PReset, PReset => True
  | _, _ => False
  end.
Lemma op_flip_rel o : op_rel o (op_flip o).
Proof. destruct o; cbn; repeat split; apply opp_neg. Qed.
Lemma op_step_rel L s t o o' : op_rel o o' -> op_opp s t -> op_opp (fst (op_op L s o)) (fst (op_op L t o')) /\ oopp (snd (op_op L s o)) (snd (op_op L t o')).
Proof. intros Ho.
  destruct s as [a b c d e], t as [a' b' c' d' e']. intros [E1 E2 E3 E4 H]. cbn [op_sr op_cutoff op_pole op_gain op_z] in *. subst a' b' c' d'.
  destruct o as [x|x v|v|], o' as [x'|x' v'|v'|]; cbn [op_rel] in Ho; rel_cases Ho Ho'; cbn; (split; [constructor; cbn; auto|auto]); try exact opp_zero; opps; first [exact Ho|exact Ho'].
Qed.
Lemma op_step_opp L s t o : op_opp s t -> op_opp (fst (op_op L s o)) (fst (op_op L t (op_flip o))) /\ oopp (snd (op_op L s o)) (snd (op_op L t (op_flip o))).
Proof. exact (op_step_rel L s t o _ (op_flip_rel o)). Qed.

(** ** DCBlock *)
Record dc_opp (s t : dcb) : Prop := DcOpp { dco_sr : dc_sr s = dc_sr t; dco_f : dc_cutoff s = dc_cutoff t; dco_c : dc_coeff s = dc_coeff t;
  dco_xl : opp (dc_xl s) (dc_xl t); dco_yl : opp (dc_yl s) (dc_yl t); dco_xr : opp (dc_xr s) (dc_xr t); dco_yr : opp (dc_yr s) (dc_yr t) }.
Definition dc_rel (o o' : dcb_op) : Prop :=
  match o, o' with
  | BTick x, BTick x' => opp x x'
  | BTick2 x y, BTick2 x' y' => opp x x' /\ opp y y'
  | BCutoff x, BCutoff x' => x = x'
  | BReset, BReset => True
  | _, _ => False
  end.
Lemma dc_flip_rel o : dc_rel o (dc_flip o).
Proof. destruct o; cbn; repeat split; apply opp_neg. Qed.
Lemma dc_step_rel L s t o o' : dc_rel o o' -> True -> dc_opp s t -> dc_opp (fst (dc_op L s o)) (fst (dc_op L t o')) /\ Forall2 opp (snd (dc_op L s o)) (snd (dc_op L t o')).
Proof. intros Ho.
  intros _. destruct s as [a b c d e f g], t as [a' b' c' d' e' f' g']. intros [E1 E2 E3 H1 H2 H3 H4]. cbn [dc_sr dc_cutoff dc_coeff dc_xl dc_yl dc_xr dc_yr] in *. subst a' b' c'.
  destruct o as [x|x y|v|], o' as [x'|x' y'|v'|]; cbn [dc_rel] in Ho; rel_cases Ho Ho'; cbn; unfold dc_out; (split; [constructor; cbn; auto|repeat constructor]); try exact opp_zero; opps; first [exact Ho|exact Ho'].
Qed.
Lemma dc_step_opp L s t o : True -> dc_opp s t -> dc_opp (fst (dc_op L s o)) (fst (dc_op L t (dc_flip o))) /\ Forall2 opp (snd (dc_op L s o)) (snd (dc_op L t (dc_flip o))).
Proof. exact (dc_step_rel L s t o _ (dc_flip_rel o)). Qed.

(** ** Tape with no bias *)
Record tp_opp (s t : tape) : Prop := TpOpp { tpo_z : fin (tp_bias s) /\ B2R (tp_bias s) = 0%R; tpo_b : tp_bias s = tp_bias t; tpo_g : tp_gain s = tp_gain t; tpo_fo : tp_fo s = tp_fo t;
  tpo_lg : td_gain (tp_l s) = td_gain (tp_l t); tpo_lx : opp (td_x (tp_l s)) (td_x (tp_l t)); tpo_ly : opp (td_y (tp_l s)) (td_y (tp_l t));
  tpo_rg : td_gain (tp_r s) = td_gain (tp_r t); tpo_rx : opp (td_x (tp_r s)) (td_x (tp_r t)); tpo_ry : opp (td_y (tp_r s)) (td_y (tp_r t)); tpo_fv : tp_fv s = tp_fv t }.
Lemma zero_shape (b : f32) : fin b -> B2R b = 0%R -> exists s, b = B754_zero s.
Proof. intros F E. destruct b as [s|s| |s m e h]; try discriminate F; [eauto|]. cbn in E. apply eq_0_F2R in E. now destruct s. Qed.
Lemma mul_zero_self (v : f32) s : opp (v * B754_zero s) (v * B754_zero s).
Proof. destruct v; reflexivity. Qed.
Lemma fo_tick_opp f x y : opp x y -> fo_tick f x = fo_tick f y.
Proof. intros H. unfold fo_tick. now rewrite (opp_abs _ _ H). Qed.
Definition tp_rel (o o' : tape_op) : Prop :=
  match o, o' with
  | TTick x, TTick x' => opp x x'
  | TTick2 x y, TTick2 x' y' => opp x x' /\ opp y y'
  | TBias x, TBias x' => x = x'
  | TGain x, TGain x' => x = x'
  | TReset, TReset => True
  | _, _ => False
  end.
Lemma tp_flip_rel o : tp_rel o (tp_flip o).
Proof. destruct o; cbn; repeat split; apply opp_neg. Qed.
Lemma tp_step_rel L s t o o' : tp_rel o o' -> odd (m_tanh L) -> no_bias o -> tp_opp s t -> tp_opp (fst (tp_op L s o)) (fst (tp_op L t o')) /\ Forall2 opp (snd (tp_op L s o)) (snd (tp_op L t o')).
Proof. intros Ho.
  intros HT K. destruct s as [b g f [l1 l2 l3] [r1 r2 r3] v], t as [b' g' f' [l1' l2' l3'] [r1' r2' r3'] v']. intros [[F E] E1 E2 E3 E4 H1 H2 E5 H3 H4 E6].
  cbn [tp_bias tp_gain tp_fo tp_l tp_r tp_fv td_gain td_x td_y] in *. subst b' g' f' l1' r1' v'. destruct (zero_shape b F E) as [sb ->].
  destruct o as [x|x y|w|w|], o' as [x'|x' y'|w'|w'|]; cbn [tp_rel] in Ho; rel_cases Ho Ho'; cbn [tp_op tp_flip].
  - unfold tp_tick, td_tick. cbn [tp_gain tp_fo tp_bias tp_l tp_r td_gain td_x td_y].
    rewrite (fo_tick_opp f (x' * g) (x * g)) by (apply opp_sym; opps; first [exact Ho|exact Ho']). destruct (fo_tick f (x * g)) as [f1 w]. cbn [fst snd].
    assert (A : opp (m_tanh L (x * g + w * B754_zero sb)) (m_tanh L (x' * g + w * B754_zero sb))).
    { apply HT, opp_add; [opps; first [exact Ho|exact Ho']|apply mul_zero_self]. }
    split; [constructor; cbn; auto; opps|]. repeat constructor. apply HT. opps.
  - unfold tp_tickStereo, td_tick. cbn [tp_gain tp_fo tp_bias tp_l tp_r td_gain td_x td_y fst snd].
    rewrite (fo_tick_opp f (x' * g) (x * g)) by (apply opp_sym; opps; first [exact Ho|exact Ho']). destruct (fo_tick f (x * g)) as [f1 w]. cbn [fst snd].
    assert (A : opp (m_tanh L (x * g + w * B754_zero sb)) (m_tanh L (x' * g + w * B754_zero sb))).
    { apply HT, opp_add; [opps; first [exact Ho|exact Ho']|apply mul_zero_self]. }
    assert (B : opp (m_tanh L (y * g + w * B754_zero sb)) (m_tanh L (y' * g + w * B754_zero sb))).
    { apply HT, opp_add; [opps; first [exact Ho|exact Ho']|apply mul_zero_self]. }
    split; [constructor; cbn; auto; opps|]. repeat constructor; apply HT; opps.
  - split; [constructor; cbn; auto|constructor].
  - split; [constructor; cbn; auto|constructor].
  - split; [constructor; cbn; auto; exact opp_zero|constructor].
Qed.
Lemma tp_step_opp L s t o : odd (m_tanh L) -> no_bias o -> tp_opp s t -> tp_opp (fst (tp_op L s o)) (fst (tp_op L t (tp_flip o))) /\ Forall2 opp (snd (tp_op L s o)) (snd (tp_op L t (tp_flip o))).
Proof. exact (tp_step_rel L s t o _ (tp_flip_rel o)). Qed.

(** ** RLPF *)
Record lp_opp (s t : rlpf) : Prop := LpOpp { lpo_sr : lp_sr s = lp_sr t; lpo_f : lp_freq s = lp_freq t; lpo_r : lp_res s = lp_res t; lpo_c : lp_c s = lp_c t; lpo_1 : opp (lp_z1 s) (lp_z1 t); lpo_2 : opp (lp_z2 s) (lp_z2 t) }.
Definition lp_rel (o o' : lp_op) : Prop :=
  match o, o' with
  | LpFreq x, LpFreq x' => x = x'
  | LpRes x, LpRes x' => x = x'
  | LpTick x, LpTick x' => opp x x'
  | LpReset, LpReset => True
  | _, _ => False
  end.
Lemma lp_flip_rel o : lp_rel o (lp_flip o).
Proof. destruct o; cbn; repeat split; apply opp_neg. Qed.
Lemma lp_step_rel L s t o o' : lp_rel o o' -> lp_opp s t -> lp_opp (fst (lp_call L s o)) (fst (lp_call L t o')) /\ oopp (snd (lp_call L s o)) (snd (lp_call L t o')).
Proof. intros Ho.
  destruct s as [a b c d e f], t as [a' b' c' d' e' f']. intros [E1 E2 E3 E4 H1 H2]. cbn [lp_sr lp_freq lp_res lp_c lp_z1 lp_z2] in *. subst a' b' c' f'.
  destruct o as [v|v|x|], o' as [v'|v'|x'|]; cbn [lp_rel] in Ho; rel_cases Ho Ho'; cbn [lp_call fst snd].
  - split; [constructor; auto|exact Logic.I].
  - split; [constructor; auto|exact Logic.I].
  - unfold lp_tick. cbn [lp_sr lp_freq lp_res lp_c lp_z1 lp_z2 fst snd]. pose proof (opp_f2d _ _ Ho). split; [constructor; cbn; auto; opps|]. cbn [oopp]. opps.
  - split; [constructor; auto; exact opp_zero|exact Logic.I].
Qed.
Lemma lp_step_opp L s t o : lp_opp s t -> lp_opp (fst (lp_call L s o)) (fst (lp_call L t (lp_flip o))) /\ oopp (snd (lp_call L s o)) (snd (lp_call L t (lp_flip o))).
Proof. exact (lp_step_rel L s t o _ (lp_flip_rel o)). Qed.

(** ** Downsampler *)
Record ds_opp (s t : ds) : Prop := DsOpp { dso_r : ds_rate s = ds_rate t; dso_f : ds_fac s = ds_fac t; dso_n : ds_n s = ds_n t; dso_c : ds_c s = ds_c t; dso_a : opp (ds_acc s) (ds_acc t); dso_s : Forall2 opp (ds_st s) (ds_st t) }.
Lemma stages_opp c st st' : Forall2 opp st st' -> forall x y, opp x y -> Forall2 opp (ds_stages c st x) (ds_stages c st' y).
Proof.
  induction 1 as [|a b st st' H _ IH]; intros x y X; cbn [ds_stages]; [constructor|].
  assert (A : opp (a + c * (x - a)) (b + c * (y - b))) by opps. constructor; [exact A|now apply IH].
Qed.
Lemma last_opp (l l' : list f32) : Forall2 opp l l' -> forall x y, opp x y -> opp (last l x) (last l' y).
Proof.
  induction 1 as [|a b l l' H F IH]; intros x y X; [exact X|]. inversion F; subst; [exact H|]. cbn [last] in *. now apply (IH x y).
Qed.
Definition ds_rel (o o' : ds_op) : Prop :=
  match o, o' with
  | DsWrite x, DsWrite x' => opp x x'
  | DsRead, DsRead => True
  | DsFactor x, DsFactor x' => x = x'
  | DsReset, DsReset => True
  | _, _ => False
  end.
Lemma ds_flip_rel o : ds_rel o (ds_flip o).
Proof. destruct o; cbn; repeat split; apply opp_neg. Qed.
Lemma ds_step_rel L s t o o' : ds_rel o o' -> ds_opp s t -> ds_opp (fst (ds_call L s o)) (fst (ds_call L t o')) /\ oopp (snd (ds_call L s o)) (snd (ds_call L t o')).
Proof. intros Ho.
  destruct s as [a b c d e f], t as [a' b' c' d' e' f']. intros [E1 E2 E3 E4 H1 H2]. cbn [ds_rate ds_fac ds_n ds_c ds_acc ds_st] in *. subst a' b' d' f'.
  assert (Z : Forall2 opp [zero; zero; zero; zero] [zero; zero; zero; zero]) by (repeat constructor).
  destruct o as [x| |v|], o' as [x'| |v'|]; cbn [ds_rel] in Ho; rel_cases Ho Ho'; cbn [ds_call fst snd].
  - split; [|exact Logic.I]. unfold ds_write. cbn [ds_rate ds_fac ds_n ds_c ds_acc ds_st]. pose proof (stages_opp f e e' H2 x (x') Ho) as Q.
    constructor; cbn [ds_rate ds_fac ds_n ds_c ds_acc ds_st]; auto. apply opp_add; [exact H1|]. apply last_opp; [exact Q|first [exact Ho|exact Ho']].
  - unfold ds_read. cbn [ds_rate ds_fac ds_n ds_c ds_acc ds_st]. destruct (d =? 0)%Z; cbn [fst snd oopp]; (split; [constructor; cbn [ds_rate ds_fac ds_n ds_c ds_acc ds_st]; auto|]); try exact opp_zero. opps.
  - split; [constructor; cbn; auto; exact opp_zero|exact Logic.I].
  - split; [constructor; cbn; auto; exact opp_zero|exact Logic.I].
Qed.
Lemma ds_step_opp L s t o : ds_opp s t -> ds_opp (fst (ds_call L s o)) (fst (ds_call L t (ds_flip o))) /\ oopp (snd (ds_call L s o)) (snd (ds_call L t (ds_flip o))).
Proof. exact (ds_step_rel L s t o _ (ds_flip_rel o)). Qed.
