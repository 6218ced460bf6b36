(** Silence in, silence out: zero and NaN are what is its own inverse, so the lemmas on inverted samples apply to a run and itself. *)
From Coq Require Import ZArith Bool List Reals.
From Flocq Require Import Core BinarySingleNaN.
From Verif Require Import Flt FltFacts Libm UtilModel Res PolSpec FltPol QtSpec SmoothModel SmoothSpec LpModel LpSpec DsModel DsSpec CombModel MgModel MgSpec.
From Verif Require Import StModel KjModel KjProofs MtModel RkModel ImModel MdModel ObModel PolProofs PolProofs2 PolProofs3 PolProofs4.
Import ListNotations.
Local Open Scope flt_scope.

Section Self.
  Context {p e : Z}.
  Lemma mute_self (x : binary_float p e) : mute x -> opp x x.
  Proof. destruct x; intros []. exact Logic.I. Qed.
  Lemma self_hush (x : binary_float p e) : opp x x -> hush x.
  Proof. destruct x as [s|s| |s m k h]; cbn; intros H; auto; injection H as H; destruct s; discriminate H. Qed.
End Self.
Lemma fin_hush (x : f32) : hush x -> is_finite x = true -> mute x.
Proof. destruct x; auto; discriminate. Qed.
Section Runs1.
  Context {S O : Type} (call : S -> O -> S * option f32) (ok : O -> Prop) (R : S -> S -> Prop).
  Hypothesis step : forall s o, ok o -> R s s -> R (fst (call s o)) (fst (call s o)) /\ oopp (snd (call s o)) (snd (call s o)).
  Lemma run_hush os : forall s, R s s -> Forall ok os -> Forall hush (snd (mg_run call s os)).
  Proof.
    induction os as [|o os IH]; intros s H K; cbn [mg_run]; [constructor|]. inversion K as [|? ? K1 K2]; subst. destruct (step s o K1 H) as [A B].
    destruct (call s o) as [t y]. cbn [fst snd] in A, B. specialize (IH t A K2). destruct (mg_run call t os) as [u ys]. cbn [fst snd] in *.
    destruct y; [constructor; [now apply self_hush|exact IH]|exact IH].
  Qed.
End Runs1.
Section Runs2.
  Context {S O : Type} (step : S -> O -> S * list f32) (ok : O -> Prop) (R : S -> S -> Prop).
  Hypothesis one : forall s o, ok o -> R s s -> R (fst (step s o)) (fst (step s o)) /\ Forall2 opp (snd (step s o)) (snd (step s o)).
  Lemma self_all (l : list f32) : Forall2 opp l l -> Forall hush l.
  Proof. induction l as [|a l IH]; intros H; [constructor|]. inversion H; subst. constructor; [now apply self_hush|auto]. Qed.
  Lemma runs_hush os : forall s, R s s -> Forall ok os -> Forall hush (snd (runs step s os)).
  Proof.
    induction os as [|o os IH]; intros s H K; cbn [runs]; [constructor|]. inversion K as [|? ? K1 K2]; subst. destruct (one s o K1 H) as [A B].
    destruct (step s o) as [t y]. cbn [fst snd] in A, B. specialize (IH t A K2). destruct (runs step t os) as [u ys]. cbn [fst snd] in *.
    apply Forall_app. split; [now apply self_all|exact IH].
  Qed.
End Runs2.
Section Runs3.
  Context {S O : Type} (call : S -> O -> res (S * option f32)) (ok : O -> Prop) (R : S -> S -> Prop).
  Hypothesis step : forall s o, ok o -> R s s -> ropp (fun a b => R (fst a) (fst b) /\ oopp (snd a) (snd b)) (call s o) (call s o).
  Lemma rruns_hush os : forall s, R s s -> Forall ok os -> forall ys, rruns call s os = Val ys -> Forall hush ys.
  Proof.
    induction os as [|o os IH]; intros s H K ys; cbn [rruns]; [intros [= <-]; constructor|]. inversion K as [|? ? K1 K2]; subst. pose proof (step s o K1 H) as Q.
    destruct (call s o) as [[t y]| |]; cbn [rbind]; try discriminate. cbn [ropp fst snd] in Q. destruct Q as [A B]. specialize (IH t A K2).
    cbn [fst snd]. destruct (rruns call t os) as [zs| |]; cbn [rbind]; try discriminate. specialize (IH zs eq_refl). intros [= <-].
    destruct y; [constructor; [now apply self_hush|exact IH]|exact IH].
  Qed.
End Runs3.

(** A silent call is related to itself. *)
Ltac mutes := let o := fresh in let H := fresh in intros o H; destruct o; cbn in *; repeat split; try apply mute_self; tauto.
Lemma lg_mute_rel : forall o, lg_mute o -> lg_rel o o. Proof. mutes. Qed.
Lemma op_mute_rel : forall o, op_mute o -> op_rel o o. Proof. mutes. Qed.
Lemma dc_mute_rel : forall o, dc_mute o -> dc_rel o o. Proof. mutes. Qed.
Lemma ll_mute_rel : forall o, ll_mute o -> ll_rel o o. Proof. mutes. Qed.
Lemma lp_mute_rel : forall o, lp_mute o -> lp_rel o o. Proof. mutes. Qed.
Lemma ds_mute_rel : forall o, ds_mute o -> ds_rel o o. Proof. mutes. Qed.
Lemma cb_mute_rel : forall o, cb_mute o -> cb_rel o o. Proof. mutes. Qed.
Lemma st_mute_rel : forall o, st_mute o -> st_rel o o. Proof. mutes. Qed.
Lemma kj_mute_rel : forall o, kj_mute o -> kj_rel o o. Proof. mutes. Qed.
Lemma mt_mute_rel : forall o, mt_mute o -> mt_rel o o. Proof. mutes. Qed.
Lemma rk_mute_rel : forall o, rk_mute o -> rk_rel o o. Proof. mutes. Qed.
Lemma im_mute_rel : forall o, im_mute o -> im_rel o o. Proof. mutes. Qed.
Lemma md_mute_rel : forall o, md_mute o -> md_rel o o. Proof. mutes. Qed.
Lemma ob_mute_rel : forall o, ob_mute o -> ob_rel o o. Proof. mutes. Qed.

(** One factor silent is enough. *)
Ltac selfs := repeat first [assumption | lazymatch goal with
  | |- opp (fmul _ _) (fmul _ _) => first [apply opp_mul_l; [solve [selfs]|apply same_refl] | apply opp_mul_r; [apply same_refl|solve [selfs]]]
  | _ => opp1 end].

(** ** Tape, with any bias: the follower is silent as well *)
Record tp_still (s t : tape) : Prop := TpStill { tps_f : opp (fo_state (tp_fo s)) (fo_state (tp_fo s)); tps_lx : opp (td_x (tp_l s)) (td_x (tp_l s)); tps_ly : opp (td_y (tp_l s)) (td_y (tp_l s));
  tps_rx : opp (td_x (tp_r s)) (td_x (tp_r s)); tps_ry : opp (td_y (tp_r s)) (td_y (tp_r s)) }.
Lemma abs_self (x : f32) : opp x x -> opp (fabs x) (fabs x).
Proof. intros H. apply self_hush in H. destruct x; try destruct H; reflexivity. Qed.
Lemma fo_still f x : opp (fo_state f) (fo_state f) -> opp x x -> opp (fo_state (fst (fo_tick f x))) (fo_state (fst (fo_tick f x))) /\ snd (fo_tick f x) = fo_state (fst (fo_tick f x)).
Proof.
  intros F X. apply abs_self in X. unfold fo_tick. cbn [fst snd fo_state]. split; [|reflexivity]. match goal with |- context [if ?b then fo_ac f else fo_rc f] => set (c := if b then fo_ac f else fo_rc f) end. clearbody c. selfs.
Qed.
Lemma tp_still_step L s o : odd (m_tanh L) -> tp_mute o -> tp_still s s -> tp_still (fst (tp_op L s o)) (fst (tp_op L s o)) /\ Forall2 opp (snd (tp_op L s o)) (snd (tp_op L s o)).
Proof.
  intros HT M [F A B C D]. destruct o as [x|x y|w|w|]; cbn [tp_op tp_mute] in *.
  - apply mute_self in M. assert (X : opp (x * tp_gain s) (x * tp_gain s)) by selfs. unfold tp_tick, td_tick. destruct (fo_still (tp_fo s) _ F X) as [G E].
    destruct (fo_tick (tp_fo s) (x * tp_gain s)) as [f v]. cbn [fst snd] in G, E. subst v. set (v := fo_state f) in *.
    assert (Y : opp (m_tanh L (x * tp_gain s + v * tp_bias s)) (m_tanh L (x * tp_gain s + v * tp_bias s))) by (apply HT; selfs). set (u := m_tanh L _) in *. clearbody u.
    cbn [fst snd]. split; [constructor; cbn; auto; selfs|]. repeat constructor. apply HT. selfs.
  - destruct M as [M N]. apply mute_self in M. apply mute_self in N. assert (X : opp (x * tp_gain s) (x * tp_gain s)) by selfs. assert (X' : opp (y * tp_gain s) (y * tp_gain s)) by selfs.
    unfold tp_tickStereo, td_tick. cbn [fst snd]. destruct (fo_still (tp_fo s) _ F X) as [G E].
    destruct (fo_tick (tp_fo s) (x * tp_gain s)) as [f v]. cbn [fst snd] in G, E. subst v. set (v := fo_state f) in *.
    assert (Y : opp (m_tanh L (x * tp_gain s + v * tp_bias s)) (m_tanh L (x * tp_gain s + v * tp_bias s))) by (apply HT; selfs). set (u := m_tanh L (x * _ + _)) in *. clearbody u.
    assert (Y' : opp (m_tanh L (y * tp_gain s + v * tp_bias s)) (m_tanh L (y * tp_gain s + v * tp_bias s))) by (apply HT; selfs). set (u' := m_tanh L (y * _ + _)) in *. clearbody u'.
    cbn [fst snd]. split; [constructor; cbn; auto; selfs|]. repeat constructor; apply HT; selfs.
  - split; [constructor; auto|constructor].
  - split; [constructor; auto|constructor].
  - split; [constructor; cbn; exact Logic.I|constructor].
Qed.
