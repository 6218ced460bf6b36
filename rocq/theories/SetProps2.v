(** C121, continued: the Stilson ladder, whose setters may be undefined, and the two SuperSaw setters that go through all voices. *)
From Coq Require Import ZArith Bool List Relations.
From Flocq Require Import Core BinarySingleNaN.
From Verif Require Import Flt Libm Res UtilModel OscModel EnvModel VcModel MgModel StModel MgBase PanSpec SetProps RenewProps.
Import ListNotations.
Local Open Scope flt_scope.

(** As [undone], for a setter that may be undefined. *)
Definition undone_res {S A} (set : S -> A -> res S) (other : S -> S -> Prop) : Prop :=
  forall s b s1 t a u, set s b = Val s1 -> clos_refl_trans S other s1 t -> set t a = Val u -> set u b = Val t.
Definition st_other (own : st_op -> bool) (s s' : st) : Prop := exists o r, own o = false /\ st_call s o = Val (s', r).
(** What a tick and a reset leave alone. *)
Lemma st_tick_shape s x : exists a b c d e, fst (st_tick s x) = St (st_sr s) (st_cut s) (st_res s) (st_p s) (st_Q s) a b c d e.
Proof.
  unfold st_tick. destruct (st_stage _ _ (st_s0 s)) as [a o1]. destruct (st_stage _ o1 _) as [b o2]. destruct (st_stage _ o2 _) as [c o3]. destruct (st_stage _ o3 _) as [d o4].
  do 5 eexists. reflexivity.
Qed.
(** The gain in force is that of the resonance and the pole in force. *)
Definition st_tuned (s : st) : Prop := unit_clamp (st_res s) = st_res s /\ st_gain (st_res s) (st_p s) = Val (st_Q s).
Lemma st_res_shape s r u : st_setResonance s r = Val u -> exists q, st_gain (unit_clamp r) (st_p s) = Val q /\
  u = St (st_sr s) (st_cut s) (unit_clamp r) (st_p s) q (st_s0 s) (st_s1 s) (st_s2 s) (st_s3 s) (st_out s).
Proof. unfold st_setResonance. cbv zeta. destruct (st_gain (unit_clamp r) (st_p s)) as [q| |]; cbn [rbind]; try discriminate. intros E. injection E as <-. exists q. split; reflexivity. Qed.
Lemma st_cut_shape s c u : st_setCutoff s c = Val u -> exists q, st_gain (unit_clamp (st_res s)) (st_pole (st_sr s) c) = Val q /\
  u = St (st_sr s) c (unit_clamp (st_res s)) (st_pole (st_sr s) c) q (st_s0 s) (st_s1 s) (st_s2 s) (st_s3 s) (st_out s).
Proof. intros E. unfold st_setCutoff in E. destruct (st_res_shape _ _ _ E) as (q & G & X). exists q. split; [exact G|exact X]. Qed.
Lemma st_step_tuned s o s' r : st_call s o = Val (s', r) -> st_tuned s -> st_tuned s' /\ st_sr s' = st_sr s /\
  match o with StCut c => st_cut s' = c /\ st_p s' = st_pole (st_sr s) c /\ st_res s' = st_res s
  | StRes r => st_cut s' = st_cut s /\ st_p s' = st_p s /\ st_res s' = unit_clamp r | _ => st_cut s' = st_cut s /\ st_p s' = st_p s /\ st_res s' = st_res s end.
Proof.
  intros E [A G]. destruct o; cbn [st_call] in E.
  - destruct (st_setCutoff s c) as [v| |] eqn:X; cbn [rbind] in E; try discriminate E. injection E as <- _.
    destruct (st_cut_shape _ _ _ X) as (q & Y & ->). unfold st_tuned. cbn [st_sr st_cut st_res st_p st_Q]. rewrite A in *. auto.
  - destruct (st_setResonance s r0) as [v| |] eqn:X; cbn [rbind] in E; try discriminate E. injection E as <- _.
    destruct (st_res_shape _ _ _ X) as (q & Y & ->). unfold st_tuned. cbn [st_sr st_cut st_res st_p st_Q]. rewrite unit_clamp_twice. auto.
  - destruct (st_tick_shape s x) as (a & b & c & d & e & K). destruct (st_tick s x) as [v y]. cbn [fst] in K. injection E as <- _. rewrite K. unfold st_tuned. cbn [st_sr st_cut st_res st_p st_Q]. auto.
  - injection E as <- _. unfold st_tuned, st_reset. cbn [st_sr st_cut st_res st_p st_Q]. auto.
Qed.
Theorem C121_stilson : undone_res st_setCutoff (st_other (fun o => match o with StCut _ => true | _ => false end)) /\
  undone_res st_setResonance (st_other (fun o => match o with StRes _ => true | _ => false end)).
Proof.
  split; intros s b s1 t a u E C F.
  - assert (K : st_tuned t /\ st_cut t = b /\ st_p t = st_pole (st_sr t) b).
    { apply (kept (fun t => st_tuned t /\ st_cut t = b /\ st_p t = st_pole (st_sr t) b) _ s1 t) with (3 := C).
      - intros x y (o & r & Ho & X) (T & P1 & P2). destruct (st_step_tuned _ _ _ _ X T) as (T' & R & M). rewrite R. destruct o; try discriminate Ho; destruct M as (M1 & M2 & _); rewrite M1, M2; auto.
      - destruct (st_cut_shape _ _ _ E) as (q & Y & ->). unfold st_tuned. cbn [st_sr st_cut st_res st_p st_Q]. rewrite unit_clamp_twice. auto. }
    destruct K as ((T1 & T2) & P1 & P2). destruct (st_cut_shape _ _ _ F) as (q & _ & ->). unfold st_setCutoff, st_setResonance. cbv zeta. cbn [st_sr st_cut st_res st_p st_Q st_s0 st_s1 st_s2 st_s3 st_out].
    rewrite unit_clamp_twice, T1, <- P2, T2. cbn [rbind]. rewrite <- P1. destruct t; reflexivity.
  - assert (K : st_tuned t /\ st_res t = unit_clamp b).
    { apply (kept (fun t => st_tuned t /\ st_res t = unit_clamp b) _ s1 t) with (3 := C).
      - intros x y (o & r & Ho & X) (T & P1). destruct (st_step_tuned _ _ _ _ X T) as (T' & R & M). destruct o; try discriminate Ho; destruct M as (_ & _ & M3); rewrite M3; auto.
      - destruct (st_res_shape _ _ _ E) as (q & Y & ->). unfold st_tuned. cbn [st_sr st_cut st_res st_p st_Q]. rewrite unit_clamp_twice. auto. }
    destruct K as ((T1 & T2) & P1). destruct (st_res_shape _ _ _ F) as (q & _ & ->). unfold st_setResonance. cbv zeta. cbn [st_sr st_cut st_res st_p st_Q st_s0 st_s1 st_s2 st_s3 st_out].
    rewrite <- P1, T2. cbn [rbind]. destruct t; reflexivity.
Qed.

(** SuperSaw: what the voice loop leaves alone in every voice. *)
Lemma lt_tick_keeps l r : lt_setFrequency l r = l -> lt_setFrequency (fst (lt_tick l)) r = fst (lt_tick l).
Proof. intros E. rewrite <- E. reflexivity. Qed.
Lemma sv_shape L f d sp i v : exists sw, fst (sv_tick L f d sp i v) = SVoice sw (fst (lt_tick (sv_vib v))) (sv_det v).
Proof. unfold sv_tick. destruct (lt_tick (sv_vib v)) as [a x]. destruct (sw_tick _) as [b y]. eexists. reflexivity. Qed.
(** Voice number [i] has the detune offset [d i], and there are no more voices than numbers. *)
Fixpoint offsets (d : Z -> f32) (is : list Z) (vs : list svoice) : Prop :=
  match vs, is with [], _ => True | v :: vs, i :: is => sv_det v = d i /\ offsets d is vs | _ :: _, [] => False end.
Lemma mix_offsets L f dp sp d is : forall vs m, offsets d is vs -> offsets d is (fst (ss_mix L f dp sp (combine is vs) m)).
Proof.
  induction is as [|i is IH]; intros [|v vs] m H; cbn [combine ss_mix fst offsets] in *; try exact I; try contradiction.
  destruct H as [H1 H2]. destruct (sv_shape L f dp sp i v) as (sw & X). destruct (sv_tick L f dp sp i v) as [v' p]. cbn [fst] in X. subst v'.
  specialize (IH vs (fst m + fst p, snd m + snd p) H2). destruct (ss_mix _ _ _ _ _ _) as [ws q]. cbn [fst offsets] in *. split; [exact H1|exact IH].
Qed.
Definition rated (r : f32) (v : svoice) : Prop := lt_setFrequency (sv_vib v) r = sv_vib v.
Lemma mix_rated L f dp sp r is : forall vs m, Forall (rated r) vs -> Forall (rated r) (fst (ss_mix L f dp sp (combine is vs) m)).
Proof.
  induction is as [|i is IH]; intros [|v vs] m H; cbn [combine ss_mix fst]; try constructor.
  destruct (sv_shape L f dp sp i v) as (sw & X). destruct (sv_tick L f dp sp i v) as [v' p]. cbn [fst] in X. subst v'.
  specialize (IH vs (fst m + fst p, snd m + snd p) (Forall_inv_tail H)). destruct (ss_mix _ _ _ _ _ _) as [ws q]. cbn [fst] in *. constructor; [|exact IH].
  exact (lt_tick_keeps _ _ (Forall_inv H)).
Qed.
Lemma offsets_map d is (g : svoice -> svoice) : (forall v, sv_det (g v) = sv_det v) -> forall vs, offsets d is vs -> offsets d is (map g vs).
Proof. intros G. induction is as [|i is IH]; intros [|v vs] H; cbn [map offsets] in *; try exact I; try contradiction. rewrite G. split; [apply H|apply IH, H]. Qed.
Lemma offsets_set (d : Z -> f32) is : forall vs, offsets d is (map (fun p => SVoice (sv_saw (snd p)) (sv_vib (snd p)) (d (fst p))) (combine is vs)).
Proof. induction is as [|i is IH]; intros [|v vs]; cbn [combine map offsets]; try exact I. split; [reflexivity|apply IH]. Qed.
Lemma offsets_id (d : Z -> f32) is : forall vs, offsets d is vs -> map (fun p => SVoice (sv_saw (snd p)) (sv_vib (snd p)) (d (fst p))) (combine is vs) = vs.
Proof.
  induction is as [|i is IH]; intros [|v vs] H; cbn [combine map offsets] in *; try reflexivity; try contradiction. destruct H as [H1 H2]. cbn [fst snd]. rewrite <- H1, (IH _ H2). now destruct v.
Qed.
Lemma combine_twice (d e : Z -> f32) is : forall vs,
  map (fun p => SVoice (sv_saw (snd p)) (sv_vib (snd p)) (d (fst p))) (combine is (map (fun p => SVoice (sv_saw (snd p)) (sv_vib (snd p)) (e (fst p))) (combine is vs))) =
  map (fun p => SVoice (sv_saw (snd p)) (sv_vib (snd p)) (d (fst p))) (combine is vs).
Proof. induction is as [|i is IH]; intros [|v vs]; cbn [combine map]; try reflexivity. rewrite IH. reflexivity. Qed.
Lemma rated_set (r : f32) vs : Forall (rated r) (map (fun v => SVoice (sv_saw v) (lt_setFrequency (sv_vib v) r) (sv_det v)) vs).
Proof. induction vs as [|v vs IH]; cbn [map]; constructor; [reflexivity|exact IH]. Qed.
Lemma rated_id (r : f32) vs : Forall (rated r) vs -> map (fun v => SVoice (sv_saw v) (lt_setFrequency (sv_vib v) r) (sv_det v)) vs = vs.
Proof. induction 1 as [|v vs H _ IH]; cbn [map]; [reflexivity|]. rewrite IH, H. now destruct v. Qed.
Lemma rated_map r (g : svoice -> svoice) : (forall v, sv_vib (g v) = sv_vib v) -> forall vs, Forall (rated r) vs -> Forall (rated r) (map g vs).
Proof. intros G. induction 1 as [|v vs H _ IH]; cbn [map]; constructor; [|exact IH]. unfold rated. rewrite G. exact H. Qed.
Lemma rated_detune r (d : Z -> f32) is : forall vs, Forall (rated r) vs -> Forall (rated r) (map (fun p => SVoice (sv_saw (snd p)) (sv_vib (snd p)) (d (fst p))) (combine is vs)).
Proof. induction is as [|i is IH]; intros [|v vs] H; cbn [combine map]; try constructor. - exact (Forall_inv H). - exact (IH _ (Forall_inv_tail H)). Qed.
Lemma ss_tick_voices L s : exists m, ss_voices (fst (ss_tick L s)) = fst (ss_mix L (ss_freq s) (ss_vdepth s) (ss_spread s) (combine idx (ss_voices s)) m) /\
  ss_det (fst (ss_tick L s)) = ss_det s /\ ss_vrate (fst (ss_tick L s)) = ss_vrate s.
Proof. exists (zero, zero). unfold ss_tick. destruct (ad_tick (ss_env s)) as [e x]. destruct (ss_mix _ _ _ _ _ _) as [vs m]. repeat split. Qed.
Lemma ss_det_id s d : offsets (fun i => ss_offset i d) idx (ss_voices s) -> ss_det s = d -> ss_setDetune s d = s.
Proof. intros H E. unfold ss_setDetune. rewrite (offsets_id (fun i => ss_offset i d) idx _ H), <- E. now destruct s. Qed.
Lemma ss_rate_id s r : Forall (rated r) (ss_voices s) -> ss_vrate s = r -> ss_setVibratoRate s r = s.
Proof. intros H E. unfold ss_setVibratoRate. rewrite (rated_id r _ H), <- E. now destruct s. Qed.
Theorem C121_supersaw_voices : forall L,
  undone ss_setDetune (ss_other L (fun o => match o with SsDetune _ => true | _ => false end)) /\
  undone ss_setVibratoRate (ss_other L (fun o => match o with SsRate _ => true | _ => false end)).
Proof.
  intros L. split; apply undone_intro.
  - intros s a b. unfold ss_setDetune. cbn [ss_voices ss_env ss_freq ss_vrate ss_vdepth ss_det ss_spread ss_sr]. rewrite (combine_twice (fun i => ss_offset i b) (fun i => ss_offset i a) idx). reflexivity.
  - intros s d s' [o [Ho ->]] E.
    assert (V : offsets (fun i => ss_offset i d) idx (ss_voices s)) by (rewrite <- E; exact (offsets_set (fun i => ss_offset i d) idx (ss_voices s))).
    assert (D : ss_det s = d) by (rewrite <- E; reflexivity). clear E.
    apply ss_det_id; destruct o; try discriminate Ho; try contradiction Ho; cbn [ss_call fst]; try exact V; try exact D.
    + refine (offsets_map _ _ _ _ _ V). intros v. reflexivity.
    + destruct (ss_tick_voices L s) as (m & X & _). destruct (ss_tick L s) as [s1 y]. cbn [fst] in *. rewrite X. exact (mix_offsets _ _ _ _ _ _ _ _ V).
    + refine (offsets_map _ _ _ _ _ V). intros v. reflexivity.
    + destruct (ss_tick_voices L s) as (m & _ & X & _). destruct (ss_tick L s) as [s1 y]. cbn [fst] in *. rewrite X. exact D.
  - intros s a b. unfold ss_setVibratoRate. cbn [ss_voices ss_env ss_freq ss_vrate ss_vdepth ss_det ss_spread ss_sr]. rewrite map_map. reflexivity.
  - intros s r s' [o [Ho ->]] E.
    assert (V : Forall (rated r) (ss_voices s)) by (rewrite <- E; exact (rated_set r (ss_voices s))).
    assert (D : ss_vrate s = r) by (rewrite <- E; reflexivity). clear E.
    apply ss_rate_id; destruct o; try discriminate Ho; try contradiction Ho; cbn [ss_call fst]; try exact V; try exact D.
    + exact (rated_detune r (fun i => ss_offset i d) idx _ V).
    + destruct (ss_tick_voices L s) as (m & X & _). destruct (ss_tick L s) as [s1 y]. cbn [fst] in *. rewrite X. exact (mix_rated _ _ _ _ _ _ _ _ V).
    + refine (rated_map _ _ _ _ V). intros v. reflexivity.
    + destruct (ss_tick_voices L s) as (m & _ & _ & X). destruct (ss_tick L s) as [s1 y]. cbn [fst] in *. rewrite X. exact D.
Qed.
(** Instances. *)
Example ex_C121_stilson : match st_init zero (fofZ 48000) with Val s =>
    match st_setResonance (fst (st_tick s one)) (fdec 9 10) with Val u => st_Q u <> st_Q s /\ st_setResonance u (fdec 1 10) = Val (fst (st_tick s one)) /\ st_s0 u <> fzero | _ => False end
  | _ => False end.
Proof. vm_compute. repeat split; discriminate. Qed.
Example ex_C121_supersaw_detune : let s := ss_setDetune (ss_init toy_trig (fofZ 48000) (fun _ => half)) half in
  map sv_det (ss_voices (ss_setDetune s one)) <> map sv_det (ss_voices s) /\ map sv_det (ss_voices (ss_setDetune (ss_setDetune s one) half)) = map sv_det (ss_voices s).
Proof. cbv zeta. split; [vm_compute; discriminate|vm_compute; reflexivity]. Qed.

Print Assumptions C121_stilson.
Print Assumptions C121_supersaw_voices.
