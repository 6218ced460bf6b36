(** Model of ExampleVoice.h and ugens/SuperSaw.h, built from the models of their components.
    Members are uninitialised before [init]; the model starts with [init].  Only [Pan2::process] of the panners is used, which has no state. *)
From Coq Require Import ZArith Bool List.
From Verif Require Import Flt Libm UtilModel OscModel EnvModel PanModel.
Import ListNotations.
Local Open Scope flt_scope.

(** ** ExampleVoice.h *)
(** ExampleVoice.h:49-77 data members. *)
Record voice := Voice { ev_osc : sinosc; ev_env : ar; ev_vib : lfn; ev_pan : lfn;
                        ev_base : f32; ev_depth : f32; ev_pdepth : f32; ev_amp : f32; ev_sr : f32 }.
(** LFNoise2.h:65, 169: the default seed. *)
Definition seed0 : Z := 12345.
(** ExampleVoice.h:83-107 [init]. *)
Definition ev_init (L : libm) (sr : f32) : voice :=
  Voice (so_init sr) (ar_setRelease L (ar_setAttack L (ar_init L sr) (fdec 1 100)) (fdec 3 10))
    (ln_setFrequency (ln_init sr seed0) (fofZ 5)) (ln_setFrequency (ln_init sr seed0) one)
    (fofZ 440) half one half sr.
(** ExampleVoice.h:113-116 [setFrequency]. *)
Definition ev_setFrequency (v : voice) (f : f32) : voice :=
  Voice (so_setFrequency (ev_osc v) f) (ev_env v) (ev_vib v) (ev_pan v) f (ev_depth v) (ev_pdepth v) (ev_amp v) (ev_sr v).
Definition ev_with_env (v : voice) (e : ar) : voice :=
  Voice (ev_osc v) e (ev_vib v) (ev_pan v) (ev_base v) (ev_depth v) (ev_pdepth v) (ev_amp v) (ev_sr v).
(** ExampleVoice.h:122, 128 [setAttack], [setRelease]. *)
Definition ev_setAttack (L : libm) (v : voice) (t : f32) : voice := ev_with_env v (ar_setAttack L (ev_env v) t).
Definition ev_setRelease (L : libm) (v : voice) (t : f32) : voice := ev_with_env v (ar_setRelease L (ev_env v) t).
(** ExampleVoice.h:134 [setVibratoDepth]. *)
Definition ev_setVibratoDepth (v : voice) (d : f32) : voice :=
  Voice (ev_osc v) (ev_env v) (ev_vib v) (ev_pan v) (ev_base v) d (ev_pdepth v) (ev_amp v) (ev_sr v).
(** ExampleVoice.h:140 [setVibratoRate]. *)
Definition ev_setVibratoRate (v : voice) (r : f32) : voice :=
  Voice (ev_osc v) (ev_env v) (ln_setFrequency (ev_vib v) r) (ev_pan v) (ev_base v) (ev_depth v) (ev_pdepth v) (ev_amp v) (ev_sr v).
(** ExampleVoice.h:146 [setAmplitude]. *)
Definition ev_setAmplitude (v : voice) (a : f32) : voice :=
  Voice (ev_osc v) (ev_env v) (ev_vib v) (ev_pan v) (ev_base v) (ev_depth v) (ev_pdepth v) (clamp a zero one) (ev_sr v).
(** ExampleVoice.h:152-154 [setPanDepth]. *)
Definition ev_setPanDepth (v : voice) (d : f32) : voice :=
  Voice (ev_osc v) (ev_env v) (ev_vib v) (ev_pan v) (ev_base v) (ev_depth v) (clamp d zero one) (ev_amp v) (ev_sr v).
(** ExampleVoice.h:159, 164, 170, 176 [trigger], [release], [setGate], [isActive]. *)
Definition ev_trigger (v : voice) : voice := ev_with_env v (ar_trigger (ev_env v)).
Definition ev_release (v : voice) : voice := ev_with_env v (ar_release (ev_env v)).
Definition ev_setGate (v : voice) (on : bool) : voice := ev_with_env v (ar_setGate (ev_env v) on).
Definition ev_isActive (v : voice) : bool := ar_isActive (ev_env v).
(** ExampleVoice.h:192: 0.057762265f (0x3D6C9820). *)
Definition LN2_12 : f32 := flit 15505440 (-28).
(** ExampleVoice.h:184-194: the vibrato part of [tick]. *)
Definition ev_vibrato (v : voice) : lfn * sinosc :=
  if ev_depth v >? zero then
    let (vib, vibMod) := ln_tick (ev_vib v) in
    let semitones := vibMod * ev_depth v in
    let ratio := one + semitones * LN2_12 in
    (vib, so_setFrequency (ev_osc v) (ev_base v * ratio))
  else (ev_vib v, ev_osc v).
(** ExampleVoice.h:182-209 [tick]. *)
Definition ev_tick (L : libm) (v : voice) : voice * (f32 * f32) :=
  let (vib, osc) := ev_vibrato v in
  let (osc, oscOut) := so_tick L osc in
  let (env, envOut) := ar_tick (ev_env v) in
  let monoOut := oscOut * envOut * ev_amp v in
  let (pan, p) := ln_tick (ev_pan v) in
  let panPos := p * ev_pdepth v in
  (Voice osc env vib pan (ev_base v) (ev_depth v) (ev_pdepth v) (ev_amp v) (ev_sr v), pan2_process L monoOut panPos).
(** ExampleVoice.h:243-248 [reset]. *)
Definition ev_reset (v : voice) : voice :=
  Voice (so_reset (ev_osc v) zero) (ar_reset (ev_env v)) (ln_reset (ev_vib v) seed0) (ln_reset (ev_pan v) seed0)
    (ev_base v) (ev_depth v) (ev_pdepth v) (ev_amp v) (ev_sr v).

(** Calls on an initialised voice; a tick yields its output. *)
Inductive ev_op := EvInit (sr : f32) | EvFreq (f : f32) | EvAttack (t : f32) | EvRelTime (t : f32) | EvDepth (d : f32) | EvRate (r : f32)
  | EvAmp (a : f32) | EvPan (d : f32) | EvTrigger | EvRelease | EvGate (on : bool) | EvTick | EvReset.
Definition ev_call (L : libm) (v : voice) (o : ev_op) : voice * option (f32 * f32) :=
  match o with
  | EvInit sr => (ev_init L sr, None)
  | EvFreq f => (ev_setFrequency v f, None)
  | EvAttack t => (ev_setAttack L v t, None)
  | EvRelTime t => (ev_setRelease L v t, None)
  | EvDepth d => (ev_setVibratoDepth v d, None)
  | EvRate r => (ev_setVibratoRate v r, None)
  | EvAmp a => (ev_setAmplitude v a, None)
  | EvPan d => (ev_setPanDepth v d, None)
  | EvTrigger => (ev_trigger v, None)
  | EvRelease => (ev_release v, None)
  | EvGate on => (ev_setGate v on, None)
  | EvTick => let (v, y) := ev_tick L v in (v, Some y)
  | EvReset => (ev_reset v, None)
  end.
Fixpoint ev_run (L : libm) (v : voice) (ops : list ev_op) : voice * list (option (f32 * f32)) :=
  match ops with
  | [] => (v, [])
  | o :: t => let (v1, r) := ev_call L v o in let (v2, rs) := ev_run L v1 t in (v2, r :: rs)
  end.

(** ** SuperSaw.h *)
(** SuperSaw.h:54-61 [Voice]; the random phases are only used in [init]. *)
Record svoice := SVoice { sv_saw : saw; sv_vib : lftri; sv_det : f32 }.
(** SuperSaw.h:63-75 data members. *)
Record ssaw := SSaw { ss_voices : list svoice; ss_env : adsr; ss_freq : f32; ss_vrate : f32; ss_vdepth : f32; ss_det : f32; ss_spread : f32; ss_sr : f32 }.
(** SuperSaw.h:114, 158: [((static_cast<Sample>(i) / (NUM_VOICES - 1)) - 0.5f) * detune]. *)
Definition ss_offset (i : Z) (det : f32) : f32 := (fofZ i / fofZ 6 - half) * det.
(** [for (int i = 0; i < NUM_VOICES; ++i)]. *)
Definition idx : list Z := [0; 1; 2; 3; 4; 5; 6]%Z.
(** SuperSaw.h:86-121 [init].  The numbers drawn from the [std::mt19937] are an argument: draw number [k] is [rnd k]. *)
Definition ss_init (L : libm) (sr : f32) (rnd : Z -> f32) : ssaw :=
  let det := fdec 2 10 in
  let env := ad_setRelease L (ad_setSustain (ad_setDecay L (ad_setAttack L (ad_init L sr) (fdec 1 100)) (fdec 1 10)) (fdec 7 10)) (fdec 3 10) in
  SSaw (map (fun i => SVoice (sw_init sr (rnd (2 * i + 1)%Z * two - one)) (lt_setFrequency (lt_init sr (rnd (2 * i)%Z * fofZ 4)) (fofZ 6)) (ss_offset i det)) idx)
    env (fofZ 400) (fofZ 6) (fdec 3 10) det (fdec 6 10) sr.
(** SuperSaw.h:127-129 [setFrequency]. *)
Definition ss_setFrequency (s : ssaw) (f : f32) : ssaw :=
  SSaw (ss_voices s) (ss_env s) f (ss_vrate s) (ss_vdepth s) (ss_det s) (ss_spread s) (ss_sr s).
(** SuperSaw.h:135-140 [setVibratoRate]. *)
Definition ss_setVibratoRate (s : ssaw) (r : f32) : ssaw :=
  SSaw (map (fun v => SVoice (sv_saw v) (lt_setFrequency (sv_vib v) r) (sv_det v)) (ss_voices s)) (ss_env s) (ss_freq s) r (ss_vdepth s) (ss_det s) (ss_spread s) (ss_sr s).
(** SuperSaw.h:146-148 [setVibratoDepth]. *)
Definition ss_setVibratoDepth (s : ssaw) (d : f32) : ssaw :=
  SSaw (ss_voices s) (ss_env s) (ss_freq s) (ss_vrate s) d (ss_det s) (ss_spread s) (ss_sr s).
(** SuperSaw.h:154-160 [setDetune]. *)
Definition ss_setDetune (s : ssaw) (d : f32) : ssaw :=
  SSaw (map (fun p => SVoice (sv_saw (snd p)) (sv_vib (snd p)) (ss_offset (fst p) d)) (combine idx (ss_voices s))) (ss_env s) (ss_freq s) (ss_vrate s) (ss_vdepth s) d (ss_spread s) (ss_sr s).
(** SuperSaw.h:166-168 [setSpread]. *)
Definition ss_setSpread (s : ssaw) (x : f32) : ssaw :=
  SSaw (ss_voices s) (ss_env s) (ss_freq s) (ss_vrate s) (ss_vdepth s) (ss_det s) (clamp x zero one) (ss_sr s).
Definition ss_with_env (s : ssaw) (e : adsr) : ssaw :=
  SSaw (ss_voices s) e (ss_freq s) (ss_vrate s) (ss_vdepth s) (ss_det s) (ss_spread s) (ss_sr s).
(** SuperSaw.h:174-208 [setAttack], [setDecay], [setSustain], [setRelease], [gate]; 214-216 [isActive]. *)
Definition ss_setAttack (L : libm) (s : ssaw) (t : f32) : ssaw := ss_with_env s (ad_setAttack L (ss_env s) t).
Definition ss_setDecay (L : libm) (s : ssaw) (t : f32) : ssaw := ss_with_env s (ad_setDecay L (ss_env s) t).
Definition ss_setSustain (s : ssaw) (l : f32) : ssaw := ss_with_env s (ad_setSustain (ss_env s) l).
Definition ss_setRelease (L : libm) (s : ssaw) (t : f32) : ssaw := ss_with_env s (ad_setRelease L (ss_env s) t).
Definition ss_gate (s : ssaw) (g : f32) : ssaw := ss_with_env s (ad_setgate (ss_env s) g).
Definition ss_isActive (s : ssaw) : bool := ad_isActive (ss_env s).
(** SuperSaw.h:229-247: one round of the voice loop: voice number [i] after the round and its panned sample. *)
Definition sv_tick (L : libm) (freq depth spread : f32) (i : Z) (v : svoice) : svoice * (f32 * f32) :=
  let (vib, vibratoValue) := lt_tick (sv_vib v) in
  let vibratoMod := m_pow L two ((vibratoValue * depth) / fofZ 12) in
  let detuneMod := m_pow L two (sv_det v / fofZ 12) in
  let voiceFreq := freq * vibratoMod * detuneMod in
  let (sw, sawSample) := sw_tick (sw_setFrequency (sv_saw v) voiceFreq) in
  let panPos := (fofZ (i mod 2) * two - one) * spread in
  (SVoice sw vib (sv_det v), pan2_process L sawSample panPos).
(** SuperSaw.h:229-252: the voice loop from [mix] on. *)
Fixpoint ss_mix (L : libm) (freq depth spread : f32) (l : list (Z * svoice)) (mix : f32 * f32) : list svoice * (f32 * f32) :=
  match l with
  | [] => ([], mix)
  | (i, v) :: t =>
      let (v', p) := sv_tick L freq depth spread i v in
      let (vs, m) := ss_mix L freq depth spread t (fst mix + fst p, snd mix + snd p) in
      (v' :: vs, m)
  end.
(** SuperSaw.h:254: [1.0f / std::sqrt(static_cast<Sample>(NUM_VOICES))]. *)
Definition ss_norm : f32 := one / fsqrt (fofZ 7).
(** SuperSaw.h:222-263 [tick]. *)
Definition ss_tick (L : libm) (s : ssaw) : ssaw * (f32 * f32) :=
  let (env, e) := ad_tick (ss_env s) in
  let (vs, mix) := ss_mix L (ss_freq s) (ss_vdepth s) (ss_spread s) (combine idx (ss_voices s)) (zero, zero) in
  (SSaw vs env (ss_freq s) (ss_vrate s) (ss_vdepth s) (ss_det s) (ss_spread s) (ss_sr s), (fst mix * ss_norm * e, snd mix * ss_norm * e)).
(** SuperSaw.h:282-287 [reset]. *)
Definition ss_reset (s : ssaw) : ssaw :=
  SSaw (map (fun v => SVoice (sw_reset (sv_saw v)) (sv_vib v) (sv_det v)) (ss_voices s)) (ad_reset (ss_env s)) (ss_freq s) (ss_vrate s) (ss_vdepth s) (ss_det s) (ss_spread s) (ss_sr s).

(** Calls on an initialised SuperSaw; a tick yields its output. *)
Inductive ss_op := SsInit (sr : f32) (rnd : Z -> f32) | SsFreq (f : f32) | SsRate (r : f32) | SsDepth (d : f32) | SsDetune (d : f32) | SsSpread (x : f32)
  | SsAttack (t : f32) | SsDecay (t : f32) | SsSustain (l : f32) | SsRelease (t : f32) | SsGate (g : f32) | SsTick | SsReset.
Definition ss_call (L : libm) (s : ssaw) (o : ss_op) : ssaw * option (f32 * f32) :=
  match o with
  | SsInit sr rnd => (ss_init L sr rnd, None)
  | SsFreq f => (ss_setFrequency s f, None)
  | SsRate r => (ss_setVibratoRate s r, None)
  | SsDepth d => (ss_setVibratoDepth s d, None)
  | SsDetune d => (ss_setDetune s d, None)
  | SsSpread x => (ss_setSpread s x, None)
  | SsAttack t => (ss_setAttack L s t, None)
  | SsDecay t => (ss_setDecay L s t, None)
  | SsSustain l => (ss_setSustain s l, None)
  | SsRelease t => (ss_setRelease L s t, None)
  | SsGate g => (ss_gate s g, None)
  | SsTick => let (s, y) := ss_tick L s in (s, Some y)
  | SsReset => (ss_reset s, None)
  end.
Fixpoint ss_run (L : libm) (s : ssaw) (ops : list ss_op) : ssaw * list (option (f32 * f32)) :=
  match ops with
  | [] => (s, [])
  | o :: t => let (s1, r) := ss_call L s o in let (s2, rs) := ss_run L s1 t in (s2, r :: rs)
  end.
