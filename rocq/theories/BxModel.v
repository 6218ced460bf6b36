(** Model of examples/basic_example.cpp over the models of its parts.

    Simplifications: of the text printed only the numbers and the yes/no are kept, as values
    (not as decimal digits); an [AudioBuffer<64>] filled by [process] and then read is the list of
    the samples written (BlkModel, C13).  The two buffers of each [AudioLoop] are kept as memory,
    uninitialised before [init] (any contents). *)
From Coq Require Import ZArith Bool List.
From Verif Require Import Flt Libm UtilModel OscModel EnvModel VcModel AllocModel LoopModel.
Import ListNotations.

(** basic_example.cpp:20-21 [SAMPLE_RATE], [BLOCK_SIZE]. *)
Definition bx_sr : f32 := fofZ 48000.
Definition bx_n : nat := 64.
(** [process(buffer.data, n)] of a unit generator without input. *)
Fixpoint bx_fill {S Y} (tick : S -> S * Y) (n : nat) (s : S) : S * list Y :=
  match n with
  | O => (s, [])
  | Datatypes.S n => let (s, y) := tick s in let (s, ys) := bx_fill tick n s in (s, y :: ys)
  end.

(** basic_example.cpp:30-45: the first 8 samples of a sine at 440 Hz. *)
Definition bx_ex1 (L : libm) : list f32 :=
  firstn 8 (snd (bx_fill (so_tick L) bx_n (so_setFrequency (so_init bx_sr) (fofZ 440)))).
(** basic_example.cpp:48-65: the first 8 values of an envelope. *)
Definition bx_ex2 (L : libm) : list f32 :=
  let env := ar_setRelease L (ar_setAttack L (ar_init L bx_sr) (fdec 1 100)) (fdec 1 10) in
  firstn 8 (snd (bx_fill ar_tick bx_n (ar_trigger env))).
(** basic_example.cpp:68-82: the first 8 values of a 4 Hz noise with seed 42. *)
Definition bx_ex3 : list f32 :=
  firstn 8 (snd (bx_fill ln_tick bx_n (ln_setFrequency (ln_init bx_sr 42) (fofZ 4)))).

(** basic_example.cpp:87-98: the voice of example 4. *)
Definition bx_voice (L : libm) : voice :=
  let v := ev_setFrequency (ev_init L bx_sr) (fofZ 440) in
  let v := ev_setRelease L (ev_setAttack L v (fdec 1 100)) (fdec 5 10) in
  let v := ev_setVibratoRate (ev_setVibratoDepth v (fdec 1 10)) (fofZ 5) in
  ev_trigger (ev_setAmplitude v (fdec 8 10)).
(** basic_example.cpp:110-117: [if (std::abs(buffer[i]) > maxVal) maxVal = std::abs(buffer[i])] on both channels. *)
Definition bx_peak (m x : f32) : f32 := if flt m (fabs x) then fabs x else m.
Definition bx_scan (m : f32 * f32) (ys : list (f32 * f32)) : f32 * f32 :=
  fold_left (fun m y => (bx_peak (fst m) (fst y), bx_peak (snd m) (snd y))) ys m.
(** basic_example.cpp:107-123: the blocks from number [block] on, [n] of them left; the release comes after block 50. *)
Fixpoint bx_blocks (L : libm) (n : nat) (block : Z) (v : voice) (m : f32 * f32) : voice * (f32 * f32) :=
  match n with
  | O => (v, m)
  | S n =>
      let (v, ys) := bx_fill (ev_tick L) bx_n v in
      let m := bx_scan m ys in
      let v := if (block =? 100 / 2)%Z then ev_release v else v in
      bx_blocks L n (block + 1) v m
  end.
(** basic_example.cpp:85-127: the two peaks and "Voice active". *)
Definition bx_ex4 (L : libm) : (f32 * f32) * bool :=
  let (v, m) := bx_blocks L 100 0 (bx_voice L) (fzero, fzero) in (m, ev_isActive v).

(** ExampleVoice.h:217-223 [process] storing through the processing pointers of the two loops. *)
Fixpoint bx_process (L : libm) (n i : nat) (v : voice) (pl pr : side) (l r : lstate) : option (voice * (lstate * lstate)) :=
  match n with
  | O => Some (v, (l, r))
  | S n =>
      let (v, y) := ev_tick L v in
      l <- store l pl i (fst y) ;; r <- store r pr i (snd y) ;;
      bx_process L n (S i) v pl pr l r
  end.
(** basic_example.cpp:143-158: [n] rounds of the loop. *)
Fixpoint bx_rounds (L : libm) (n : nat) (v : voice) (l r : lstate) : option (voice * (lstate * lstate)) :=
  match n with
  | O => Some (v, (l, r))
  | S n =>
      let pl := getProcessingBuffer l in let pr := getProcessingBuffer r in
      let l := clearProcessingBuffer l in let r := clearProcessingBuffer r in
      x <- bx_process L bx_n 0 v pl pr l r ;;
      bx_rounds L n (fst x) (swapBuffers (fst (snd x))) (swapBuffers (snd (snd x)))
  end.
(** basic_example.cpp:131-161, from the uninitialised loops [l] and [r]. *)
Definition bx_ex5 (L : libm) (l r : lstate) : option (voice * (lstate * lstate)) :=
  bx_rounds L 10 (ev_trigger (ev_setFrequency (ev_init L bx_sr) (fofZ 440))) (loop_init l bx_sr) (loop_init r bx_sr).
