# Formal model of subcollider in Rocq (Coq 8.16.1)

Source: `/repo` (schollz/subcollider, pinned commit), read as text. Nothing from it is built or run.

## Arithmetic and outcome model

* `float` is IEEE-754 binary32 and `double` is binary64, modelled bit-exactly with Flocq's
  `BinarySingleNaN` (round to nearest even, infinities, signed zeros, subnormals, one NaN).
  The model functions are computable, so witnesses of refuted claims are checked by `vm_compute`.
* Assumed about the compiler: `FLT_EVAL_METHOD == 0`, no fused multiply-add contraction, no `-ffast-math`.
* `size_t` is `Z` modulo 2^64 with the wrap written out; `int` overflow, out-of-range float-to-integer
  casts, out-of-bounds accesses and null dereferences are a distinct outcome (`UB` / `None`).
* libm functions (`exp sin cos tan tanh pow log atan ...`) are oracles: a record of functions passed to the model.
  Theorems that need a fact about them carry it as an explicit hypothesis; a correctly rounded
  instance is constructed to show that the hypotheses are satisfiable.
  `floor`, `ceil`, `round`, `fmod`, `sqrt`, `fabs` are not oracles: they are exact in IEEE-754 and defined in full.

## Trusted base

* The Coq kernel (including `vm_compute`), and the reading of the C++ into Gallina (each definition cites file and lines).
* Axioms: only those of the standard library's Reals / classical logic as listed by `Print Assumptions`
  under each theorem (`ClassicalDedekindReals.sig_forall_dec`, `ClassicalDedekindReals.sig_not_dec`,
  `FunctionalExtensionality.functional_extensionality_dep`, `Classical_Prop.classic`). None of our own.
  `coqchk -o` over the whole library also lists the parameters of sealed standard modules that some imported file uses (`RbaseSymbolsImpl`, `RinvImpl`, ssreflect's `Under_rel`); no theorem here depends on the latter.

## Plan per property

| id | modelled | proof |
|----|----------|-------|
| C01-C08 | `BufferAllocator` block table as an array with explicit bounds, pool, `size_t` wrap | invariant over operation lists; refinement to a partition of `[0,pool)`; C08 by witness |
| C09-C11 | `Buffer` reads and the three fill functions over a pool of floats | frame and read-back lemmas |
| C12 | `AudioLoop` double buffer: fetches, stores, swaps and loads as separate steps | refinement to "last committed block" over event lists; witnesses for torn reads and stale writers |
| C13 | every UGen's block loop over one memory in which buffers may overlap (`BlkModel`) | one loop lemma from the contract of a single round (`BlkProofs.round`), instantiated per UGen; witness for an output inside its input |
| C14-C16 | `types.h`, `LinLin`, `Wrap` in binary32 | monotonicity of rounding; Sterbenz-style exactness for integers; error analysis for general `Wrap` ranges; witnesses for the refuted parts |
| C17-C19, C56 | `Pan2`, `Balance2`, `XFade2`, `DBAmp` with sin/cos/atan/pow oracles | relative error bookkeeping (`near`), real bounds on pi, sin, cos, atan (`RealBounds`) |
| C20-C24, C55 | `EnvelopeAR`, `EnvelopeADSR` in binary32 with exp oracle | invariant over call lists; strict decrease of rounded products for termination; fixed point for the stall |
| C25-C28, C57 | `SinOsc`, `LFTri`, `SawDPW`, `LFNoise2` with a sin oracle | phase invariants; absolute-error bookkeeping (`FltClose.cl`); LCG period by 2-adic induction; Catmull-Rom Lipschitz bound |
| C29 | `LagLinear` | induction on the remaining count, accumulated rounding error |
| C30-C32, C53 | `Lag`, `OnePoleLPF`, `DCBlock`, `Tape` with exp, tanh oracles | float bounds by monotone rounding; recurrences c^n with an error term; bounds on exp from its series (`ExpBounds`) |
| C33-C36, C58 | `XLine`, `Phasor` with exp, log oracles | float counters exact below 2^24; logarithmic error of repeated products; `fmod` exactness, exact arithmetic on dyadic grids |
| C37-C40, C59 | `BufRd` | cast and index ranges; `fmod` exactness; error bookkeeping scaled by 2^j (`FltScale`) |
| C41-C42, C60, C61 | `CombC` with an exp oracle; the wrap loop has fuel | ring buffer refined to the list of all past samples; Catmull-Rom error scaled by 2^j; level invariants; bounds on ln 1000 (`LnBounds`) |
| C43, C62 | `Downsampler`, `StereoDownsampler` with an exp oracle | relative error bookkeeping (`FltRel`) for the coefficient; contraction of the error per filter stage; induction over frames |
| C44, C45, C63–C68 | `XPlay` built from the BufRd, Wrap, XFade2, LagLinear and EnvelopeADSR models; wrap loops with fuel | one invariant over all calls; termination by a decreasing distance per round; release by the C22 argument |
| C46 | `FVerb` setters (`FvModel.fv_set`) | case analysis per parameter, induction over calls |
| C47 | `FVerb` and the Faust class: 2^k rings, one `int` counter | simulation of the rings by lists of past samples (`FvProofs`-`FvProofs3`); tap lengths below ring sizes for all 192000 rates by monotone rounding |
| C48, C83, C84 | call histories of `FVerb` | consequences of the simulation: ideal state depends only on settings and frames since the last restart |
| C80 | `to_int` casts and ring indices | sine and modulator phase bounds, float interval arithmetic over all rates |
| C81, C82 | ideal network | zero propagation: invariant "all lines younger than the tap are 0" |
| C85 | frame counter | induction over calls |
| C86 | ideal network | NaN propagation through the loop; invariant "this many last samples of a line are NaN" |
| C87 | all seven ladders | generic lemma `LaProofs.fresh_run`: reset commutes with setters and forgets ticks |
| C88 | Microtracker, MusicDSP, Improved, RK | NaN propagation, invariant "this member is NaN" (`LaProofs.sticks`) |
| C89 | `im_tick` | each voltage stays in a band: beyond 12.48 V its own tanh is saturated and the slope cannot point outwards (`ImProofs`) |
| C90 | `rk_tick` | each stage stays in a band as its clipped value saturates at +-2; the four Runge-Kutta slopes keep their sign there (`RkProofs`..`RkProofs3`) |
| C91 | `mt_tick` | rational tanh is monotone with slope at most 1 (`MtProofs`); contraction per stage towards the clipped input, feedback gain below 1 |
| C92 | `md_tick`, `md_setCutoff` | error counting `ex`; per-stage level 1.15 from 2p <= 1.1464 (1 + k), which holds for all cutoffs up to 0.15 sr since the sine is at least w - w^3/2; cubic at most 0.944 on [-2.81, 2.81]. Run-away: the only two doubles an accurate sine can return there (sine by its series to 2^-54), both computed |
| C93 | `load`, `sf_store`, `load_channels` (`PbModel`) | on top of the allocator invariant: the region handed out is inside the pool and disjoint from all live ones; stores read back by induction |
| C94 | `ph_tick`, `pl_run` | one addition below 2^(k+24) of at most 2^k cannot round past it; above 2^k it moves by at least half of it. Playback: the smoothed rate stays in [0, 1/2] exactly, so two players on files with the same head run in lock step |
| C95 | `pl_rate` | error propagation through the clamps; log and exp by their relative-error hypotheses (`log_map_acc`) |
| C96 | `pl_run`, `load`, `view` | invariant of player state (`pl_inv`): phasor, lag, reader, downsampler bounds composed |
| C97 | `pl_run` | lag coefficient is a multiple of 2^-24 in [1/2, 1], so a lag at 1/2 stays there exactly; position counts halves exactly; cubic at halves; lowpass is a sup-norm contraction |
| C98 | `mx_cutoff`, `mx_resonance` | relative error of exp(log a + s(log b - log a)); clamping commutes with rounding |
| C99 | `mx_run` | `ObProofs2`: ladder levels for cutoffs down to 2^-25 sample rates; the smoother's output is at least its input share; saws finite |
| C100 | `mx_run` | 99 Hz is a fixed lower bound because a step gains 0.9(1-c) and loses two roundings; from 0 the first step is (1-c) times the target |
| C101 | `jx_run` | invariant of the voice (`ev_inv`) along the run; channel gain at most 1, level 1/2 |
| C102 | `jx_run`, `held` | stored gate and voice gate agree without rate callbacks; release reaches 0 within three seconds by the envelope's decay; initialised voice is silent |
| C103 | `jx_run`, `asked`, `pitch` | vibrato in [-1,1] times its smoothed depth, ratio close to 1 (`VcProofs2.ratio_close`) |
| C104 | `xx_session` | the player of a run is the player of one flat list of `XPlay` calls (`session_player`), in which pointer moves leave no trace |
| C105 | `xx_session`, `load`, `view` | the same reduction, then C44/C65 for that list |
| C106 | `xx_session` | settings survive ticks; loop bounds are exact products; window of C63; `wrap` is the identity on the lower three quarters |
| C107 | `sx_session`, `fv_run` | the reverb's calls are extracted from the run (`plays_chain`), then C80/C85 for that list |
| C108 | `sx_session` | invariant (`sx_inv`) composing the bounds of voices, smoothers, ladder (`RkProofs` levels), downsampler, DC blocker and lowpass |
| C109 | `sx_session`, `sx_rate` | fixed bounds of the smoother; from 0 its first step is (1-c) times the target; phases by error propagation through `SawDPW::init` |
| C110 | `sx_cutoff`, `sx_drive`, `sx_gain` | relative error of exp(log a + s(log b - log a)); clamping commutes with rounding |
| C111 | ideal network | supremum norm through the loop: level of an allpass line U/(1-g), of a one-pole filter U/(1-p), loop gain 0.4 (1+2g)(1+2d) below 1; smoothed parameters rise monotonically, so old entries obey the current levels; rounding bounded by 1e-7 of each level |
| C112 | heap of named blocks, objects with raw pointers (`OwnModel`) | each object holds a known list of blocks; the heap is a permutation of all lists and the lost blocks (`OwnProofs.inv`), step by step both ways; for copies: a shared name is given back once and is then dangling for ever (`OwnProofs2.sharing`) |
| C113 | ring, running sum and reading of the load meter (`CpuModel`) | ring contents by index arithmetic mod 100; usual samples are multiples of 2^-33 below 2^13, so 100 of them add up exactly in 53 bits; relative errors of four double operations and one narrowing |
| C114 | mt19937 and libstdc++'s `uniform_real_distribution<float>` (`RnModel`), `SuperSaw::init` with a seed | words stay below 2^32 through shifts and bit operations; float(word)/2^32 with the clamp below 1; seeds below 64 by computation (checked table), the rest for all seeds |
| C115 | EnvelopeAR, EnvelopeADSR (`EnvModel`) over reals | the computed coefficient is within 2.5*2^-24 of e^(-1/T); attack and decay are contractions towards the target with a fixed rounding error per step (geometric sum), the release a product of factors each off by a relative 2^-22; numerical bounds on e^-x by repeated squaring (`ExpBounds2`) |
| C116 | examples/basic_example.cpp (`BxModel`) over `OscModel`, `EnvModel`, `VcModel`, `LoopModel` | the example's loops are rewritten as one call history of the voice; then C57 (sine), C115 (envelope curve, also why the release has not ended), the voice invariant of the level bound, a fold lemma for the peak scan, and a round lemma for the double buffer; example 3 by computation |
| C117 | the models of all filters, panners, `FvModel`, `CombModel` | `FltPol`: each float operation commutes with negation up to the sign of zero, overflow, infinities and NaN included (round to nearest even is symmetric); then a simulation between the two histories per unit: settings equal, signal state negated (`PolProofs`..`PolProofs4`). Odd tanh is a hypothesis, shown for the correctly rounded one. Krajeski: its clamp maps NaN to the lower bound, so C50's invariant keeps NaN away |
| C118 | the models of C117 | zero and NaN are exactly what equals its own inverse, so C117's step lemmas, stated for any pair of related samples, apply to a silent history and itself (`QtProofs`); exact zero follows where C30, C32, C50, C53, C72, C89..C92 exclude NaN. Tape needs no condition on the bias as the follower it scales stays silent. Krajeski refuted by computation |
| C119 | SmoothModel (Lag, OnePoleLPF, DCBlock) | with the input at rest each output is round(c*previous) (`TailProofs`): magnitudes are non-increasing multiples of 2^-149, so a fixed point appears; for c >= 0.51 rounding never reaches zero, for c <= 1-2^-16 the fixed point is subnormal, for c <= 0.49 each step halves until zero. The coefficient bounds come from the accuracy of exp. Assumes that subnormals are not flushed to zero (IEEE default; the library sets no flush mode). Coefficients between 0.49 and 0.51 are left out |
| C120 | EnvModel, OscModel, SmoothModel, LineModel, RdModel, VcModel, CombModel, LpModel, PanModel, ladder models | equality of states after init and after an explicit setter call with the default (`DefProps`); the clamped defaults are computed, the rest is rewriting over abstract states. Refuted: CombC with a line shorter than 0.2 s, and the comment "No vibrato by default" of ExampleVoice.h:94 |
| C121 | OscModel, SmoothModel, EnvModel, LineModel, RdModel, LpModel, CombModel, VcModel, ladder models | `undone` (`SetProps`): the last setter call wins, and being a fixed point of the setter is kept by every other call (what a tick leaves alone is a lemma per unit). `SetProps2`: Stilson with `undone_res` (setters may be undefined), SuperSaw detune and vibrato rate voice by voice. Left out: XPlay and FVerb setters, ExampleVoice.setFrequency (the vibrato moves the oscillator), Phasor.setFrequency (a rate computed from the current ends) |
| C122 | OscModel, SmoothModel, EnvModel, LineModel, LpModel, CombModel | `kept` (`RenewProps`): the fields that setters determine are kept by every other call; reset overwrites all other fields with their initial values. Ladders: C87; FVerb: C83; voices: C77 |
| C49, C69, C70 | `RLPF` in binary64 with sin, cos oracles | absolute error bookkeeping (`Dbl.ap`); the filter over the reals with disturbances, bounded and contracted through its complex or real poles (`LpReal`, `LpReal2`) |
| C50-C52, C71 | the seven Moog ladders in binary64 with tanh, pow, tan, sin oracles | error counting in units of 2^-48 (`MgBase.ex`), magnitude bounds (`MgBase.bd`), one invariant over all calls; midpoint argument for the Stilson saturation; NaN propagation |
| C72-C74 | Oberheim ladder (`ObModel`) | relative error counting for positive doubles (`DblRel.rp`) gives the prewarped gain and the coefficients; per-stage levels `ObProofs.fits` for low, fixed and moving cutoffs; NaN propagation; computed run-away above half the sample rate, with the tangent there bounded by its series |
| C54 | `ExampleVoice` and `SuperSaw` as call sequences over the models of their parts (`VcModel`) | invariant over all calls (`VcProofs.ev_inv`, `SsProofs2.ss_inv`); NaN propagation for bad frequencies |
| C75 | `ev_tick`, the linearised semitone formula | relative error of 1 + x against 2^(x/ln 2) from series bounds (`Ln2.exp_lin`); witnesses for depth 24 and depth 0 |
| C76 | both `LFNoise2` members with the default seed | invariant: both hold points of `draws seed0`; equal states stay equal at equal rates |
| C77 | `ev_reset`, `ss_reset` | relation "equal but for the stale oscillator frequency", closed under all calls that keep the vibrato on |
| C78 | the mix of seven panned `SawDPW`s | per-voice peak from the phase increments of two successive frequencies (`SsProofs.saw_moved`); equal-power gains give 4cos+3sin <= 5 |
| C79 | `sv_tick`, `ss_offset` | float error of the exponents, `pow` accurate to 2^-22 |

## Not modelled

* `AudioLoop::currentBuffer` is a `volatile uint8_t`, so concurrent use is formally a data race. The model takes
  every access as one sequentially consistent step; compiler reordering and weak memory are not modelled.
* `std::uniform_real_distribution` of standard libraries other than libstdc++ (the standard fixes the engine `std::mt19937`, modelled in `RnModel`, but not the distribution): for those the theorems that take an arbitrary sequence of floats in [0,1] as draws apply.
* `FVerb`: blocks of 2^31 or more frames, the contents of its internal work buffer (only whether it has been allocated).
  Its memory and that of `CombC`, and copies of both, are in `OwnModel.v`, without sample values.
* `examples/jack_playback_example.cpp` is modelled from `loadAudioFile` to the callbacks (`PbModel.v`); libsndfile, JACK and X11 are outside,
  a file is the stream of its samples, and each callback runs to completion between two changes of the control value.
* `examples/moog_example.cpp` is modelled sample by sample (`MxModel.v`); a control store may fall between any two samples.
* `examples/jack_example.cpp` is modelled from the typed lines to the callbacks (`JxModel.v`); a line is an empty line or the float it parses to,
  and a callback runs to completion between two lines.
* `examples/jack_xplay.cpp` is modelled like the playback example (`XxModel.v`); the allocated buffer is handed over with the file's sample rate.
* `examples/supersaw_example.cpp` is modelled frame by frame (`SxModel.v`); a control store may fall before any frame of a block. The two constants
  of the drive range are divided as `100.0f / 0.01f`. Printing is left out; CPU metering is a model of its own (`CpuModel.v`), fed with the measured durations.
* `examples/basic_example.cpp` is modelled up to the printed numbers (`BxModel.v`); their decimal digits are not.
* Allocation failure of `new`.

## Mutation log (`seeded/LOG.jsonl`)

Each line is one wrong program: a definition of a model file edited in a scratch copy outside this repository.
`theorems_failed` is determined mechanically: the scratch copy is rebuilt, every lemma whose proof no longer
goes through is replaced by an admitted one there, the build is repeated, and `Print Assumptions` lists the
property theorems that fail or rest on an admitted lemma. This over-approximates the statements made false,
since a proof script can fail on a statement that still holds. `KILLED` means at least one property theorem is
affected, `EXONLY` that only an example beside a theorem notices, `SURVIVED` that nothing notices.
`equivalent` marks a control: a rewrite with the same behaviour (`sx_block` reading the reverb of the earlier state),
on which scripts stopped although no statement became false. So a kill is evidence that a theorem depends on the
edited text, and the `claim` says why the behaviour differs; it is not by itself a proof that the statement is false.
`theorems_tightened` names theorems strengthened or added because an earlier run of that mutant survived.
