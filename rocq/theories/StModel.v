(** Model of ugens/StilsonMoogLadder.h. *)
From Coq Require Import ZArith Bool List.
From Flocq Require Import BinarySingleNaN.
From Verif Require Import Flt Libm Res UtilModel MgModel.
Import ListNotations.
Local Open Scope flt_scope.

(** StilsonMoogLadder.h:162-183 [S_GAINTABLE], in millionths; each entry is the float literal of that value. *)
Definition st_millionths : list Z :=
  [999969; 990082; 980347; 970764; 961304; 951996; 942810; 933777; 924866; 916077;
   907410; 898865; 890442; 882141; 873962; 865906; 857941; 850067; 842346; 834686;
   827148; 819733; 812378; 805145; 798004; 790955; 783997; 777130; 770355; 763672;
   757080; 750580; 744141; 737793; 731537; 725342; 719238; 713196; 707245; 701355;
   695557; 689819; 684174; 678558; 673035; 667572; 662170; 656860; 651581; 646393;
   641235; 636169; 631134; 626190; 621277; 616425; 611633; 606903; 602234; 597626;
   593048; 588531; 584045; 579651; 575287; 570953; 566681; 562469; 558289; 554169;
   550079; 546051; 542053; 538116; 534210; 530334; 526520; 522736; 518982; 515289;
   511627; 507996; 504425; 500885; 497375; 493896; 490448; 487061; 483704; 480377;
   477081; 473816; 470581; 467377; 464203; 461090; 457977; 454926; 451874; 448883;
   445892; 442932; 440033; 437134; 434265; 431427; 428619; 425842; 423096; 420380;
   417664; 415009; 412354; 409729; 407135; 404572; 402008; 399506; 397003; 394501;
   392059; 389618; 387207; 384827; 382477; 380127; 377808; 375488; 373230; 370972;
   368713; 366516; 364319; 362122; 359985; 357849; 355713; 353607; 351532; 349457;
   347412; 345398; 343384; 341370; 339417; 337463; 335510; 333588; 331665; 329773;
   327911; 326050; 324188; 322357; 320557; 318756; 316986; 315216; 313446; 311707;
   309998; 308289; 306580; 304901; 303223; 301575; 299927; 298309; 296692; 295074;
   293488; 291931; 290375; 288818; 287262; 285736; 284241; 282715; 281250; 279755;
   278290; 276825; 275391; 273956; 272552; 271118; 269745; 268341; 266968; 265594;
   264252; 262909; 261566; 260223; 258911; 257599; 256317; 255035; 253750]%Z.
Definition st_table : list f32 := map (fun n => fdec n 1000000) st_millionths.
(** A read of the table; [Undef] outside it. *)
Definition st_read (i : Z) : res f32 :=
  if (0 <=? i)%Z then match nth_error st_table (Z.to_nat i) with Some v => Val v | None => Undef end else Undef.
(** StilsonMoogLadder.h:43-50, 157-160 data members. *)
Record st := St { st_sr : f32; st_cut : f32; st_res : f32; st_p : f64; st_Q : f64;
  st_s0 : f64; st_s1 : f64; st_s2 : f64; st_s3 : f64; st_out : f64 }.
(** StilsonMoogLadder.h:74-79. *)
Definition st_pole (sr cut : f32) : f64 :=
  let fc := f2d cut / f2d sr in
  let x2 := fc * fc in
  let x3 := fc * fc * fc in
  - ddec 69346 100000 * x3 - ddec 59515 100000 * x2 + ddec 32937 10000 * fc - ddec 10072 10000.
(** Range of [int]. *)
Definition st_int (x : f64) : res Z := match ftoZ (- 2 ^ 31) (2 ^ 31 - 1) x with Some n => Val n | None => Undef end.
(** StilsonMoogLadder.h:92-106: the feedback gain; converting an out-of-range or NaN index to [int] is undefined. *)
Definition st_gain (r : f32) (p : f64) : res f64 :=
  let ix := p * dz 99 in
  n <~ st_int (ffloor ix) ;;
  let ixfrac := ix - fofZ n in
  let n := if (n <? -99)%Z then (-99)%Z else n in
  let n := if (98 <? n)%Z then 98%Z else n in
  a <~ st_read (n + 99) ;;
  b <~ st_read (n + 100) ;;
  Val (f2d (r * lerp a b (d2f ixfrac))).
(** StilsonMoogLadder.h:88-107 [setResonance]. *)
Definition st_setResonance (s : st) (r : f32) : res st :=
  let r := unit_clamp r in
  q <~ st_gain r (st_p s) ;;
  Val (St (st_sr s) (st_cut s) r (st_p s) q (st_s0 s) (st_s1 s) (st_s2 s) (st_s3 s) (st_out s)).
(** StilsonMoogLadder.h:70-82 [setCutoff]. *)
Definition st_setCutoff (s : st) (c : f32) : res st :=
  st_setResonance (St (st_sr s) c (st_res s) (st_pole (st_sr s) c) (st_Q s) (st_s0 s) (st_s1 s) (st_s2 s) (st_s3 s) (st_out s)) (st_res s).
(** StilsonMoogLadder.h:56-64 [init]; line 62 reads the member [resonance] before anything is stored in it, [r0] is the value it happens to hold. *)
Definition st_init (r0 : f32) (sr : f32) : res st :=
  s <~ st_setCutoff (St sr fzero r0 fzero fzero fzero fzero fzero fzero fzero) (fofZ 1000) ;;
  st_setResonance s (fdec 1 10).
(** StilsonMoogLadder.h:185-189 [saturate]. *)
Definition st_sat (x : f64) : f64 := ddec 1 2 * (fabs (x + ddec 95 100) - fabs (x - ddec 95 100)).
(** StilsonMoogLadder.h:191-193 [snapToZero]. *)
Definition st_snap (x : f64) : f64 := if negb ((x <? - ddec 1 (10 ^ 8)) || (x >? ddec 1 (10 ^ 8))) then fzero else x.
(** StilsonMoogLadder.h:124-127 one pole: the new memory and the output. *)
Definition st_stage (p o l : f64) : f64 * f64 := let m := st_sat (o + p * (o - l)) in (m, st_sat (m + l)).
(** StilsonMoogLadder.h:114-135 [tick]. *)
Definition st_tick (s : st) (input : f32) : st * f32 :=
  let x := f2d input * ddec 65 100 in
  let o := ddec 1 4 * (x - st_out s) in
  let (m0, o) := st_stage (st_p s) o (st_s0 s) in
  let (m1, o) := st_stage (st_p s) o (st_s1 s) in
  let (m2, o) := st_stage (st_p s) o (st_s2 s) in
  let (m3, o) := st_stage (st_p s) o (st_s3 s) in
  let o := st_snap o in
  (St (st_sr s) (st_cut s) (st_res s) (st_p s) (st_Q s) m0 m1 m2 m3 (o * st_Q s), d2f o).
(** StilsonMoogLadder.h:151-154 [reset]. *)
Definition st_reset (s : st) : st := St (st_sr s) (st_cut s) (st_res s) (st_p s) (st_Q s) fzero fzero fzero fzero fzero.

(** Calls after [init]; a tick yields its output. *)
Inductive st_op := StCut (c : f32) | StRes (r : f32) | StTick (x : f32) | StReset.
Definition st_call (s : st) (o : st_op) : res (st * option f32) :=
  match o with
  | StCut c => s' <~ st_setCutoff s c ;; Val (s', None)
  | StRes r => s' <~ st_setResonance s r ;; Val (s', None)
  | StTick x => let (s', y) := st_tick s x in Val (s', Some y)
  | StReset => Val (st_reset s, None)
  end.
