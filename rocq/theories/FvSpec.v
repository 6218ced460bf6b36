(** What FVerb is meant to be: a stereo network of ideal delay lines.
    A delay line is the list of all samples ever written to it, newest first; before the first sample it holds zeros.
    Control values (smoothed parameters, the modulator's phase and crossfades) come from the model's functions; the network
    itself is stated here without arrays, indices or masks. *)
From Coq Require Import ZArith Bool List Reals.
From Flocq Require Import BinarySingleNaN.
From Verif Require Import Flt Libm UtilModel FvModel.
Import ListNotations.
Local Open Scope flt_scope.

Definition line := list f32.
(** The sample written [n] samples before the newest. *)
Definition ago (n : Z) (l : line) : f32 := nth (Z.to_nat n) l zero.

(** The rate the network works at: the given one, limited to 1..192000. *)
Definition rate (sr : Z) : f32 := fofZ (Z.max 1 (Z.min 192000 sr)).
(** Whole frames in [c] seconds. *)
Definition span (fs c : f32) : Z := Btrunc (c * fs).
(** The same as the length of a feedback loop: at least one frame. *)
Definition loop (fs c : f32) : Z := Z.max 1 (span fs c).

(** Lengths of the delays of one side: predelay-independent diffusers, tank delays. *)
Record lens := Lens { l1 : Z; l2 : Z; l3 : Z; l4 : Z; l7 : Z; l8 : Z }.
Definition lensR (fs : f32) : lens :=
  Lens (loop fs (flit 4969497 (-30) (* 0.0046282047 *))) (loop fs (flit 3976247 (-30) (* 0.0037031686 *))) (loop fs (flit 7042045 (-29) (* 0.013116831 *)))
    (loop fs (flit 9694019 (-30) (* 0.009028259 *))) (span fs (flit 9509025 (-26) (* 0.14169551 *))) (loop fs (flit 11978169 (-27) (* 0.08924431 *))).
Definition lensL (fs : f32) : lens :=
  Lens (loop fs (flit 10553777 (-31) (* 0.0049144854 *))) (loop fs (flit 3744621 (-30) (* 0.00348745 *))) (loop fs (flit 13263657 (-30) (* 0.012352743 *)))
    (loop fs (flit 10293649 (-30) (* 0.009586708 *))) (span fs (flit 10041187 (-26) (* 0.14962535 *))) (loop fs (flit 8117735 (-27) (* 0.06048184 *))).

(** One side: input lines, tank lines and the two one-pole filters. *)
Record side := Side { n_pre : line; n_lp : f32; n_hp : f32; n_1 : line; n_2 : line; n_3 : line; n_4 : line;
                      n_5 : line; n_z : f32; n_7 : line; n_d : f32; n_8 : line; n_out : line; n_damp : line; n_diff : line }.
Definition side0 : side := Side [] zero zero [] [] [] [] [] zero [] zero [] [] [] [].

(** Schroeder allpass [v = u - g w], [y = g v + w] with [w] the [v] of [D] frames ago. *)
Definition diffuse (g : f32) (D : Z) (l : line) (u : f32) : line * f32 :=
  let w := ago (D - 1) l in
  let v := u - g * w in (v :: l, g * v + w).
(** The last one of the chain hands [w] and [g v] on separately. *)
Definition diffuse2 (g : f32) (D : Z) (l : line) (u : f32) : line * f32 * f32 :=
  let w := ago (D - 1) l in
  let v := u - g * w in (v :: l, w, g * v).

(** One frame of one side; [pre]: predelay in frames, [m]: crossfade between the delays [x_a] and [x_b] of the modulated line,
    [cross]: what comes from the other side, [damped r z t]: the damped signal [z] times the decay [r] and [t]. *)
Definition side_step (p : fvpar) (damped : f32 -> f32 -> f32 -> f32) (D : lens) (pre : Z) (m : fvmod) (x cross : f32)
    (s : side) : side :=
  let pl := (x * p27 p) :: n_pre s in
  let lp := ago pre pl + p25 p * n_lp s in
  let hp := lp * (one - p25 p) + p24 p * n_hp s in
  let u := half * (p24 p + one) * (hp - n_hp s) in
  let '(a1, y1) := diffuse (p20 p) (l1 D) (n_1 s) u in
  let '(a2, y2) := diffuse (p20 p) (l2 D) (n_2 s) y1 in
  let '(a3, y3) := diffuse (p15 p) (l3 D) (n_3 s) y2 in
  let '(a4, w4, g4) := diffuse2 (p15 p) (l4 D) (n_4 s) y3 in
  let v := w4 + p29 p * cross + g4 + p12 p * n_z s in
  let a5 := v :: n_5 s in
  let far := ago (lim (x_b m)) a5 in
  let near := ago (lim (x_a m)) a5 in
  let z := near + x_mix m * (far - near) in
  let t := - (p12 p * v) + n_z s in
  let a7 := t :: n_7 s in
  let d := ago (l7 D) a7 + p8 p * n_d s in
  let g := fminf half (fmaxf (fdec 1 4) (p29 p + fdec 3 20)) in
  let w := ago (l8 D - 1) (n_8 s) in
  let v8 := g * w + damped (p29 p) d (one - p8 p) in
  Side pl lp hp a1 a2 a3 a4 a5 z a7 d (v8 :: n_8 s) ((- (g * v8) + w) :: n_out s) ((d * (one - p8 p)) :: n_damp s) (t :: n_diff s).

(** Both sides and the output taps. *)
Record net := Net { nR : side; nL : side }.
Definition net0 : net := Net side0 side0.
Definition net_step (fs : f32) (p : fvpar) (pre : Z) (mR mL : fvmod) (xl xr : f32) (n : net) : net * f32 * f32 :=
  let R := side_step p fv_dampR (lensR fs) pre mR xr (ago (span fs (flit 1783083 (-24) (* 0.10628003 *))) (n_out (nL n))) (nR n) in
  let L := side_step p fv_dampL (lensL fs) pre mL xl (ago (span fs (flit 4194163 (-25) (* 0.1249958 *)) + 1) (n_out R)) (nL n) in
  let t c := span fs c in
  (Net R L,
   fdec 3 5 * (ago (t (flit 9596967 (-30) (* 0.008937872 *))) (n_diff R) + ago (t (flit 6706151 (-26) (* 0.09992944 *))) (n_diff R) + ago (t (flit 4500833 (-26) (* 0.06706764 *))) (n_out R)
     - (ago (t (flit 2156837 (-25) (* 0.06427875 *))) (n_damp R) + ago (t (flit 8974607 (-27) (* 0.06686603 *))) (n_diff L) + ago (t (flit 13493479 (-31) (* 0.006283391 *))) (n_damp L) + ago (t (flit 4807503 (-27) (* 0.03581869 *))) (n_out L))),
   fdec 3 5 * (ago (t (flit 795989 (-26) (* 0.01186116 *))) (n_diff L) + ago (t (flit 4089309 (-25) (* 0.121870905 *))) (n_diff L) + ago (t (flit 3013709 (-25) (* 0.08981553 *))) (n_out L)
     - (ago (t (flit 5538099 (-27) (* 0.041262053 *))) (n_damp L) + ago (t (flit 9520299 (-27) (* 0.070931755 *))) (n_diff R) + ago (t (flit 12086405 (-30) (* 0.011256342 *))) (n_damp R) + ago (t (flit 8731075 (-31) (* 0.0040657236 *))) (n_out R)))).

(** Control of one frame: smoothed parameters, modulator phase, crossfades, and the predelay; [None]: a conversion to [int] out of range. *)
Record ctl := Ctl { t_par : fvpar; t_ph : f32; t_R : fvmod; t_L : fvmod }.
Definition ctl0 : ctl := Ctl fv_par0 zero fv_mod0 fv_mod0.
Definition ctl_step (L : libm) (k : fvk) (w : fvpar) (c : ctl) : option (ctl * Z) :=
  let p := fv_smooth k w (t_par c) in
  n <- to_int (k0 k * p28 p) ;;
  ph <- fv_phase k p (t_ph c) ;;
  dR <- fv_dR L k p ph ;;
  dL <- fv_dL L k p ph ;;
  Some (Ctl p ph (fv_modstep k dR (t_R c)) (fv_modstep k dL (t_L c)), Z.min 65536 (Z.max 0 n)).

(** The ideal reverb: [sr] of the last [init], sliders, control and network. *)
Record ideal := Ideal { e_sr : Z; e_k : fvk; e_sl : fvsl; e_c : ctl; e_n : net }.
Fixpoint ideal_frames (L : libm) (w : fvpar) (s : ideal) (xs : list (f32 * f32)) : option (ideal * list (f32 * f32)) :=
  match xs with
  | [] => Some (s, [])
  | (xl, xr) :: t =>
      r <- ctl_step L (e_k s) w (e_c s) ;;
      let '(c, pre) := r in
      let '(n, o0, o1) := net_step (rate (e_sr s)) (t_par c) pre (t_R c) (t_L c) xl xr (e_n s) in
      q <- ideal_frames L w (Ideal (e_sr s) (e_k s) (e_sl s) c n) t ;;
      let '(s', os) := q in Some (s', (o0, o1) :: os)
  end.
Definition ideal_op (L : libm) (o : fvop) (e : option ideal) : option (option ideal * list (f32 * f32)) :=
  match o with
  | FvInit sr =>
      n <- to_int sr ;;
      k <- fv_consts n ;;
      Some (Some (Ideal n k (FvSl (fofZ 5500) (fofZ 80) (fofZ 75) (fofZ 70) (fofZ 100) (fofZ 10000) (fofZ 100) (fofZ 150) (fofZ 82) one half)
        ctl0 net0), [])
  | FvSet p x => Some (match e with None => None | Some s => Some (Ideal (e_sr s) (e_k s) (fv_setp p (fv_clamp p x) (e_sl s)) (e_c s) (e_n s)) end, [])
  | FvReset => Some (match e with None => None | Some s => Some (Ideal (e_sr s) (e_k s) (e_sl s) ctl0 net0) end, [])
  | FvProc xs =>
      match e with
      | None => Some (None, xs)
      | Some s => r <- ideal_frames L (fv_slow L (e_k s) (e_sl s)) s xs ;; let '(s', ys) := r in Some (Some s', ys)
      end
  end.
Fixpoint ideal_run (L : libm) (h : list fvop) (e : option ideal) : option (option ideal * list (f32 * f32)) :=
  match h with
  | [] => Some (e, [])
  | o :: t => r <- ideal_op L o e ;; let '(g, a) := r in q <- ideal_run L t g ;; let '(g', b) := q in Some (g', a ++ b)
  end.

(** ** Histories *)
(** Fewer than 2^31 frames from every [init] or [reset] to the next ([on]: initialised, [n]: frames so far). *)
Fixpoint lasts (on : bool) (n : Z) (h : list fvop) : Prop :=
  match h with
  | [] => True
  | FvInit _ :: t => lasts true 0 t
  | FvReset :: t => lasts on 0 t
  | FvSet _ _ :: t => lasts on n t
  | FvProc xs :: t => if on then (n + Z.of_nat (length xs) < 2 ^ 31)%Z /\ lasts on (n + Z.of_nat (length xs)) t else lasts on n t
  end.
(** No empty block before the first non-empty one of an initialised reverb ([buf]: there has been one). *)
Fixpoint opens (on buf : bool) (h : list fvop) : Prop :=
  match h with
  | [] => True
  | FvInit _ :: t => opens true buf t
  | FvReset :: t | FvSet _ _ :: t => opens on buf t
  | FvProc xs :: t =>
      if on then (buf = true \/ xs <> []) /\ opens on true t else opens on buf t
  end.
