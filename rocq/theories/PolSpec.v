(** Polarity: what it means that one signal is another one inverted, and the calls with their samples inverted. *)
From Coq Require Import ZArith Bool List Reals.
From Flocq Require Import Core BinarySingleNaN.
From Verif Require Import Flt FltFacts Libm Res SmoothModel SmoothSpec LpModel DsModel CombModel FvModel StModel KjModel MtModel RkModel ImModel MdModel ObModel.
Import ListNotations.

(** Equal, except that +0 and -0 are not told apart (C++ [==], but NaN is the same as NaN). *)
Definition same {p e} (x y : binary_float p e) : Prop :=
  match x, y with B754_zero _, B754_zero _ => True | _, _ => x = y end.
(** [y] is [x] inverted. *)
Definition opp {p e} (x y : binary_float p e) : Prop := same (fneg x) y.
Definition opp2 {p e} (x y : binary_float p e * binary_float p e) : Prop := opp (fst x) (fst y) /\ opp (snd x) (snd y).
(** The same for what a call returns. *)
Definition oopp {p e} (x y : option (binary_float p e)) : Prop :=
  match x, y with Some x, Some y => opp x y | None, None => True | _, _ => False end.
Definition oopp2 {p e} (x y : option (binary_float p e * binary_float p e)) : Prop :=
  match x, y with Some x, Some y => opp2 x y | None, None => True | _, _ => False end.
(** The two calls are undefined together, or return related values. *)
Definition ropp {A} (R : A -> A -> Prop) (x y : res A) : Prop :=
  match x, y with Val a, Val b => R a b | Undef, Undef => True | Spin, Spin => True | _, _ => False end.
(** An odd function, as the hyperbolic tangent is. *)
Definition odd {p e} (f : binary_float p e -> binary_float p e) : Prop := forall x y, opp x y -> opp (f x) (f y).
Definition neg2 {p e} (x : binary_float p e * binary_float p e) : binary_float p e * binary_float p e := (fneg (fst x), fneg (snd x)).

(** A call with its samples inverted; settings stay. *)
Definition lg_flip (o : lag_op) : lag_op := match o with GTick x => GTick (fneg x) | GSet v => GSet (fneg v) | o => o end.
Definition op_flip (o : opl_op) : opl_op := match o with PTick x => PTick (fneg x) | PTickMod x c => PTickMod (fneg x) c | o => o end.
Definition dc_flip (o : dcb_op) : dcb_op := match o with BTick x => BTick (fneg x) | BTick2 l r => BTick2 (fneg l) (fneg r) | o => o end.
Definition tp_flip (o : tape_op) : tape_op := match o with TTick x => TTick (fneg x) | TTick2 l r => TTick2 (fneg l) (fneg r) | o => o end.
Definition lp_flip (o : lp_op) : lp_op := match o with LpTick x => LpTick (fneg x) | o => o end.
Definition ds_flip (o : ds_op) : ds_op := match o with DsWrite x => DsWrite (fneg x) | o => o end.
Definition cb_flip (o : cb_op) : cb_op := match o with CbTick x => CbTick (fneg x) | o => o end.
Definition st_flip (o : st_op) : st_op := match o with StTick x => StTick (fneg x) | o => o end.
Definition kj_flip (o : kj_op) : kj_op := match o with KjTick x => KjTick (fneg x) | o => o end.
Definition mt_flip (o : mt_op) : mt_op := match o with MtTick x => MtTick (fneg x) | o => o end.
Definition rk_flip (o : rk_op) : rk_op := match o with RkTick x => RkTick (fneg x) | o => o end.
Definition im_flip (o : im_op) : im_op := match o with ImTick x => ImTick (fneg x) | o => o end.
Definition md_flip (o : md_op) : md_op := match o with MdTick x => MdTick (fneg x) | o => o end.
Definition ob_flip (o : ob_op) : ob_op := match o with ObTick x => ObTick (fneg x) | o => o end.
Definition fv_flip (o : fvop) : fvop := match o with FvProc xs => FvProc (map neg2 xs) | o => o end.

(** Calls on a LagLinear after [init]. *)
Inductive ll_op := LTick (x : f32) | LTime (t : f32) | LSet (v : f32) | LReset.
Definition ll_call (s : lagl) (o : ll_op) : res (lagl * option f32) :=
  match o with
  | LTick x => p <~ of_opt (ll_tick s x) ;; Val (fst p, Some (snd p))
  | LTime t => p <~ of_opt (ll_setTime s t) ;; Val (p, None)
  | LSet v => Val (ll_setValue s v, None)
  | LReset => Val (ll_reset s, None)
  end.
Definition ll_flip (o : ll_op) : ll_op := match o with LTick x => LTick (fneg x) | LSet v => LSet (fneg v) | o => o end.

(** The outputs of a list of calls that may be undefined. *)
Fixpoint rruns {S O : Type} (call : S -> O -> res (S * option f32)) (s : S) (os : list O) : res (list f32) :=
  match os with
  | [] => Val []
  | o :: os => p <~ call s o ;; ys <~ rruns call (fst p) os ;; Val (match snd p with Some y => y :: ys | None => ys end)
  end.
(** No bias is ever set on the tape. *)
Definition no_bias (o : tape_op) : Prop := match o with TBias b => fin b /\ B2R b = 0%R | _ => True end.
