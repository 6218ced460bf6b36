(** Silence: samples that are zero, and calls whose samples all are. *)
From Coq Require Import ZArith Bool List.
From Flocq Require Import BinarySingleNaN.
From Verif Require Import Flt Libm Res SmoothModel SmoothSpec LpModel DsModel CombModel StModel KjModel MtModel RkModel ImModel MdModel ObModel PolSpec.
Import ListNotations.

(** Zero of either sign. *)
Definition mute {p e} (x : binary_float p e) : Prop := match x with B754_zero _ => True | _ => False end.
(** Zero or NaN. *)
Definition hush {p e} (x : binary_float p e) : Prop := match x with B754_zero _ | B754_nan => True | _ => False end.
(** The samples of a call are zero (and so are values a smoother is set to); its settings are arbitrary. *)
Definition lg_mute (o : lag_op) : Prop := match o with GTick x | GSet x => mute x | _ => True end.
Definition op_mute (o : opl_op) : Prop := match o with PTick x | PTickMod x _ => mute x | _ => True end.
Definition dc_mute (o : dcb_op) : Prop := match o with BTick x => mute x | BTick2 x y => mute x /\ mute y | _ => True end.
Definition tp_mute (o : tape_op) : Prop := match o with TTick x => mute x | TTick2 x y => mute x /\ mute y | _ => True end.
Definition ll_mute (o : ll_op) : Prop := match o with LTick x | LSet x => mute x | _ => True end.
Definition lp_mute (o : lp_op) : Prop := match o with LpTick x => mute x | _ => True end.
Definition ds_mute (o : ds_op) : Prop := match o with DsWrite x => mute x | _ => True end.
Definition cb_mute (o : cb_op) : Prop := match o with CbTick x => mute x | _ => True end.
Definition st_mute (o : st_op) : Prop := match o with StTick x => mute x | _ => True end.
Definition kj_mute (o : kj_op) : Prop := match o with KjTick x => mute x | _ => True end.
Definition mt_mute (o : mt_op) : Prop := match o with MtTick x => mute x | _ => True end.
Definition rk_mute (o : rk_op) : Prop := match o with RkTick x => mute x | _ => True end.
Definition im_mute (o : im_op) : Prop := match o with ImTick x => mute x | _ => True end.
Definition md_mute (o : md_op) : Prop := match o with MdTick x => mute x | _ => True end.
Definition ob_mute (o : ob_op) : Prop := match o with ObTick x => mute x | _ => True end.
