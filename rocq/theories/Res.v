(** Outcomes of model functions that contain a C++ loop without a static bound. *)
(** [Val]: a value; [Undef]: undefined behaviour; [Spin]: a loop has not ended within the fuel given. *)
Inductive res (A : Type) : Type := Val (a : A) | Undef | Spin.
Arguments Val {A} a. Arguments Undef {A}. Arguments Spin {A}.
Definition rbind {A B} (x : res A) (f : A -> res B) : res B := match x with Val a => f a | Undef => Undef | Spin => Spin end.
Notation "x <~ e ;; f" := (rbind e (fun x => f)) (at level 61, e at next level, right associativity).
Definition of_opt {A} (x : option A) : res A := match x with Some a => Val a | None => Undef end.
