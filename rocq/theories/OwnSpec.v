(** Bookkeeping for the memory properties: which programs over [FVerb] and [CombC] objects are well behaved and how much they hold,
    read off the calls alone, with no heap in sight. *)
From Coq Require Import NArith Bool List.
From Verif Require Import OwnModel.
Import ListNotations.

(** A reverb: has it been initialised, and the largest block processed while it was. A comb: did its members start as zero, how often was it initialised,
    and the length of the latest line. *)
Inductive status := SVerb (on : bool) (big : N) | SComb (zeroed : bool) (inits : nat) (n : N).
(** [lost]/[lost_n]: blocks and samples that no object holds any more. *)
Record book := Book { b_objs : list (nat * status); b_lost : nat; b_lostn : N }.
Definition blocks (s : status) : nat :=
  match s with
  | SVerb on big => (if on then 1 else 0) + (if (big =? 0)%N then 0 else 6)
  | SComb _ i _ => if Nat.eqb i 0 then 0 else 1
  end.
Definition samples (s : status) : N :=
  match s with SVerb _ big => 4 * big | SComb _ i n => if Nat.eqb i 0 then 0 else n end.
(** Nothing is held, and a plain comb's unset pointer is not looked at. *)
Definition bare (s : status) : bool := match s with SVerb on _ => negb on | SComb z i _ => z && Nat.eqb i 0 end.
Definition entered (b : book) (k : nat) (s : status) : option book :=
  match find (b_objs b) k with Some _ => None | None => Some (Book ((k, s) :: b_objs b) (b_lost b) (b_lostn b)) end.
Definition turned (b : book) (k : nat) (s : status) : book := Book (upd (b_objs b) k s) (b_lost b) (b_lostn b).
Definition losing (b : book) (s : status) : book := Book (b_objs b) (b_lost b + blocks s) (b_lostn b + samples s).
(** The rules: objects are used within their life; the first non-trivial block of a reverb is not empty; a comb is initialised before it is used, and before it is
    destroyed unless its members started as zero; only objects that hold nothing are copied. *)
Definition note (b : book) (x : op) : option book :=
  match x with
  | NewVerb k => entered b k (SVerb false 0)
  | NewComb k z => entered b k (SComb z 0 0)
  | VInit k => match find (b_objs b) k with Some (SVerb _ big) => Some (turned b k (SVerb true big)) | _ => None end
  | VProcess k n =>
      match find (b_objs b) k with
      | Some (SVerb true big) => if (N.max big n =? 0)%N then None else Some (turned b k (SVerb true (N.max big n)))
      | Some (SVerb false _) => Some b
      | _ => None
      end
  | VSet k => match find (b_objs b) k with Some (SVerb _ _) => Some b | _ => None end
  | CInit k n =>
      match find (b_objs b) k with
      | Some (SComb z i old) => Some (turned (losing b (SComb z i old)) k (SComb z (S i) n))
      | _ => None
      end
  | CTick k => match find (b_objs b) k with Some (SComb _ (S _) _) => Some b | _ => None end
  | CReset k => match find (b_objs b) k with Some (SComb z i _) => if z || negb (Nat.eqb i 0) then Some b else None | _ => None end
  | Destroy k =>
      match find (b_objs b) k with
      | Some (SVerb _ _) => Some (Book (del (b_objs b) k) (b_lost b) (b_lostn b))
      | Some (SComb z i _) => if z || negb (Nat.eqb i 0) then Some (Book (del (b_objs b) k) (b_lost b) (b_lostn b)) else None
      | None => None
      end
  | Copy k j => match find (b_objs b) j with Some s => if bare s then entered b k s else None | None => None end
  | Assign k j =>
      match find (b_objs b) k, find (b_objs b) j with
      | Some (SVerb a c), Some (SVerb a' c') => if bare (SVerb a' c') then Some (turned (losing b (SVerb a c)) k (SVerb a' c')) else None
      | Some (SComb z i n), Some (SComb z' i' n') => if bare (SComb z' i' n') then Some (turned (losing b (SComb z i n)) k (SComb z' i' n')) else None
      | _, _ => None
      end
  end.
Fixpoint tally (b : book) (xs : list op) : option book :=
  match xs with [] => Some b | x :: t => match note b x with Some b' => tally b' t | None => None end end.
Definition books (xs : list op) : option book := tally (Book [] 0 0) xs.

(** What is live: blocks, and samples in them. *)
Definition live_blocks (w : world) : nat := length (m_live (w_mem w)).
Definition smp (v : blk) : N := match v with Smp n => n | _ => 0 end.
Definition total (h : heap) : N := fold_right (fun p a => smp (snd p) + a)%N 0%N h.
Definition live_samples (w : world) : N := total (m_live (w_mem w)).
Definition held (l : list (nat * status)) : nat := fold_right (fun p a => blocks (snd p) + a) 0 l.
Definition held_n (l : list (nat * status)) : N := fold_right (fun p a => samples (snd p) + a)%N 0%N l.

(** No copy of any object is made. *)
Definition uncopied (xs : list op) : Prop := Forall (fun x => match x with Copy _ _ | Assign _ _ => False | _ => True end) xs.
(** No object [k] is assigned to. *)
Definition unassigned (k : nat) (xs : list op) : Prop := Forall (fun x => match x with Assign i _ => i <> k | _ => True end) xs.
Definition uninit (k : nat) (xs : list op) : Prop := Forall (fun x => match x with CInit i _ => i <> k | _ => True end) xs.

(** Objects are made once before they are used, used according to their class, and destroyed once. *)
Definition kind_of (l : list (nat * bool)) (k : nat) (v : bool) (r : option (list (nat * bool))) : option (list (nat * bool)) :=
  match find l k with Some u => if Bool.eqb u v then r else None | None => None end.
Definition born (l : list (nat * bool)) (k : nat) (v : bool) : option (list (nat * bool)) :=
  match find l k with Some _ => None | None => Some ((k, v) :: l) end.
Fixpoint lives (l : list (nat * bool)) (xs : list op) : option (list (nat * bool)) :=
  match xs with
  | [] => Some l
  | x :: t =>
      match (match x with
             | NewVerb k => born l k true
             | NewComb k _ => born l k false
             | VInit k | VProcess k _ | VSet k => kind_of l k true (Some l)
             | CInit k _ | CTick k | CReset k => kind_of l k false (Some l)
             | Destroy k => match find l k with Some _ => Some (del l k) | None => None end
             | Copy k j => match find l j with Some v => born l k v | None => None end
             | Assign k j => match find l k with Some v => kind_of l j v (Some l) | None => None end
             end) with
      | Some l' => lives l' t
      | None => None
      end
  end.
