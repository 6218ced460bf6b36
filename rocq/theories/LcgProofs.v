(** The noise generator has period exactly 2^32 from every seed. *)
From Coq Require Import ZArith Lia Znumtheory Zpow_facts.
From Verif Require Import Flt OscModel OscSpec.
Local Open Scope Z_scope.

(** 1 + a + ... + a^(n-1) for a = 1664525. *)
Fixpoint geo (n : nat) : Z := match n with O => 0 | S n => 1 + 1664525 * geo n end.
Fixpoint pw (n : nat) : Z := match n with O => 1 | S n => 1664525 * pw n end.

Lemma geo_pw n : 1664524 * geo n = pw n - 1.
Proof. induction n as [|n IH]; [reflexivity|]. cbn [geo pw]. lia. Qed.
Lemma pw_add n m : pw (n + m) = pw n * pw m.
Proof. induction n as [|n IH]; [cbn [pw plus]; lia|]. cbn [pw plus]. rewrite IH. ring. Qed.
Lemma geo_add n m : geo (n + m) = geo n + pw n * geo m.
Proof. pose proof (geo_pw (n + m)). pose proof (geo_pw n). pose proof (geo_pw m). rewrite pw_add in *. nia. Qed.
Lemma pw_mod4 n : pw n mod 4 = 1.
Proof. induction n as [|n IH]; [reflexivity|]. cbn [pw]. rewrite Z.mul_mod, IH by lia. reflexivity. Qed.

(** 2^k divides geo n exactly when it divides n. *)
Lemma geo_odd n : (Z.of_nat n) mod 2 = geo n mod 2.
Proof. induction n as [|n IH]; [reflexivity|]. cbn [geo]. rewrite Nat2Z.inj_succ. unfold Z.succ.
  rewrite (Z.add_mod (Z.of_nat n)), IH, (Z.add_mod 1), (Z.mul_mod 1664525) by lia.
  change (1664525 mod 2) with 1. rewrite Z.mul_1_l, !Z.mod_mod by lia. rewrite Z.add_comm. reflexivity. Qed.
Lemma geo_divide k : forall n, (2 ^ Z.of_nat k | geo n) <-> (2 ^ Z.of_nat k | Z.of_nat n).
Proof.
  induction k as [|k IH]; intros n; [split; intros; apply Z.divide_1_l|].
  rewrite Nat2Z.inj_succ, Z.pow_succ_r by lia.
  assert (Half : forall z p, z mod 2 = 1 -> (2 * p | z) -> False).
  { intros z p H [q Q]. subst. replace (q * (2 * p)) with ((q * p) * 2) in H by ring. rewrite Z.mod_mul in H; lia. }
  destruct (Nat.Even_or_Odd n) as [[m ->]|[m ->]].
  - replace (2 * m)%nat with (m + m)%nat by lia. rewrite geo_add.
    replace (Z.of_nat (m + m)) with (2 * Z.of_nat m) by lia.
    pose proof (pw_mod4 m) as P. assert (exists r, pw m + 1 = 2 * (2 * r + 1)) as [r R].
    { exists (pw m / 4). pose proof (Z.div_mod (pw m) 4). lia. }
    replace (geo m + pw m * geo m) with (2 * (geo m * (2 * r + 1))) by nia.
    rewrite !Z.mul_divide_cancel_l by lia. rewrite <- IH. split; intros D; [|now apply Z.divide_mul_l].
    apply Gauss with (2 * r + 1); [now rewrite Z.mul_comm|].
    apply rel_prime_sym, rel_prime_Zpower_r; [lia|]. apply rel_prime_sym, prime_rel_prime; [apply prime_2|].
    intros [q Q]. lia.
  - assert (O : Z.of_nat (2 * m + 1) mod 2 = 1).
    { replace (Z.of_nat (2 * m + 1)) with (1 + Z.of_nat m * 2) by lia. rewrite Z.mod_add by lia. reflexivity. }
    split; intros D; exfalso.
    + apply (Half _ _ (eq_trans (eq_sym (geo_odd _)) O) D).
    + apply (Half _ _ O D).
Qed.

Lemma draws_closed n x : 0 <= x < 2 ^ 32 -> draws n x = (pw n * x + geo n * 1013904223) mod 2 ^ 32.
Proof.
  intros H. unfold draws. induction n as [|n IH].
  - cbn [Nat.iter pw geo]. rewrite Z.mul_1_l, Z.mul_0_l, Z.add_0_r. symmetry. now apply Z.mod_small.
  - change (lcg (Nat.iter n lcg x) = (pw (S n) * x + geo (S n) * 1013904223) mod 2 ^ 32). rewrite IH. cbn [pw geo]. unfold lcg.
    rewrite <- Z.add_mod_idemp_l, Z.mul_mod_idemp_l, Z.add_mod_idemp_l by lia. f_equal. ring.
Qed.
Lemma lcg_period n x : 0 <= x < 2 ^ 32 -> (draws n x = x <-> (2 ^ 32 | Z.of_nat n)).
Proof.
  intros H. rewrite draws_closed by exact H. rewrite <- (geo_divide 32 n). change (2 ^ Z.of_nat 32) with (2 ^ 32).
  set (o := 1664524 * x + 1013904223).
  assert (E : pw n * x + geo n * 1013904223 = x + geo n * o).
  { pose proof (geo_pw n). unfold o. nia. }
  rewrite E.
  assert (P : rel_prime (2 ^ 32) o).
  { apply rel_prime_sym, rel_prime_Zpower_r; [lia|]. apply rel_prime_sym, prime_rel_prime; [apply prime_2|].
    intros [q Q]. unfold o in Q. lia. }
  split; intros D.
  - apply Gauss with o; [|exact P]. rewrite Z.mul_comm. apply Z.mod_divide; [lia|].
    assert (X : (x + geo n * o - x) mod 2 ^ 32 = 0).
    { rewrite Zminus_mod, D, Zminus_mod_idemp_r, Z.sub_diag. reflexivity. }
    now replace (x + geo n * o - x) with (geo n * o) in X by ring.
  - destruct D as [q Q]. rewrite Q. replace (x + q * 2 ^ 32 * o) with (x + (q * o) * 2 ^ 32) by ring.
    rewrite Z.mod_add by lia. apply Z.mod_small. exact H.
Qed.
Lemma lcg_range x : 0 <= lcg x < 2 ^ 32.
Proof. apply Z.mod_pos_bound. lia. Qed.
Lemma lcg_inj x y : 0 <= x < 2 ^ 32 -> 0 <= y < 2 ^ 32 -> lcg x = lcg y -> x = y.
Proof.
  intros Hx Hy E. unfold lcg in E.
  assert (D : (2 ^ 32 | 1664525 * (x - y))).
  { apply Z.mod_divide; [lia|].
    replace (1664525 * (x - y)) with ((x * 1664525 + 1013904223) - (y * 1664525 + 1013904223)) by ring.
    rewrite Zminus_mod, E, Z.sub_diag. reflexivity. }
  apply Gauss in D.
  - destruct D as [q Q]. nia.
  - apply rel_prime_sym, rel_prime_Zpower_r; [lia|]. apply rel_prime_sym, prime_rel_prime; [apply prime_2|]. intros [q Q]. lia.
Qed.
Lemma draws_range n x : 0 <= x < 2 ^ 32 -> 0 <= draws n x < 2 ^ 32.
Proof. intros H. destruct n as [|n]; [exact H|]. apply lcg_range. Qed.
Lemma draws_add n m x : draws (n + m) x = draws n (draws m x).
Proof. induction n as [|n IH]; [reflexivity|]. change (lcg (draws (n + m) x) = lcg (draws n (draws m x))). now rewrite IH. Qed.
Lemma draws_inj n : forall x y, 0 <= x < 2 ^ 32 -> 0 <= y < 2 ^ 32 -> draws n x = draws n y -> x = y.
Proof.
  induction n as [|n IH]; intros x y Hx Hy E; [exact E|].
  apply IH; [exact Hx|exact Hy|]. apply lcg_inj; [apply draws_range, Hx|apply draws_range, Hy|exact E].
Qed.
(** Two positions of the sequence hold the same state exactly when they are a multiple of 2^32 apart. *)
Lemma lcg_distinct i j x : 0 <= x < 2 ^ 32 -> (i <= j)%nat -> (draws i x = draws j x <-> (2 ^ 32 | Z.of_nat (j - i))).
Proof.
  intros H L. replace j with (i + (j - i))%nat at 1 by lia. rewrite draws_add. split; intros E.
  - apply (lcg_period _ x H). symmetry. apply (draws_inj i); [exact H|apply draws_range, H|exact E].
  - apply (lcg_period _ x H) in E. now rewrite E.
Qed.

(** Every state is reached: induction on the number of low bits. *)
Definition raw (n : nat) (x : Z) : Z := pw n * x + geo n * 1013904223.
Lemma lcg_reach_bits x y k : exists n, Z.of_nat n < 2 ^ Z.of_nat k /\ (2 ^ Z.of_nat k | raw n x - y).
Proof.
  induction k as [|k (n & Hn & [q Q])].
  - exists O. split; [reflexivity|apply Z.divide_1_l].
  - rewrite Nat2Z.inj_succ, Z.pow_succ_r by lia.
    assert (P2 : 0 < 2 ^ Z.of_nat k) by (apply Z.pow_pos_nonneg; lia).
    destruct (Zeven_odd_dec q) as [E|O].
    { exists n. split; [lia|]. apply Zeven_ex in E. destruct E as [r ->]. exists r. rewrite Q. ring. }
    set (m := Z.to_nat (2 ^ Z.of_nat k)). assert (Hm : Z.of_nat m = 2 ^ Z.of_nat k) by (apply Z2Nat.id; lia).
    exists (n + m)%nat. split; [lia|].
    assert (G1 : (2 ^ Z.of_nat k | geo m)) by (apply geo_divide; rewrite Hm; apply Z.divide_refl).
    assert (G2 : ~ (2 ^ Z.of_nat (S k) | geo m)).
    { rewrite geo_divide, Hm, Nat2Z.inj_succ, Z.pow_succ_r by lia. intros [r R].
      assert (1 = 2 * r) by (apply (Z.mul_reg_r _ _ (2 ^ Z.of_nat k)); lia). lia. }
    destruct G1 as [g G]. assert (GO : Z.odd g = true).
    { destruct (Zeven_odd_dec g) as [E|E]; [|now apply Zodd_bool_iff]. exfalso. apply G2. apply Zeven_ex in E. destruct E as [r ->].
      exists r. rewrite G, Nat2Z.inj_succ, Z.pow_succ_r by lia. ring. }
    assert (PO : Z.odd (pw n) = true).
    { pose proof (pw_mod4 n). pose proof (Z.div_mod (pw n) 4). replace (pw n) with (1 + 2 * (2 * (pw n / 4))) by lia.
      rewrite Z.odd_add, Z.odd_mul. reflexivity. }
    assert (E : raw (n + m) x - y = 2 ^ Z.of_nat k * (q + pw n * g * (1664524 * x + 1013904223))).
    { unfold raw in *. rewrite pw_add, geo_add. pose proof (geo_pw m) as GP.
      replace (pw m) with (1 + 1664524 * geo m) by lia.
      replace (pw n * (1 + 1664524 * geo m) * x + (geo n + pw n * geo m) * 1013904223 - y)
        with ((pw n * x + geo n * 1013904223 - y) + geo m * (pw n * (1664524 * x + 1013904223))) by ring.
      rewrite Q, G. ring. }
    assert (EV : Z.even (q + pw n * g * (1664524 * x + 1013904223)) = true).
    { apply Zodd_bool_iff in O. rewrite Z.even_add, <- !Z.negb_odd, !Z.odd_mul, Z.odd_add, Z.odd_mul, O, GO, PO. reflexivity. }
    apply Zeven_bool_iff, Zeven_ex in EV. destruct EV as [r R]. rewrite R in E. exists r. rewrite E. ring.
Qed.
Lemma lcg_visits x y : 0 <= x < 2 ^ 32 -> 0 <= y < 2 ^ 32 -> exists n, Z.of_nat n < 2 ^ 32 /\ draws n x = y.
Proof.
  intros Hx Hy. destruct (lcg_reach_bits x y 32) as (n & Hn & [q Q]). change (2 ^ Z.of_nat 32) with (2 ^ 32) in *.
  exists n. split; [exact Hn|]. rewrite draws_closed by exact Hx. change (raw n x mod 2 ^ 32 = y).
  replace (raw n x) with (y + q * 2 ^ 32) by lia. rewrite Z.mod_add by lia. now apply Z.mod_small.
Qed.
