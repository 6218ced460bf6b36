(** ln 2 to seven digits. *)
From Coq Require Import Reals Lra Psatz.
From Verif Require Import ExpBounds.
Local Open Scope R_scope.
Lemma exp_ln2_hi : exp (- 0.6931473) <= 1 / 2.
Proof.
  assert (H0 : exp (- 0.6931473 / 16777216) <= 0.999999958685203113391395).
  { replace (- 0.6931473 / 16777216) with (- (0.6931473 / 16777216)) by lra. rewrite exp_Ropp. pose proof (exp_ineq1_le (0.6931473 / 16777216)).
    apply Rle_trans with (/ (1 + 0.6931473 / 16777216)); [apply Rinv_le_contravar; lra|]. lra. }
  assert (H1 : exp (- 0.6931473 / 8388608) <= 0.999999917370407933695232).
  { apply sq_hi in H0. replace (2 * (- 0.6931473 / 16777216)) with (- 0.6931473 / 8388608) in H0 by lra. lra. }
  clear H0.
  assert (H2 : exp (- 0.6931473 / 4194304) <= 0.999999834740822695039950).
  { apply sq_hi in H1. replace (2 * (- 0.6931473 / 8388608)) with (- 0.6931473 / 4194304) in H1 by lra. lra. }
  clear H1.
  assert (H3 : exp (- 0.6931473 / 2097152) <= 0.999999669481672700675584).
  { apply sq_hi in H2. replace (2 * (- 0.6931473 / 4194304)) with (- 0.6931473 / 2097152) in H2 by lra. lra. }
  clear H2.
  assert (H4 : exp (- 0.6931473 / 1048576) <= 0.999999338963454643715849).
  { apply sq_hi in H3. replace (2 * (- 0.6931473 / 2097152)) with (- 0.6931473 / 1048576) in H3 by lra. lra. }
  clear H3.
  assert (H5 : exp (- 0.6931473 / 524288) <= 0.999998677927346256745995).
  { apply sq_hi in H4. replace (2 * (- 0.6931473 / 1048576)) with (- 0.6931473 / 524288) in H4 by lra. lra. }
  clear H4.
  assert (H6 : exp (- 0.6931473 / 262144) <= 0.999997355856440389593766).
  { apply sq_hi in H5. replace (2 * (- 0.6931473 / 524288)) with (- 0.6931473 / 262144) in H5 by lra. lra. }
  clear H5.
  assert (H7 : exp (- 0.6931473 / 131072) <= 0.999994711719872274351362).
  { apply sq_hi in H6. replace (2 * (- 0.6931473 / 262144)) with (- 0.6931473 / 131072) in H6 by lra. lra. }
  clear H6.
  assert (H8 : exp (- 0.6931473 / 65536) <= 0.999989423467710455412023).
  { apply sq_hi in H7. replace (2 * (- 0.6931473 / 131072)) with (- 0.6931473 / 65536) in H7 by lra. lra. }
  clear H7.
  assert (H9 : exp (- 0.6931473 / 32768) <= 0.999978847047283946095826).
  { apply sq_hi in H8. replace (2 * (- 0.6931473 / 65536)) with (- 0.6931473 / 32768) in H8 by lra. lra. }
  clear H8.
  assert (H10 : exp (- 0.6931473 / 16384) <= 0.999957694542015300799265).
  { apply sq_hi in H9. replace (2 * (- 0.6931473 / 32768)) with (- 0.6931473 / 16384) in H9 by lra. lra. }
  clear H9.
  assert (H11 : exp (- 0.6931473 / 8192) <= 0.999915390873782376893680).
  { apply sq_hi in H10. replace (2 * (- 0.6931473 / 16384)) with (- 0.6931473 / 8192) in H10 by lra. lra. }
  clear H10.
  assert (H12 : exp (- 0.6931473 / 4096) <= 0.999830788906268993097038).
  { apply sq_hi in H11. replace (2 * (- 0.6931473 / 8192)) with (- 0.6931473 / 4096) in H11 by lra. lra. }
  clear H11.
  assert (H13 : exp (- 0.6931473 / 2048) <= 0.999661606444932227837680).
  { apply sq_hi in H12. replace (2 * (- 0.6931473 / 4096)) with (- 0.6931473 / 2048) in H12 by lra. lra. }
  clear H12.
  assert (H14 : exp (- 0.6931473 / 1024) <= 0.999323327400062567080711).
  { apply sq_hi in H13. replace (2 * (- 0.6931473 / 2048)) with (- 0.6931473 / 1024) in H13 by lra. lra. }
  clear H13.
  assert (H15 : exp (- 0.6931473 / 512) <= 0.998647112685932640246564).
  { apply sq_hi in H14. replace (2 * (- 0.6931473 / 1024)) with (- 0.6931473 / 512) in H14 by lra. lra. }
  clear H14.
  assert (H16 : exp (- 0.6931473 / 256) <= 0.997296055675949844888036).
  { apply sq_hi in H15. replace (2 * (- 0.6931473 / 512)) with (- 0.6931473 / 256) in H15 by lra. lra. }
  clear H15.
  assert (H17 : exp (- 0.6931473 / 128) <= 0.994599422666807252826309).
  { apply sq_hi in H16. replace (2 * (- 0.6931473 / 256)) with (- 0.6931473 / 128) in H16 by lra. lra. }
  clear H16.
  assert (H18 : exp (- 0.6931473 / 64) <= 0.989228011569146300937542).
  { apply sq_hi in H17. replace (2 * (- 0.6931473 / 128)) with (- 0.6931473 / 64) in H17 by lra. lra. }
  clear H17.
  assert (H19 : exp (- 0.6931473 / 32) <= 0.978572058873047047812832).
  { apply sq_hi in H18. replace (2 * (- 0.6931473 / 64)) with (- 0.6931473 / 32) in H18 by lra. lra. }
  clear H18.
  assert (H20 : exp (- 0.6931473 / 16) <= 0.957603274407034257380266).
  { apply sq_hi in H19. replace (2 * (- 0.6931473 / 32)) with (- 0.6931473 / 16) in H19 by lra. lra. }
  clear H19.
  assert (H21 : exp (- 0.6931473 / 8) <= 0.917004031155073751160680).
  { apply sq_hi in H20. replace (2 * (- 0.6931473 / 16)) with (- 0.6931473 / 8) in H20 by lra. lra. }
  clear H20.
  assert (H22 : exp (- 0.6931473 / 4) <= 0.840896393154655470857317).
  { apply sq_hi in H21. replace (2 * (- 0.6931473 / 8)) with (- 0.6931473 / 4) in H21 by lra. lra. }
  clear H21.
  assert (H23 : exp (- 0.6931473 / 2) <= 0.707106744020508904227188).
  { apply sq_hi in H22. replace (2 * (- 0.6931473 / 4)) with (- 0.6931473 / 2) in H22 by lra. lra. }
  clear H22.
  assert (H24 : exp (- 0.6931473 / 1) <= 0.499999947439285504982611).
  { apply sq_hi in H23. replace (2 * (- 0.6931473 / 2)) with (- 0.6931473 / 1) in H23 by lra. lra. }
  clear H23.
  replace (- 0.6931473) with (- 0.6931473 / 1) by lra. lra.
Qed.
Lemma exp_ln2_lo : 1 / 2 <= exp (- 0.6931470).
Proof.
  assert (H0 : 0.999999958685219287872314 <= exp (- 0.6931470 / 16777216)) by (pose proof (exp_ineq1_le (- 0.6931470 / 16777216)); lra).
  assert (H1 : 0.999999917370440282655733 <= exp (- 0.6931470 / 8388608)).
  { apply sq_lo in H0; [|lra]. replace (2 * (- 0.6931470 / 16777216)) with (- 0.6931470 / 8388608) in H0 by lra. lra. }
  clear H0.
  assert (H2 : 0.999999834740887392955605 <= exp (- 0.6931470 / 4194304)).
  { apply sq_lo in H1; [|lra]. replace (2 * (- 0.6931470 / 8388608)) with (- 0.6931470 / 4194304) in H1 by lra. lra. }
  clear H1.
  assert (H3 : 0.999999669481802096485509 <= exp (- 0.6931470 / 2097152)).
  { apply sq_lo in H2; [|lra]. replace (2 * (- 0.6931470 / 4194304)) with (- 0.6931470 / 2097152) in H2 by lra. lra. }
  clear H2.
  assert (H4 : 0.999999338963713435250163 <= exp (- 0.6931470 / 1048576)).
  { apply sq_lo in H3; [|lra]. replace (2 * (- 0.6931470 / 2097152)) with (- 0.6931470 / 1048576) in H3 by lra. lra. }
  clear H3.
  assert (H5 : 0.999998677927863839472481 <= exp (- 0.6931470 / 524288)).
  { apply sq_lo in H4; [|lra]. replace (2 * (- 0.6931470 / 1048576)) with (- 0.6931470 / 524288) in H4 by lra. lra. }
  clear H4.
  assert (H6 : 0.999997355857475553678174 <= exp (- 0.6931470 / 262144)).
  { apply sq_lo in H5; [|lra]. replace (2 * (- 0.6931470 / 524288)) with (- 0.6931470 / 262144) in H5 by lra. lra. }
  clear H5.
  assert (H7 : 0.999994711721942597045933 <= exp (- 0.6931470 / 131072)).
  { apply sq_lo in H6; [|lra]. replace (2 * (- 0.6931470 / 262144)) with (- 0.6931470 / 131072) in H6 by lra. lra. }
  clear H6.
  assert (H8 : 0.999989423471851078904275 <= exp (- 0.6931470 / 65536)).
  { apply sq_lo in H7; [|lra]. replace (2 * (- 0.6931470 / 131072)) with (- 0.6931470 / 65536) in H7 by lra. lra. }
  clear H7.
  assert (H9 : 0.999978847055565105493470 <= exp (- 0.6931470 / 32768)).
  { apply sq_lo in H8; [|lra]. replace (2 * (- 0.6931470 / 65536)) with (- 0.6931470 / 32768) in H8 by lra. lra. }
  clear H8.
  assert (H10 : 0.999957694558577269252674 <= exp (- 0.6931470 / 16384)).
  { apply sq_lo in H9; [|lra]. replace (2 * (- 0.6931470 / 32768)) with (- 0.6931470 / 16384) in H9 by lra. lra. }
  clear H9.
  assert (H11 : 0.999915390906904912477450 <= exp (- 0.6931470 / 8192)).
  { apply sq_lo in H10; [|lra]. replace (2 * (- 0.6931470 / 16384)) with (- 0.6931470 / 8192) in H10 by lra. lra. }
  clear H10.
  assert (H12 : 0.999830788972508459328087 <= exp (- 0.6931470 / 4096)).
  { apply sq_lo in H11; [|lra]. replace (2 * (- 0.6931470 / 8192)) with (- 0.6931470 / 4096) in H11 by lra. lra. }
  clear H11.
  assert (H13 : 0.999661606577388743399107 <= exp (- 0.6931470 / 2048)).
  { apply sq_lo in H12; [|lra]. replace (2 * (- 0.6931470 / 4096)) with (- 0.6931470 / 2048) in H12 by lra. lra. }
  clear H12.
  assert (H14 : 0.999323327664885953358724 <= exp (- 0.6931470 / 1024)).
  { apply sq_lo in H13; [|lra]. replace (2 * (- 0.6931470 / 2048)) with (- 0.6931470 / 1024) in H13 by lra. lra. }
  clear H13.
  assert (H15 : 0.998647113215221015414087 <= exp (- 0.6931470 / 512)).
  { apply sq_lo in H14; [|lra]. replace (2 * (- 0.6931470 / 1024)) with (- 0.6931470 / 512) in H14 by lra. lra. }
  clear H14.
  assert (H16 : 0.997296056733094460446733 <= exp (- 0.6931470 / 256)).
  { apply sq_lo in H15; [|lra]. replace (2 * (- 0.6931470 / 512)) with (- 0.6931470 / 256) in H15 by lra. lra. }
  clear H15.
  assert (H17 : 0.994599424775379564695377 <= exp (- 0.6931470 / 128)).
  { apply sq_lo in H16; [|lra]. replace (2 * (- 0.6931470 / 256)) with (- 0.6931470 / 128) in H16 by lra. lra. }
  clear H16.
  assert (H18 : 0.989228015763515913455998 <= exp (- 0.6931470 / 64)).
  { apply sq_lo in H17; [|lra]. replace (2 * (- 0.6931470 / 128)) with (- 0.6931470 / 64) in H17 by lra. lra. }
  clear H17.
  assert (H19 : 0.978572067171422888560933 <= exp (- 0.6931470 / 32)).
  { apply sq_lo in H18; [|lra]. replace (2 * (- 0.6931470 / 64)) with (- 0.6931470 / 32) in H18 by lra. lra. }
  clear H18.
  assert (H20 : 0.957603290648151789809751 <= exp (- 0.6931470 / 16)).
  { apply sq_lo in H19; [|lra]. replace (2 * (- 0.6931470 / 32)) with (- 0.6931470 / 16) in H19 by lra. lra. }
  clear H19.
  assert (H21 : 0.917004062260168673102512 <= exp (- 0.6931470 / 8)).
  { apply sq_lo in H20; [|lra]. replace (2 * (- 0.6931470 / 16)) with (- 0.6931470 / 8) in H20 by lra. lra. }
  clear H20.
  assert (H22 : 0.840896450201651304147995 <= exp (- 0.6931470 / 4)).
  { apply sq_lo in H21; [|lra]. replace (2 * (- 0.6931470 / 8)) with (- 0.6931470 / 4) in H21 by lra. lra. }
  clear H21.
  assert (H23 : 0.707106839961738231632501 <= exp (- 0.6931470 / 2)).
  { apply sq_lo in H22; [|lra]. replace (2 * (- 0.6931470 / 4)) with (- 0.6931470 / 2) in H22 by lra. lra. }
  clear H22.
  assert (H24 : 0.500000083120675283755155 <= exp (- 0.6931470 / 1)).
  { apply sq_lo in H23; [|lra]. replace (2 * (- 0.6931470 / 2)) with (- 0.6931470 / 1) in H23 by lra. lra. }
  clear H23.
  replace (- 0.6931470) with (- 0.6931470 / 1) by lra. lra.
Qed.
Lemma ln_2 : 0.6931470 <= ln 2 <= 0.6931473.
Proof.
  assert (E : exp (- ln 2) = 1 / 2) by (rewrite exp_Ropp, exp_ln; lra).
  pose proof exp_ln2_hi as H. pose proof exp_ln2_lo as L. rewrite <- E in H, L.
  split.
  - destruct (Rle_lt_dec 0.6931470 (ln 2)) as [A|A]; [exact A|]. assert (exp (- 0.6931470) < exp (- ln 2)) by (apply exp_increasing; lra). lra.
  - destruct (Rle_lt_dec (ln 2) 0.6931473) as [A|A]; [exact A|]. assert (exp (- ln 2) < exp (- 0.6931473)) by (apply exp_increasing; lra). lra.
Qed.
(** 1 + x against e^x on the range of a semitone. *)
Lemma exp_lin x : Rabs x <= 0.058 -> 1 + x <= exp x /\ (1 - 0.0021) * exp x <= 1 + x.
Proof.
  intros B. assert (B' : -0.058 <= x <= 0.058) by (unfold Rabs in B; destruct (Rcase_abs x); lra).
  split; [apply exp_ineq1_le|].
  pose proof (exp_ineq1_le (- x / 8)) as H0. set (a := 1 + - x / 8) in *. assert (A0 : 0.99 <= a) by (unfold a; lra).
  assert (H1 : a * a <= exp (- x / 4)) by (apply sq_lo in H0; [|lra]; replace (2 * (- x / 8)) with (- x / 4) in H0 by lra; exact H0).
  assert (H2 : (a * a) * (a * a) <= exp (- x / 2)) by (apply sq_lo in H1; [|nra]; replace (2 * (- x / 4)) with (- x / 2) in H1 by lra; exact H1).
  assert (Q : 1 - x / 2 + 0.093 * (x * x) <= (a * a) * (a * a)).
  { assert (P : (a * a) * (a * a) - (1 - x / 2 + 0.093 * (x * x)) = (x * x) * (3 / 32 - 0.093 - x / 128 + x * x / 4096)) by (unfold a; field).
    assert (0 <= (x * x) * (3 / 32 - 0.093 - x / 128 + x * x / 4096)); [|lra]. apply Rmult_le_pos; nra. }
  assert (Q0 : 0.9 <= 1 - x / 2 + 0.093 * (x * x)) by nra.
  assert (H3 : 1 - x / 2 + 0.093 * (x * x) <= exp (- x / 2)) by lra.
  apply sq_lo in H3; [|lra]. replace (2 * (- x / 2)) with (- x) in H3 by lra.
  assert (Q2 : 1 - x + 0.43 * (x * x) <= exp (- x)).
  { assert (P : (1 - x / 2 + 0.093 * (x * x)) * (1 - x / 2 + 0.093 * (x * x)) - (1 - x + 0.43 * (x * x)) = (x * x) * (0.006 - 0.093 * x + 0.008649 * (x * x))) by lra.
    assert (0 <= (x * x) * (0.006 - 0.093 * x + 0.008649 * (x * x))); [|lra]. apply Rmult_le_pos; nra. }
  assert (Q3 : 1 - 0.0021 <= (1 + x) * exp (- x)).
  { apply Rle_trans with ((1 + x) * (1 - x + 0.43 * (x * x))); [|apply Rmult_le_compat_l; lra].
    assert (x * x <= 0.003364) by nra. assert (P : (1 + x) * (1 - x + 0.43 * (x * x)) = 1 - (x * x) * (0.57 - 0.43 * x)) by lra. rewrite P.
    assert ((x * x) * (0.57 - 0.43 * x) <= 0.003364 * (0.57 + 0.43 * 0.058)); [|lra]. apply Rmult_le_compat; nra. }
  apply Rmult_le_compat_r with (r := exp x) in Q3; [|apply Rlt_le, exp_pos].
  rewrite Rmult_assoc, <- exp_plus in Q3. replace (- x + x) with 0 in Q3 by ring. rewrite exp_0 in Q3. lra.
Qed.
