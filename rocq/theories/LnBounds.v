(** ln 1000 to six digits. *)
From Coq Require Import Reals Lra Psatz.
From Verif Require Import ExpBounds.
Local Open Scope R_scope.
Lemma exp_1000_hi : exp (- 6.907756) <= 1 / 1000.
Proof.
  assert (H0 : exp (- 6.907756 / 134217728) <= 0.999999948533209826946473).
  { replace (- 6.907756 / 134217728) with (- (6.907756 / 134217728)) by lra. rewrite exp_Ropp. pose proof (exp_ineq1_le (6.907756 / 134217728)).
    apply Rle_trans with (/ (1 + 6.907756 / 134217728)); [apply Rinv_le_contravar; lra|]. lra. }
  assert (H1 : exp (- 6.907756 / 67108864) <= 0.999999897066422302723438).
  { apply sq_hi in H0. replace (2 * (- 6.907756 / 134217728)) with (- 6.907756 / 67108864) in H0 by lra. lra. }
  clear H0.
  assert (H2 : exp (- 6.907756 / 33554432) <= 0.999999794132855200768295).
  { apply sq_hi in H1. replace (2 * (- 6.907756 / 67108864)) with (- 6.907756 / 33554432) in H1 by lra. lra. }
  clear H1.
  assert (H3 : exp (- 6.907756 / 16777216) <= 0.999999588265752782817899).
  { apply sq_hi in H2. replace (2 * (- 6.907756 / 33554432)) with (- 6.907756 / 16777216) in H2 by lra. lra. }
  clear H2.
  assert (H4 : exp (- 6.907756 / 8388608) <= 0.999999176531675090726131).
  { apply sq_hi in H3. replace (2 * (- 6.907756 / 16777216)) with (- 6.907756 / 8388608) in H3 by lra. lra. }
  clear H3.
  assert (H5 : exp (- 6.907756 / 4194304) <= 0.999998353064028281534392).
  { apply sq_hi in H4. replace (2 * (- 6.907756 / 8388608)) with (- 6.907756 / 4194304) in H4 by lra. lra. }
  clear H4.
  assert (H6 : exp (- 6.907756 / 2097152) <= 0.999996706130768961163726).
  { apply sq_hi in H5. replace (2 * (- 6.907756 / 4194304)) with (- 6.907756 / 2097152) in H5 by lra. lra. }
  clear H5.
  assert (H7 : exp (- 6.907756 / 1048576) <= 0.999993412272387496838638).
  { apply sq_hi in H6. replace (2 * (- 6.907756 / 2097152)) with (- 6.907756 / 1048576) in H6 by lra. lra. }
  clear H6.
  assert (H8 : exp (- 6.907756 / 524288) <= 0.999986824588173148773814).
  { apply sq_hi in H7. replace (2 * (- 6.907756 / 1048576)) with (- 6.907756 / 524288) in H7 by lra. lra. }
  clear H7.
  assert (H9 : exp (- 6.907756 / 262144) <= 0.999973649349937774354761).
  { apply sq_hi in H8. replace (2 * (- 6.907756 / 524288)) with (- 6.907756 / 262144) in H8 by lra. lra. }
  clear H8.
  assert (H10 : exp (- 6.907756 / 131072) <= 0.999947299394232307411396).
  { apply sq_hi in H9. replace (2 * (- 6.907756 / 262144)) with (- 6.907756 / 131072) in H9 by lra. lra. }
  clear H9.
  assert (H11 : exp (- 6.907756 / 65536) <= 0.999894601565818463104547).
  { apply sq_hi in H10. replace (2 * (- 6.907756 / 131072)) with (- 6.907756 / 65536) in H10 by lra. lra. }
  clear H10.
  assert (H12 : exp (- 6.907756 / 32768) <= 0.999789214240466854128861).
  { apply sq_hi in H11. replace (2 * (- 6.907756 / 65536)) with (- 6.907756 / 32768) in H11 by lra. lra. }
  clear H11.
  assert (H13 : exp (- 6.907756 / 16384) <= 0.999578472911570130222919).
  { apply sq_hi in H12. replace (2 * (- 6.907756 / 32768)) with (- 6.907756 / 16384) in H12 by lra. lra. }
  clear H12.
  assert (H14 : exp (- 6.907756 / 8192) <= 0.999157123508226540609094).
  { apply sq_hi in H13. replace (2 * (- 6.907756 / 16384)) with (- 6.907756 / 8192) in H13 by lra. lra. }
  clear H13.
  assert (H15 : exp (- 6.907756 / 4096) <= 0.998314957457233465552746).
  { apply sq_hi in H14. replace (2 * (- 6.907756 / 8192)) with (- 6.907756 / 4096) in H14 by lra. lra. }
  clear H14.
  assert (H16 : exp (- 6.907756 / 2048) <= 0.996632754282837864213565).
  { apply sq_hi in H15. replace (2 * (- 6.907756 / 4096)) with (- 6.907756 / 2048) in H15 by lra. lra. }
  clear H15.
  assert (H17 : exp (- 6.907756 / 1024) <= 0.993276846909395475173285).
  { apply sq_hi in H16. replace (2 * (- 6.907756 / 2048)) with (- 6.907756 / 1024) in H16 by lra. lra. }
  clear H16.
  assert (H18 : exp (- 6.907756 / 512) <= 0.986598894606270655520585).
  { apply sq_hi in H17. replace (2 * (- 6.907756 / 1024)) with (- 6.907756 / 512) in H17 by lra. lra. }
  clear H17.
  assert (H19 : exp (- 6.907756 / 256) <= 0.973377378838315152770094).
  { apply sq_hi in H18. replace (2 * (- 6.907756 / 512)) with (- 6.907756 / 256) in H18 by lra. lra. }
  clear H18.
  assert (H20 : exp (- 6.907756 / 128) <= 0.947463521634148895384821).
  { apply sq_hi in H19. replace (2 * (- 6.907756 / 256)) with (- 6.907756 / 128) in H19 by lra. lra. }
  clear H19.
  assert (H21 : exp (- 6.907756 / 64) <= 0.897687124827383331921273).
  { apply sq_hi in H20. replace (2 * (- 6.907756 / 128)) with (- 6.907756 / 64) in H20 by lra. lra. }
  clear H20.
  assert (H22 : exp (- 6.907756 / 32) <= 0.805842174080854104040455).
  { apply sq_hi in H21. replace (2 * (- 6.907756 / 64)) with (- 6.907756 / 32) in H21 by lra. lra. }
  clear H21.
  assert (H23 : exp (- 6.907756 / 16) <= 0.649381609527357569960104).
  { apply sq_hi in H22. replace (2 * (- 6.907756 / 32)) with (- 6.907756 / 16) in H22 by lra. lra. }
  clear H22.
  assert (H24 : exp (- 6.907756 / 8) <= 0.421696474792341495876152).
  { apply sq_hi in H23. replace (2 * (- 6.907756 / 16)) with (- 6.907756 / 8) in H23 by lra. lra. }
  clear H23.
  assert (H25 : exp (- 6.907756 / 4) <= 0.177827916852287906657524).
  { apply sq_hi in H24. replace (2 * (- 6.907756 / 8)) with (- 6.907756 / 4) in H24 by lra. lra. }
  clear H24.
  assert (H26 : exp (- 6.907756 / 2) <= 0.031622768012024221272216).
  { apply sq_hi in H25. replace (2 * (- 6.907756 / 4)) with (- 6.907756 / 2) in H25 by lra. lra. }
  clear H25.
  assert (H27 : exp (- 6.907756 / 1) <= 0.000999999456742302319490).
  { apply sq_hi in H26. replace (2 * (- 6.907756 / 2)) with (- 6.907756 / 1) in H26 by lra. lra. }
  clear H26.
  replace (- 6.907756) with (- 6.907756 / 1) by lra. lra.
Qed.
Lemma exp_1000_lo : 1 / 1000 <= exp (- 6.907755).
Proof.
  assert (H0 : 0.999999948533214628696440 <= exp (- 6.907755 / 134217728)) by (pose proof (exp_ineq1_le (- 6.907755 / 134217728)); lra).
  assert (H1 : 0.999999897066431906222875 <= exp (- 6.907755 / 67108864)).
  { apply sq_lo in H0; [|lra]. replace (2 * (- 6.907755 / 134217728)) with (- 6.907755 / 67108864) in H0 by lra. lra. }
  clear H0.
  assert (H2 : 0.999999794132874407765189 <= exp (- 6.907755 / 33554432)).
  { apply sq_lo in H1; [|lra]. replace (2 * (- 6.907755 / 67108864)) with (- 6.907755 / 33554432) in H1 by lra. lra. }
  clear H1.
  assert (H3 : 0.999999588265791196803776 <= exp (- 6.907755 / 16777216)).
  { apply sq_lo in H2; [|lra]. replace (2 * (- 6.907755 / 33554432)) with (- 6.907755 / 16777216) in H2 by lra. lra. }
  clear H2.
  assert (H4 : 0.999999176531751918666249 <= exp (- 6.907755 / 8388608)).
  { apply sq_lo in H3; [|lra]. replace (2 * (- 6.907755 / 16777216)) with (- 6.907755 / 8388608) in H3 by lra. lra. }
  clear H3.
  assert (H5 : 0.999998353064181937288095 <= exp (- 6.907755 / 4194304)).
  { apply sq_lo in H4; [|lra]. replace (2 * (- 6.907755 / 8388608)) with (- 6.907755 / 4194304) in H4 by lra. lra. }
  clear H4.
  assert (H6 : 0.999996706131076272165006 <= exp (- 6.907755 / 2097152)).
  { apply sq_lo in H5; [|lra]. replace (2 * (- 6.907755 / 4194304)) with (- 6.907755 / 2097152) in H5 by lra. lra. }
  clear H5.
  assert (H7 : 0.999993412273002116816710 <= exp (- 6.907755 / 1048576)).
  { apply sq_lo in H6; [|lra]. replace (2 * (- 6.907755 / 2097152)) with (- 6.907755 / 1048576) in H6 by lra. lra. }
  clear H6.
  assert (H8 : 0.999986824589402380632057 <= exp (- 6.907755 / 524288)).
  { apply sq_lo in H7; [|lra]. replace (2 * (- 6.907755 / 1048576)) with (- 6.907755 / 524288) in H7 by lra. lra. }
  clear H7.
  assert (H9 : 0.999973649352396205679973 <= exp (- 6.907755 / 262144)).
  { apply sq_lo in H8; [|lra]. replace (2 * (- 6.907755 / 524288)) with (- 6.907755 / 262144) in H8 by lra. lra. }
  clear H8.
  assert (H10 : 0.999947299399149040499296 <= exp (- 6.907755 / 131072)).
  { apply sq_lo in H9; [|lra]. replace (2 * (- 6.907755 / 262144)) with (- 6.907755 / 131072) in H9 by lra. lra. }
  clear H9.
  assert (H11 : 0.999894601575651411050744 <= exp (- 6.907755 / 65536)).
  { apply sq_lo in H10; [|lra]. replace (2 * (- 6.907755 / 131072)) with (- 6.907755 / 65536) in H10 by lra. lra. }
  clear H10.
  assert (H12 : 0.999789214260130677266714 <= exp (- 6.907755 / 32768)).
  { apply sq_lo in H11; [|lra]. replace (2 * (- 6.907755 / 65536)) with (- 6.907755 / 32768) in H11 by lra. lra. }
  clear H11.
  assert (H13 : 0.999578472950889486791218 <= exp (- 6.907755 / 16384)).
  { apply sq_lo in H12; [|lra]. replace (2 * (- 6.907755 / 32768)) with (- 6.907755 / 16384) in H12 by lra. lra. }
  clear H12.
  assert (H14 : 0.999157123586832105399449 <= exp (- 6.907755 / 8192)).
  { apply sq_lo in H13; [|lra]. replace (2 * (- 6.907755 / 16384)) with (- 6.907755 / 8192) in H13 by lra. lra. }
  clear H13.
  assert (H15 : 0.998314957614312085574263 <= exp (- 6.907755 / 4096)).
  { apply sq_lo in H14; [|lra]. replace (2 * (- 6.907755 / 8192)) with (- 6.907755 / 4096) in H14 by lra. lra. }
  clear H14.
  assert (H16 : 0.996632754596465735966679 <= exp (- 6.907755 / 2048)).
  { apply sq_lo in H15; [|lra]. replace (2 * (- 6.907755 / 4096)) with (- 6.907755 / 2048) in H15 by lra. lra. }
  clear H15.
  assert (H17 : 0.993276847534539094561986 <= exp (- 6.907755 / 1024)).
  { apply sq_lo in H16; [|lra]. replace (2 * (- 6.907755 / 2048)) with (- 6.907755 / 1024) in H16 by lra. lra. }
  clear H16.
  assert (H18 : 0.986598895848152022175259 <= exp (- 6.907755 / 512)).
  { apply sq_lo in H17; [|lra]. replace (2 * (- 6.907755 / 1024)) with (- 6.907755 / 512) in H17 by lra. lra. }
  clear H17.
  assert (H19 : 0.973377381288792721459612 <= exp (- 6.907755 / 256)).
  { apply sq_lo in H18; [|lra]. replace (2 * (- 6.907755 / 512)) with (- 6.907755 / 256) in H18 by lra. lra. }
  clear H18.
  assert (H20 : 0.947463526404627766815839 <= exp (- 6.907755 / 128)).
  { apply sq_lo in H19; [|lra]. replace (2 * (- 6.907755 / 256)) with (- 6.907755 / 128) in H19 by lra. lra. }
  clear H19.
  assert (H21 : 0.897687133867092777493403 <= exp (- 6.907755 / 64)).
  { apply sq_lo in H20; [|lra]. replace (2 * (- 6.907755 / 128)) with (- 6.907755 / 64) in H20 by lra. lra. }
  clear H20.
  assert (H22 : 0.805842190310515748697968 <= exp (- 6.907755 / 32)).
  { apply sq_lo in H21; [|lra]. replace (2 * (- 6.907755 / 64)) with (- 6.907755 / 32) in H21 by lra. lra. }
  clear H21.
  assert (H23 : 0.649381635684449482016939 <= exp (- 6.907755 / 16)).
  { apply sq_lo in H22; [|lra]. replace (2 * (- 6.907755 / 32)) with (- 6.907755 / 16) in H22 by lra. lra. }
  clear H22.
  assert (H24 : 0.421696508764211072882595 <= exp (- 6.907755 / 8)).
  { apply sq_lo in H23; [|lra]. replace (2 * (- 6.907755 / 16)) with (- 6.907755 / 8) in H23 by lra. lra. }
  clear H23.
  assert (H25 : 0.177827945503924346203065 <= exp (- 6.907755 / 4)).
  { apply sq_lo in H24; [|lra]. replace (2 * (- 6.907755 / 8)) with (- 6.907755 / 4) in H24 by lra. lra. }
  clear H24.
  assert (H26 : 0.031622778202146687095457 <= exp (- 6.907755 / 2)).
  { apply sq_lo in H25; [|lra]. replace (2 * (- 6.907755 / 4)) with (- 6.907755 / 2) in H25 by lra. lra. }
  clear H25.
  assert (H27 : 0.001000000101222163659772 <= exp (- 6.907755 / 1)).
  { apply sq_lo in H26; [|lra]. replace (2 * (- 6.907755 / 2)) with (- 6.907755 / 1) in H26 by lra. lra. }
  clear H26.
  replace (- 6.907755) with (- 6.907755 / 1) by lra. lra.
Qed.
Lemma ln_1000 : 6.907755 <= ln 1000 <= 6.907756.
Proof.
  assert (E : exp (- ln 1000) = 1 / 1000) by (rewrite exp_Ropp, exp_ln; lra).
  pose proof exp_1000_hi as H. pose proof exp_1000_lo as L. rewrite <- E in H, L.
  split.
  - destruct (Rle_lt_dec 6.907755 (ln 1000)) as [A|A]; [exact A|]. assert (exp (- 6.907755) < exp (- ln 1000)) by (apply exp_increasing; lra). lra.
  - destruct (Rle_lt_dec (ln 1000) 6.907756) as [A|A]; [exact A|]. assert (exp (- ln 1000) < exp (- 6.907756)) by (apply exp_increasing; lra). lra.
Qed.
