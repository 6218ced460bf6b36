(** Numerical bounds on exp used for the envelope times. *)
From Coq Require Import Reals Lra Psatz.
From Verif Require Import ExpBounds.
Local Open Scope R_scope.
Lemma exp_m904 : 0.000111 <= exp (- (9.04)).
Proof.
  assert (H0 : 0.999448242187500 <= exp (- 9.04 / 16384)) by (pose proof (exp_ineq1_le (- 9.04 / 16384)); lra).
  assert (H1 : 0.998896788811683 <= exp (- 9.04 / 8192)).
  { apply sq_lo in H0; [|lra]. replace (2 * (- 9.04 / 16384)) with (- 9.04 / 8192) in H0 by lra. lra. }
  assert (H2 : 0.997794794698292 <= exp (- 9.04 / 4096)).
  { apply sq_lo in H1; [|lra]. replace (2 * (- 9.04 / 8192)) with (- 9.04 / 4096) in H1 by lra. lra. }
  assert (H3 : 0.995594452327006 <= exp (- 9.04 / 2048)).
  { apply sq_lo in H2; [|lra]. replace (2 * (- 9.04 / 4096)) with (- 9.04 / 2048) in H2 by lra. lra. }
  assert (H4 : 0.991208313504311 <= exp (- 9.04 / 1024)).
  { apply sq_lo in H3; [|lra]. replace (2 * (- 9.04 / 2048)) with (- 9.04 / 1024) in H3 by lra. lra. }
  assert (H5 : 0.982493920760060 <= exp (- 9.04 / 512)).
  { apply sq_lo in H4; [|lra]. replace (2 * (- 9.04 / 1024)) with (- 9.04 / 512) in H4 by lra. lra. }
  assert (H6 : 0.965294304330475 <= exp (- 9.04 / 256)).
  { apply sq_lo in H5; [|lra]. replace (2 * (- 9.04 / 512)) with (- 9.04 / 256) in H5 by lra. lra. }
  assert (H7 : 0.931793093972855 <= exp (- 9.04 / 128)).
  { apply sq_lo in H6; [|lra]. replace (2 * (- 9.04 / 256)) with (- 9.04 / 128) in H6 by lra. lra. }
  assert (H8 : 0.868238369975505 <= exp (- 9.04 / 64)).
  { apply sq_lo in H7; [|lra]. replace (2 * (- 9.04 / 128)) with (- 9.04 / 64) in H7 by lra. lra. }
  assert (H9 : 0.753837867097721 <= exp (- 9.04 / 32)).
  { apply sq_lo in H8; [|lra]. replace (2 * (- 9.04 / 64)) with (- 9.04 / 32) in H8 by lra. lra. }
  assert (H10 : 0.568271529870441 <= exp (- 9.04 / 16)).
  { apply sq_lo in H9; [|lra]. replace (2 * (- 9.04 / 32)) with (- 9.04 / 16) in H9 by lra. lra. }
  assert (H11 : 0.322932531661291 <= exp (- 9.04 / 8)).
  { apply sq_lo in H10; [|lra]. replace (2 * (- 9.04 / 16)) with (- 9.04 / 8) in H10 by lra. lra. }
  assert (H12 : 0.104285420005170 <= exp (- 9.04 / 4)).
  { apply sq_lo in H11; [|lra]. replace (2 * (- 9.04 / 8)) with (- 9.04 / 4) in H11 by lra. lra. }
  assert (H13 : 0.010875448825654 <= exp (- 9.04 / 2)).
  { apply sq_lo in H12; [|lra]. replace (2 * (- 9.04 / 4)) with (- 9.04 / 2) in H12 by lra. lra. }
  assert (H14 : 0.000118275387159 <= exp (- 9.04 / 1)).
  { apply sq_lo in H13; [|lra]. replace (2 * (- 9.04 / 2)) with (- 9.04 / 1) in H13 by lra. lra. }
  replace (- (9.04)) with (- 9.04 / 1) by lra. lra.
Qed.
Lemma exp_m935 : exp (- (9.35)) <= 0.0000899.
Proof.
  assert (H0 : exp (- 9.35 / 16384) <= 0.999429646777505).
  { replace (- 9.35 / 16384) with (- (9.35 / 16384)) by lra. rewrite exp_Ropp. pose proof (exp_ineq1_le (9.35 / 16384)).
    apply Rle_trans with (/ (1 + 9.35 / 16384)); [apply Rinv_le_contravar; lra|]. lra. }
  assert (H1 : exp (- 9.35 / 8192) <= 0.998859618857809).
  { apply sq_hi in H0. replace (2 * (- 9.35 / 16384)) with (- 9.35 / 8192) in H0 by lra. lra. }
  assert (H2 : exp (- 9.35 / 4096) <= 0.997720538184768).
  { apply sq_hi in H1. replace (2 * (- 9.35 / 8192)) with (- 9.35 / 4096) in H1 by lra. lra. }
  assert (H3 : exp (- 9.35 / 2048) <= 0.995446272315704).
  { apply sq_hi in H2. replace (2 * (- 9.35 / 4096)) with (- 9.35 / 2048) in H2 by lra. lra. }
  assert (H4 : exp (- 9.35 / 1024) <= 0.990913281067231).
  { apply sq_hi in H3. replace (2 * (- 9.35 / 2048)) with (- 9.35 / 1024) in H3 by lra. lra. }
  assert (H5 : exp (- 9.35 / 512) <= 0.981909130595426).
  { apply sq_hi in H4. replace (2 * (- 9.35 / 1024)) with (- 9.35 / 512) in H4 by lra. lra. }
  assert (H6 : exp (- 9.35 / 256) <= 0.964145540746666).
  { apply sq_hi in H5. replace (2 * (- 9.35 / 512)) with (- 9.35 / 256) in H5 by lra. lra. }
  assert (H7 : exp (- 9.35 / 128) <= 0.929576623741681).
  { apply sq_hi in H6. replace (2 * (- 9.35 / 256)) with (- 9.35 / 128) in H6 by lra. lra. }
  assert (H8 : exp (- 9.35 / 64) <= 0.864112699406983).
  { apply sq_hi in H7. replace (2 * (- 9.35 / 128)) with (- 9.35 / 64) in H7 by lra. lra. }
  assert (H9 : exp (- 9.35 / 32) <= 0.746690757276423).
  { apply sq_hi in H8. replace (2 * (- 9.35 / 64)) with (- 9.35 / 32) in H8 by lra. lra. }
  assert (H10 : exp (- 9.35 / 16) <= 0.557547087002039).
  { apply sq_hi in H9. replace (2 * (- 9.35 / 32)) with (- 9.35 / 16) in H9 by lra. lra. }
  assert (H11 : exp (- 9.35 / 8) <= 0.310858754224460).
  { apply sq_hi in H10. replace (2 * (- 9.35 / 16)) with (- 9.35 / 8) in H10 by lra. lra. }
  assert (H12 : exp (- 9.35 / 4) <= 0.096633165077984).
  { apply sq_hi in H11. replace (2 * (- 9.35 / 8)) with (- 9.35 / 4) in H11 by lra. lra. }
  assert (H13 : exp (- 9.35 / 2) <= 0.009337968592989).
  { apply sq_hi in H12. replace (2 * (- 9.35 / 4)) with (- 9.35 / 2) in H12 by lra. lra. }
  assert (H14 : exp (- 9.35 / 1) <= 0.000087197657444).
  { apply sq_hi in H13. replace (2 * (- 9.35 / 2)) with (- 9.35 / 1) in H13 by lra. lra. }
  replace (- (9.35)) with (- 9.35 / 1) by lra. lra.
Qed.
Lemma exp_m1016 : 0.36 <= exp (- (1.016)).
Proof.
  assert (H0 : 0.999937988281250 <= exp (- 1.016 / 16384)) by (pose proof (exp_ineq1_le (- 1.016 / 16384)); lra).
  assert (H1 : 0.999875980407953 <= exp (- 1.016 / 8192)).
  { apply sq_lo in H0; [|lra]. replace (2 * (- 1.016 / 16384)) with (- 1.016 / 8192) in H0 by lra. lra. }
  assert (H2 : 0.999751976196765 <= exp (- 1.016 / 4096)).
  { apply sq_lo in H1; [|lra]. replace (2 * (- 1.016 / 8192)) with (- 1.016 / 4096) in H1 by lra. lra. }
  assert (H3 : 0.999504013909336 <= exp (- 1.016 / 2048)).
  { apply sq_lo in H2; [|lra]. replace (2 * (- 1.016 / 4096)) with (- 1.016 / 2048) in H2 by lra. lra. }
  assert (H4 : 0.999008273820874 <= exp (- 1.016 / 1024)).
  { apply sq_lo in H3; [|lra]. replace (2 * (- 1.016 / 2048)) with (- 1.016 / 1024) in H3 by lra. lra. }
  assert (H5 : 0.998017531162562 <= exp (- 1.016 / 512)).
  { apply sq_lo in H4; [|lra]. replace (2 * (- 1.016 / 1024)) with (- 1.016 / 512) in H4 by lra. lra. }
  assert (H6 : 0.996038992507815 <= exp (- 1.016 / 256)).
  { apply sq_lo in H5; [|lra]. replace (2 * (- 1.016 / 512)) with (- 1.016 / 256) in H5 by lra. lra. }
  assert (H7 : 0.992093674595983 <= exp (- 1.016 / 128)).
  { apply sq_lo in H6; [|lra]. replace (2 * (- 1.016 / 256)) with (- 1.016 / 128) in H6 by lra. lra. }
  assert (H8 : 0.984249859173360 <= exp (- 1.016 / 64)).
  { apply sq_lo in H7; [|lra]. replace (2 * (- 1.016 / 128)) with (- 1.016 / 64) in H7 by lra. lra. }
  assert (H9 : 0.968747785282778 <= exp (- 1.016 / 32)).
  { apply sq_lo in H8; [|lra]. replace (2 * (- 1.016 / 64)) with (- 1.016 / 32) in H8 by lra. lra. }
  assert (H10 : 0.938472271490287 <= exp (- 1.016 / 16)).
  { apply sq_lo in H9; [|lra]. replace (2 * (- 1.016 / 32)) with (- 1.016 / 16) in H9 by lra. lra. }
  assert (H11 : 0.880730204356138 <= exp (- 1.016 / 8)).
  { apply sq_lo in H10; [|lra]. replace (2 * (- 1.016 / 16)) with (- 1.016 / 8) in H10 by lra. lra. }
  assert (H12 : 0.775685692865204 <= exp (- 1.016 / 4)).
  { apply sq_lo in H11; [|lra]. replace (2 * (- 1.016 / 8)) with (- 1.016 / 4) in H11 by lra. lra. }
  assert (H13 : 0.601688294115771 <= exp (- 1.016 / 2)).
  { apply sq_lo in H12; [|lra]. replace (2 * (- 1.016 / 4)) with (- 1.016 / 2) in H12 by lra. lra. }
  assert (H14 : 0.362028803275946 <= exp (- 1.016 / 1)).
  { apply sq_lo in H13; [|lra]. replace (2 * (- 1.016 / 2)) with (- 1.016 / 1) in H13 by lra. lra. }
  replace (- (1.016)) with (- 1.016 / 1) by lra. lra.
Qed.
Lemma exp_m1 : 0.3675 <= exp (- (1.0)).
Proof.
  assert (H0 : 0.999938964843750 <= exp (- 1.0 / 16384)) by (pose proof (exp_ineq1_le (- 1.0 / 16384)); lra).
  assert (H1 : 0.999877933412790 <= exp (- 1.0 / 8192)).
  { apply sq_lo in H0; [|lra]. replace (2 * (- 1.0 / 16384)) with (- 1.0 / 8192) in H0 by lra. lra. }
  assert (H2 : 0.999755881725831 <= exp (- 1.0 / 4096)).
  { apply sq_lo in H1; [|lra]. replace (2 * (- 1.0 / 8192)) with (- 1.0 / 4096) in H1 by lra. lra. }
  assert (H3 : 0.999511823045393 <= exp (- 1.0 / 2048)).
  { apply sq_lo in H2; [|lra]. replace (2 * (- 1.0 / 4096)) with (- 1.0 / 2048) in H2 by lra. lra. }
  assert (H4 : 0.999023884407525 <= exp (- 1.0 / 1024)).
  { apply sq_lo in H3; [|lra]. replace (2 * (- 1.0 / 2048)) with (- 1.0 / 1024) in H3 by lra. lra. }
  assert (H5 : 0.998048721616699 <= exp (- 1.0 / 512)).
  { apply sq_lo in H4; [|lra]. replace (2 * (- 1.0 / 1024)) with (- 1.0 / 512) in H4 by lra. lra. }
  assert (H6 : 0.996101250720727 <= exp (- 1.0 / 256)).
  { apply sq_lo in H5; [|lra]. replace (2 * (- 1.0 / 512)) with (- 1.0 / 256) in H5 by lra. lra. }
  assert (H7 : 0.992217701687396 <= exp (- 1.0 / 128)).
  { apply sq_lo in H6; [|lra]. replace (2 * (- 1.0 / 256)) with (- 1.0 / 128) in H6 by lra. lra. }
  assert (H8 : 0.984495967541818 <= exp (- 1.0 / 64)).
  { apply sq_lo in H7; [|lra]. replace (2 * (- 1.0 / 128)) with (- 1.0 / 64) in H7 by lra. lra. }
  assert (H9 : 0.969232310106100 <= exp (- 1.0 / 32)).
  { apply sq_lo in H8; [|lra]. replace (2 * (- 1.0 / 64)) with (- 1.0 / 32) in H8 by lra. lra. }
  assert (H10 : 0.939411270953607 <= exp (- 1.0 / 16)).
  { apply sq_lo in H9; [|lra]. replace (2 * (- 1.0 / 32)) with (- 1.0 / 16) in H9 by lra. lra. }
  assert (H11 : 0.882493535994671 <= exp (- 1.0 / 8)).
  { apply sq_lo in H10; [|lra]. replace (2 * (- 1.0 / 16)) with (- 1.0 / 8) in H10 by lra. lra. }
  assert (H12 : 0.778794841072377 <= exp (- 1.0 / 4)).
  { apply sq_lo in H11; [|lra]. replace (2 * (- 1.0 / 8)) with (- 1.0 / 4) in H11 by lra. lra. }
  assert (H13 : 0.606521404480948 <= exp (- 1.0 / 2)).
  { apply sq_lo in H12; [|lra]. replace (2 * (- 1.0 / 4)) with (- 1.0 / 2) in H12 by lra. lra. }
  assert (H14 : 0.367868214093541 <= exp (- 1.0 / 1)).
  { apply sq_lo in H13; [|lra]. replace (2 * (- 1.0 / 2)) with (- 1.0 / 1) in H13 by lra. lra. }
  replace (- (1.0)) with (- 1.0 / 1) by lra. lra.
Qed.
Lemma exp_m64 : 0.00165 <= exp (- (6.4)).
Proof.
  assert (H0 : 0.999609375000000 <= exp (- 6.4 / 16384)) by (pose proof (exp_ineq1_le (- 6.4 / 16384)); lra).
  assert (H1 : 0.999218902587890 <= exp (- 6.4 / 8192)).
  { apply sq_lo in H0; [|lra]. replace (2 * (- 6.4 / 16384)) with (- 6.4 / 8192) in H0 by lra. lra. }
  assert (H2 : 0.998438415288947 <= exp (- 6.4 / 4096)).
  { apply sq_lo in H1; [|lra]. replace (2 * (- 6.4 / 8192)) with (- 6.4 / 4096) in H1 by lra. lra. }
  assert (H3 : 0.996879269124703 <= exp (- 6.4 / 2048)).
  { apply sq_lo in H2; [|lra]. replace (2 * (- 6.4 / 4096)) with (- 6.4 / 2048) in H2 by lra. lra. }
  assert (H4 : 0.993768277210602 <= exp (- 6.4 / 1024)).
  { apply sq_lo in H3; [|lra]. replace (2 * (- 6.4 / 2048)) with (- 6.4 / 1024) in H3 by lra. lra. }
  assert (H5 : 0.987575388790127 <= exp (- 6.4 / 512)).
  { apply sq_lo in H4; [|lra]. replace (2 * (- 6.4 / 1024)) with (- 6.4 / 512) in H4 by lra. lra. }
  assert (H6 : 0.975305148543970 <= exp (- 6.4 / 256)).
  { apply sq_lo in H5; [|lra]. replace (2 * (- 6.4 / 512)) with (- 6.4 / 256) in H5 by lra. lra. }
  assert (H7 : 0.951220132776375 <= exp (- 6.4 / 128)).
  { apply sq_lo in H6; [|lra]. replace (2 * (- 6.4 / 256)) with (- 6.4 / 128) in H6 by lra. lra. }
  assert (H8 : 0.904819740999104 <= exp (- 6.4 / 64)).
  { apply sq_lo in H7; [|lra]. replace (2 * (- 6.4 / 128)) with (- 6.4 / 64) in H7 by lra. lra. }
  assert (H9 : 0.818698763701685 <= exp (- 6.4 / 32)).
  { apply sq_lo in H8; [|lra]. replace (2 * (- 6.4 / 64)) with (- 6.4 / 32) in H8 by lra. lra. }
  assert (H10 : 0.670267665686667 <= exp (- 6.4 / 16)).
  { apply sq_lo in H9; [|lra]. replace (2 * (- 6.4 / 32)) with (- 6.4 / 16) in H9 by lra. lra. }
  assert (H11 : 0.449258743665053 <= exp (- 6.4 / 8)).
  { apply sq_lo in H10; [|lra]. replace (2 * (- 6.4 / 16)) with (- 6.4 / 8) in H10 by lra. lra. }
  assert (H12 : 0.201833418759501 <= exp (- 6.4 / 4)).
  { apply sq_lo in H11; [|lra]. replace (2 * (- 6.4 / 8)) with (- 6.4 / 4) in H11 by lra. lra. }
  assert (H13 : 0.040736728928148 <= exp (- 6.4 / 2)).
  { apply sq_lo in H12; [|lra]. replace (2 * (- 6.4 / 4)) with (- 6.4 / 2) in H12 by lra. lra. }
  assert (H14 : 0.001659481083765 <= exp (- 6.4 / 1)).
  { apply sq_lo in H13; [|lra]. replace (2 * (- 6.4 / 2)) with (- 6.4 / 1) in H13 by lra. lra. }
  replace (- (6.4)) with (- 6.4 / 1) by lra. lra.
Qed.
Lemma exp_m77 : exp (- (7.7)) <= 0.000456.
Proof.
  assert (H0 : exp (- 7.7 / 16384) <= 0.999530250065582).
  { replace (- 7.7 / 16384) with (- (7.7 / 16384)) by lra. rewrite exp_Ropp. pose proof (exp_ineq1_le (7.7 / 16384)).
    apply Rle_trans with (/ (1 + 7.7 / 16384)); [apply Rinv_le_contravar; lra|]. lra. }
  assert (H1 : exp (- 7.7 / 8192) <= 0.999060720796165).
  { apply sq_hi in H0. replace (2 * (- 7.7 / 16384)) with (- 7.7 / 8192) in H0 by lra. lra. }
  assert (H2 : exp (- 7.7 / 4096) <= 0.998122323837753).
  { apply sq_hi in H1. replace (2 * (- 7.7 / 8192)) with (- 7.7 / 4096) in H1 by lra. lra. }
  assert (H3 : exp (- 7.7 / 2048) <= 0.996248173343277).
  { apply sq_hi in H2. replace (2 * (- 7.7 / 4096)) with (- 7.7 / 2048) in H2 by lra. lra. }
  assert (H4 : exp (- 7.7 / 1024) <= 0.992510422889817).
  { apply sq_hi in H3. replace (2 * (- 7.7 / 2048)) with (- 7.7 / 1024) in H3 by lra. lra. }
  assert (H5 : exp (- 7.7 / 512) <= 0.985076939544924).
  { apply sq_hi in H4. replace (2 * (- 7.7 / 1024)) with (- 7.7 / 512) in H4 by lra. lra. }
  assert (H6 : exp (- 7.7 / 256) <= 0.970376576823194).
  { apply sq_hi in H5. replace (2 * (- 7.7 / 512)) with (- 7.7 / 256) in H5 by lra. lra. }
  assert (H7 : exp (- 7.7 / 128) <= 0.941630700847101).
  { apply sq_hi in H6. replace (2 * (- 7.7 / 256)) with (- 7.7 / 128) in H6 by lra. lra. }
  assert (H8 : exp (- 7.7 / 64) <= 0.886668376777803).
  { apply sq_hi in H7. replace (2 * (- 7.7 / 128)) with (- 7.7 / 64) in H7 by lra. lra. }
  assert (H9 : exp (- 7.7 / 32) <= 0.786180810377785).
  { apply sq_hi in H8. replace (2 * (- 7.7 / 64)) with (- 7.7 / 32) in H8 by lra. lra. }
  assert (H10 : exp (- 7.7 / 16) <= 0.618080266606271).
  { apply sq_hi in H9. replace (2 * (- 7.7 / 32)) with (- 7.7 / 16) in H9 by lra. lra. }
  assert (H11 : exp (- 7.7 / 8) <= 0.382023215968080).
  { apply sq_hi in H10. replace (2 * (- 7.7 / 16)) with (- 7.7 / 8) in H10 by lra. lra. }
  assert (H12 : exp (- 7.7 / 4) <= 0.145941737538595).
  { apply sq_hi in H11. replace (2 * (- 7.7 / 8)) with (- 7.7 / 4) in H11 by lra. lra. }
  assert (H13 : exp (- 7.7 / 2) <= 0.021298990755785).
  { apply sq_hi in H12. replace (2 * (- 7.7 / 4)) with (- 7.7 / 2) in H12 by lra. lra. }
  assert (H14 : exp (- 7.7 / 1) <= 0.000453647007216).
  { apply sq_hi in H13. replace (2 * (- 7.7 / 2)) with (- 7.7 / 1) in H13 by lra. lra. }
  replace (- (7.7)) with (- 7.7 / 1) by lra. lra.
Qed.
Lemma exp_m78 : exp (- (7.8)) <= 0.000411.
Proof.
  assert (H0 : exp (- 7.8 / 16384) <= 0.999524152320063).
  { replace (- 7.8 / 16384) with (- (7.8 / 16384)) by lra. rewrite exp_Ropp. pose proof (exp_ineq1_le (7.8 / 16384)).
    apply Rle_trans with (/ (1 + 7.8 / 16384)); [apply Rinv_le_contravar; lra|]. lra. }
  assert (H1 : exp (- 7.8 / 8192) <= 0.999048531071141).
  { apply sq_hi in H0. replace (2 * (- 7.8 / 16384)) with (- 7.8 / 8192) in H0 by lra. lra. }
  assert (H2 : exp (- 7.8 / 4096) <= 0.998097967435405).
  { apply sq_hi in H1. replace (2 * (- 7.8 / 8192)) with (- 7.8 / 4096) in H1 by lra. lra. }
  assert (H3 : exp (- 7.8 / 2048) <= 0.996199552598687).
  { apply sq_hi in H2. replace (2 * (- 7.8 / 4096)) with (- 7.8 / 2048) in H2 by lra. lra. }
  assert (H4 : exp (- 7.8 / 1024) <= 0.992413548597825).
  { apply sq_hi in H3. replace (2 * (- 7.8 / 2048)) with (- 7.8 / 1024) in H3 by lra. lra. }
  assert (H5 : exp (- 7.8 / 512) <= 0.984884651440528).
  { apply sq_hi in H4. replace (2 * (- 7.8 / 1024)) with (- 7.8 / 512) in H4 by lra. lra. }
  assert (H6 : exp (- 7.8 / 256) <= 0.969997776643131).
  { apply sq_hi in H5. replace (2 * (- 7.8 / 512)) with (- 7.8 / 256) in H5 by lra. lra. }
  assert (H7 : exp (- 7.8 / 128) <= 0.940895686692618).
  { apply sq_hi in H6. replace (2 * (- 7.8 / 256)) with (- 7.8 / 128) in H6 by lra. lra. }
  assert (H8 : exp (- 7.8 / 64) <= 0.885284693236774).
  { apply sq_hi in H7. replace (2 * (- 7.8 / 128)) with (- 7.8 / 64) in H7 by lra. lra. }
  assert (H9 : exp (- 7.8 / 32) <= 0.783728988079330).
  { apply sq_hi in H8. replace (2 * (- 7.8 / 64)) with (- 7.8 / 32) in H8 by lra. lra. }
  assert (H10 : exp (- 7.8 / 16) <= 0.614231126755851).
  { apply sq_hi in H9. replace (2 * (- 7.8 / 32)) with (- 7.8 / 16) in H9 by lra. lra. }
  assert (H11 : exp (- 7.8 / 8) <= 0.377279877075763).
  { apply sq_hi in H10. replace (2 * (- 7.8 / 16)) with (- 7.8 / 8) in H10 by lra. lra. }
  assert (H12 : exp (- 7.8 / 4) <= 0.142340105646303).
  { apply sq_hi in H11. replace (2 * (- 7.8 / 8)) with (- 7.8 / 4) in H11 by lra. lra. }
  assert (H13 : exp (- 7.8 / 2) <= 0.020260705675401).
  { apply sq_hi in H12. replace (2 * (- 7.8 / 4)) with (- 7.8 / 2) in H12 by lra. lra. }
  assert (H14 : exp (- 7.8 / 1) <= 0.000410496194466).
  { apply sq_hi in H13. replace (2 * (- 7.8 / 2)) with (- 7.8 / 1) in H13 by lra. lra. }
  replace (- (7.8)) with (- 7.8 / 1) by lra. lra.
Qed.
Lemma exp_m52 : 0.0055 <= exp (- (5.2)).
Proof.
  assert (H0 : 0.999682617187500 <= exp (- 5.2 / 16384)) by (pose proof (exp_ineq1_le (- 5.2 / 16384)); lra).
  assert (H1 : 0.999365335106849 <= exp (- 5.2 / 8192)).
  { apply sq_lo in H0; [|lra]. replace (2 * (- 5.2 / 16384)) with (- 5.2 / 8192) in H0 by lra. lra. }
  assert (H2 : 0.998731073013224 <= exp (- 5.2 / 4096)).
  { apply sq_lo in H1; [|lra]. replace (2 * (- 5.2 / 8192)) with (- 5.2 / 4096) in H1 by lra. lra. }
  assert (H3 : 0.997463756202145 <= exp (- 5.2 / 2048)).
  { apply sq_lo in H2; [|lra]. replace (2 * (- 5.2 / 4096)) with (- 5.2 / 2048) in H2 by lra. lra. }
  assert (H4 : 0.994933944936892 <= exp (- 5.2 / 1024)).
  { apply sq_lo in H3; [|lra]. replace (2 * (- 5.2 / 2048)) with (- 5.2 / 1024) in H3 by lra. lra. }
  assert (H5 : 0.989893554787686 <= exp (- 5.2 / 512)).
  { apply sq_lo in H4; [|lra]. replace (2 * (- 5.2 / 1024)) with (- 5.2 / 512) in H4 by lra. lra. }
  assert (H6 : 0.979889249810201 <= exp (- 5.2 / 256)).
  { apply sq_lo in H5; [|lra]. replace (2 * (- 5.2 / 512)) with (- 5.2 / 256) in H5 by lra. lra. }
  assert (H7 : 0.960182941893598 <= exp (- 5.2 / 128)).
  { apply sq_lo in H6; [|lra]. replace (2 * (- 5.2 / 256)) with (- 5.2 / 128) in H6 by lra. lra. }
  assert (H8 : 0.921951281903444 <= exp (- 5.2 / 64)).
  { apply sq_lo in H7; [|lra]. replace (2 * (- 5.2 / 128)) with (- 5.2 / 64) in H7 by lra. lra. }
  assert (H9 : 0.849994166203403 <= exp (- 5.2 / 32)).
  { apply sq_lo in H8; [|lra]. replace (2 * (- 5.2 / 64)) with (- 5.2 / 32) in H8 by lra. lra. }
  assert (H10 : 0.722490082579818 <= exp (- 5.2 / 16)).
  { apply sq_lo in H9; [|lra]. replace (2 * (- 5.2 / 32)) with (- 5.2 / 16) in H9 by lra. lra. }
  assert (H11 : 0.521991919426192 <= exp (- 5.2 / 8)).
  { apply sq_lo in H10; [|lra]. replace (2 * (- 5.2 / 16)) with (- 5.2 / 8) in H10 by lra. lra. }
  assert (H12 : 0.272475563946240 <= exp (- 5.2 / 4)).
  { apply sq_lo in H11; [|lra]. replace (2 * (- 5.2 / 8)) with (- 5.2 / 4) in H11 by lra. lra. }
  assert (H13 : 0.074242932947821 <= exp (- 5.2 / 2)).
  { apply sq_lo in H12; [|lra]. replace (2 * (- 5.2 / 4)) with (- 5.2 / 2) in H12 by lra. lra. }
  assert (H14 : 0.005512013092694 <= exp (- 5.2 / 1)).
  { apply sq_lo in H13; [|lra]. replace (2 * (- 5.2 / 2)) with (- 5.2 / 1) in H13 by lra. lra. }
  replace (- (5.2)) with (- 5.2 / 1) by lra. lra.
Qed.
Lemma exp_m64hi : exp (- (6.4)) <= 0.00168.
Proof.
  assert (H0 : exp (- 6.4 / 16384) <= 0.999609527528310).
  { replace (- 6.4 / 16384) with (- (6.4 / 16384)) by lra. rewrite exp_Ropp. pose proof (exp_ineq1_le (6.4 / 16384)).
    apply Rle_trans with (/ (1 + 6.4 / 16384)); [apply Rinv_le_contravar; lra|]. lra. }
  assert (H1 : exp (- 6.4 / 8192) <= 0.999219207525372).
  { apply sq_hi in H0. replace (2 * (- 6.4 / 16384)) with (- 6.4 / 8192) in H0 by lra. lra. }
  assert (H2 : exp (- 6.4 / 4096) <= 0.998439024687633).
  { apply sq_hi in H1. replace (2 * (- 6.4 / 8192)) with (- 6.4 / 4096) in H1 by lra. lra. }
  assert (H3 : exp (- 6.4 / 2048) <= 0.996880486019192).
  { apply sq_hi in H2. replace (2 * (- 6.4 / 4096)) with (- 6.4 / 2048) in H2 by lra. lra. }
  assert (H4 : exp (- 6.4 / 1024) <= 0.993770703405861).
  { apply sq_hi in H3. replace (2 * (- 6.4 / 2048)) with (- 6.4 / 1024) in H3 by lra. lra. }
  assert (H5 : exp (- 6.4 / 512) <= 0.987580210947780).
  { apply sq_hi in H4. replace (2 * (- 6.4 / 1024)) with (- 6.4 / 512) in H4 by lra. lra. }
  assert (H6 : exp (- 6.4 / 256) <= 0.975314673055662).
  { apply sq_hi in H5. replace (2 * (- 6.4 / 512)) with (- 6.4 / 256) in H5 by lra. lra. }
  assert (H7 : exp (- 6.4 / 128) <= 0.951238711477673).
  { apply sq_hi in H6. replace (2 * (- 6.4 / 256)) with (- 6.4 / 128) in H6 by lra. lra. }
  assert (H8 : exp (- 6.4 / 64) <= 0.904855086213704).
  { apply sq_hi in H7. replace (2 * (- 6.4 / 128)) with (- 6.4 / 64) in H7 by lra. lra. }
  assert (H9 : exp (- 6.4 / 32) <= 0.818762727046810).
  { apply sq_hi in H8. replace (2 * (- 6.4 / 64)) with (- 6.4 / 32) in H8 by lra. lra. }
  assert (H10 : exp (- 6.4 / 16) <= 0.670372403201130).
  { apply sq_hi in H9. replace (2 * (- 6.4 / 32)) with (- 6.4 / 16) in H9 by lra. lra. }
  assert (H11 : exp (- 6.4 / 8) <= 0.449399158973659).
  { apply sq_hi in H10. replace (2 * (- 6.4 / 16)) with (- 6.4 / 8) in H10 by lra. lra. }
  assert (H12 : exp (- 6.4 / 4) <= 0.201959604086233).
  { apply sq_hi in H11. replace (2 * (- 6.4 / 8)) with (- 6.4 / 4) in H11 by lra. lra. }
  assert (H13 : exp (- 6.4 / 2) <= 0.040787681682668).
  { apply sq_hi in H12. replace (2 * (- 6.4 / 4)) with (- 6.4 / 2) in H12 by lra. lra. }
  assert (H14 : exp (- 6.4 / 1) <= 0.001663634977047).
  { apply sq_hi in H13. replace (2 * (- 6.4 / 2)) with (- 6.4 / 1) in H13 by lra. lra. }
  replace (- (6.4)) with (- 6.4 / 1) by lra. lra.
Qed.
