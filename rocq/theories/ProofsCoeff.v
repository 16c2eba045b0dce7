(** * ProofsCoeff: diffusion coefficients and conductivities in double precision (C104) *)
From Verif Require Import Base ModelParser ModelDiffusion Spec SpecStats SpecFit SpecDouble SpecUnwrap SpecRun SpecRound SpecClock
  Lemmas ProofsDisp ProofsParser ProofsTraj ProofsFloat ProofsUnwrap ProofsBoot ProofsStats ProofsRound ProofsClock.
From Coq Require Import Reals Lra Lia Psatz.
From Coq.Floats Require Import SpecFloat.
From Flocq Require Import Core BinarySingleNaN.
Open Scope Z_scope.

#[local] Instance prec_pos : Prec_gt_0 fprec := eq_refl.
#[local] Instance prec_emax : Prec_lt_emax fprec femax := eq_refl.

Section Any.
  Context {A : Type} {NA : Num A} {G Seed RS : Type} (X : Ext A G Seed RS).
  Lemma gls_keeps b p g b' g' : bootstrap_GLS X b p g = (b', g', Ok tt) -> b_dims b' = b_dims b /\ b_displacements b' = b_displacements b.
  Proof.
    unfold bootstrap_GLS. cbv zeta. destruct (find_regime _ _ _) as [r|]; [|discriminate].
    destruct (generate_covariance_matrix _ _ _ _) as [[raw|] [cov|]]; try discriminate.
    destruct (sample_gls _ _ _ _ _ _) as [g1 [chain|]]; [|discriminate]. destruct (column 0 chain); [|discriminate].
    destruct (if l_fit_intercept p then _ else _); [|discriminate]. intros [= <- <-]. split; reflexivity.
  Qed.
  Lemma stored_D b p g b' g' : diffusion X b p g = (b', g', Ok tt) -> exists gr, b_gradient b' = Some gr /\ b_D b' = Some (diffusion_samples (b_dims b) gr).
  Proof.
    unfold diffusion. destruct (bootstrap_GLS X b p g) as [[b1 g1] [[]|e]] eqn:E; [|discriminate]. destruct (gls_keeps _ _ _ _ _ E) as [E1 _].
    unfold samples_of. destruct (b_gradient b1) as [gr|] eqn:EG; cbn [opt_res]; [|discriminate]. intros [= <- <-]. exists gr. rewrite E1. split; [exact EG|reflexivity].
  Qed.
  Lemma stored_DJ b p g b' g' d0 : jump_diffusion X b p g = (b', g', Ok tt) -> nth_error (b_displacements b) 0 = Some d0 ->
    exists gr, b_gradient b' = Some gr /\ b_DJ b' = Some (jump_samples (b_dims b) (length (a_rows d0)) gr).
  Proof.
    unfold jump_diffusion. destruct (bootstrap_GLS X b p g) as [[b1 g1] [[]|e]] eqn:E; [|discriminate]. destruct (gls_keeps _ _ _ _ _ E) as [E1 E2].
    intros H H0. rewrite E1, E2 in H. change (py_index (b_displacements b) 0) with (py_index (b_displacements b) (Z.of_nat 0)) in H. rewrite py_index_nat, H0 in H.
    unfold samples_of in H. destruct (b_gradient b1) as [gr|] eqn:EG; cbn [opt_res] in H; [|discriminate]. injection H as <- <-. exists gr. split; [exact EG|reflexivity].
  Qed.
  Lemma stored_sigma k b p t vol g b' g' : conductivity X k b p t vol g = (b', g', Ok tt) ->
    exists gr, b_gradient b' = Some gr /\ b_sigma b' = Some (map (fun d => nmul d (conductivity_conversion k t vol)) (diffusion_samples (b_dims b) gr)).
  Proof.
    unfold conductivity. destruct (bootstrap_GLS X b p g) as [[b1 g1] [[]|e]] eqn:E; [|discriminate]. destruct (gls_keeps _ _ _ _ _ E) as [E1 _].
    unfold samples_of. destruct (b_gradient b1) as [gr|] eqn:EG; cbn [opt_res]; [|discriminate]. intros [= <- <-]. exists gr. rewrite E1. split; [exact EG|reflexivity].
  Qed.
End Any.

(** ** Division by a whole number *)
Lemma mul_exact a b : Z.abs a < 2 ^ 53 -> Z.abs b < 2 ^ 53 -> Z.abs (a * b) < 2 ^ 53 ->
  finite_double (SFmul fprec femax (SFofZ a) (SFofZ b)) /\ value (SFmul fprec femax (SFofZ a) (SFofZ b)) = IZR (a * b).
Proof.
  intros Ha Hb Hab. destruct (ofZ_small a Ha) as [F1 V1]. destruct (ofZ_small b Hb) as [F2 V2]. assert (R := mul_rounds _ _ F1 F2). rewrite V1, V2, <- mult_IZR in R.
  destruct (bounded_finite _ _ R) as [F E]; [|rewrite rnd_rep in E by (now apply rep_Z); now split].
  apply small_bound. rewrite <- abs_IZR. apply IZR_le. lia.
Qed.
Lemma div_nearest x y n : finite_double x -> (Rabs (value x) <= powerRZ 2 1000)%R -> finite_double y -> value y = IZR n -> 1 <= n ->
  nearest_double (SFdiv fprec femax x y) (value x / IZR n).
Proof.
  intros Fx Bx Fy Vy Hn. assert (N1 : (1 <= IZR n)%R) by (apply IZR_le; lia). assert (R := div_rounds x y Fx Fy ltac:(rewrite Vy; lra)). rewrite Vy in R.
  destruct (bounded_finite _ _ R) as [F E]; [|now apply nearest_rnd].
  rewrite bpow_R. eapply Rle_trans; [|exact Bx]. unfold Rdiv. rewrite Rabs_mult, (Rabs_pos_eq (/ IZR n)) by (apply Rlt_le, Rinv_0_lt_compat; lra).
  assert (/ IZR n <= 1)%R by (rewrite <- Rinv_1; apply Rinv_le; lra). pose proof (Rabs_pos (value x)). nra.
Qed.
Lemma C104_D_proof {G Seed RS} (X : Ext spec_float G Seed RS) b p g b' g' gr : (1 <= b_dims b <= 3)%nat -> diffusion X b p g = (b', g', Ok tt) ->
  b_gradient b' = Some gr -> Forall bounded_sample gr ->
  exists ds, b_D b' = Some ds /\ Forall2 (fun s d => nearest_double d (in_cm2_per_s (einstein (b_dims b) (value s)))) gr ds.
Proof.
  intros Hd H EG HF. destruct (stored_D X _ _ _ _ _ H) as (gr' & EG' & ->). assert (gr' = gr) by congruence. subst gr'. eexists. split; [reflexivity|].
  destruct (mul_exact 20000 (Z.of_nat (b_dims b)) ltac:(lia) ltac:(lia) ltac:(lia)) as [F V].
  unfold diffusion_samples. clear -HF F V Hd. induction HF as [|s l [Fs Bs] _ IH]; cbn [map]; constructor; [|exact IH].
  assert (E : in_cm2_per_s (einstein (b_dims b) (value s)) = (value s / IZR (20000 * Z.of_nat (b_dims b)))%R).
  { assert (0 < INR (b_dims b))%R by (apply lt_0_INR; lia). unfold in_cm2_per_s, einstein, angstrom_in_cm, ps_in_s. rewrite mult_IZR, <- INR_IZR_INZ. field. lra. }
  rewrite E. apply div_nearest; try assumption. lia.
Qed.
Lemma C104_DJ_proof {G Seed RS} (X : Ext spec_float G Seed RS) b p g b' g' gr d0 : (1 <= b_dims b <= 3)%nat -> nth_error (b_displacements b) 0 = Some d0 ->
  (1 <= length (a_rows d0))%nat -> Z.of_nat (length (a_rows d0)) < 2 ^ 37 -> jump_diffusion X b p g = (b', g', Ok tt) -> b_gradient b' = Some gr -> Forall bounded_sample gr ->
  exists ds, b_DJ b' = Some ds /\ Forall2 (fun s d => nearest_double d (in_cm2_per_s (einstein (b_dims b) (value s)) / INR (length (a_rows d0)))%R) gr ds.
Proof.
  intros Hd H0 Hn Hn' H EG HF. destruct (stored_DJ X _ _ _ _ _ _ H H0) as (gr' & EG' & ->). assert (gr' = gr) by congruence. subst gr'. eexists. split; [reflexivity|].
  set (n := length (a_rows d0)) in *. clearbody n.
  destruct (mul_exact 20000 (Z.of_nat (b_dims b)) ltac:(lia) ltac:(lia) ltac:(lia)) as [F V]. destruct (ofZ_small (Z.of_nat n) ltac:(lia)) as [F2 V2].
  assert (R := mul_rounds _ _ F F2). rewrite V, V2, <- mult_IZR in R. set (D := 20000 * Z.of_nat (b_dims b)) in *. assert (HD : 20000 <= D <= 60000) by (unfold D; lia).
  assert (HP : 1 <= D * Z.of_nat n < 2 ^ 53) by nia.
  destruct (bounded_finite _ _ R) as [F3 E3]. { apply small_bound. rewrite <- abs_IZR. apply IZR_le. lia. }
  rewrite rnd_rep in E3 by (apply rep_Z; lia).
  unfold jump_samples. clear -HF F3 E3 Hd Hn HP. induction HF as [|s l [Fs Bs] _ IH]; cbn [map]; constructor; [|exact IH].
  assert (E : (in_cm2_per_s (einstein (b_dims b) (value s)) / INR n)%R = (value s / IZR (D * Z.of_nat n))%R).
  { assert (0 < INR (b_dims b))%R by (apply lt_0_INR; lia). assert (0 < INR n)%R by (apply lt_0_INR; lia).
    unfold in_cm2_per_s, einstein, angstrom_in_cm, ps_in_s, D. rewrite !mult_IZR, <- !INR_IZR_INZ. field. lra. }
  rewrite E. apply div_nearest; try assumption. lia.
Qed.

(** ** The conductivity *)
Lemma inv_near k a r : (0 < r)%R -> near k a r -> (0 < a)%R -> near (2 * k) (/ a) (/ r).
Proof.
  intros Hr [N1 N2] Ha. destruct eps_range as [E1 E2]. pose proof (low_pow k) as [L1 L2]. pose proof (high_pow k) as L3. split.
  - assert (/ ((1 + eps) ^ k * r) <= / a)%R by (apply Rinv_le; lra). eapply Rle_trans; [|exact H]. rewrite Rinv_mult by lra.
    apply Rmult_le_compat_r; [apply Rlt_le, Rinv_0_lt_compat; lra|]. rewrite pow_mult, <- pow_inv. apply pow_incr. split; [apply pow2_ge_0|].
    apply (Rmult_le_reg_r (1 + eps)); [lra|]. rewrite Rinv_l by lra. cbn [pow]. nra.
  - assert (LR : (0 < (1 - eps) ^ k * r)%R) by (apply Rmult_lt_0_compat; lra).
    assert (/ a <= / ((1 - eps) ^ k * r))%R by (apply Rinv_le; lra). eapply Rle_trans; [exact H|]. rewrite Rinv_mult by lra.
    apply Rmult_le_compat_r; [apply Rlt_le, Rinv_0_lt_compat; lra|]. rewrite pow_mult, <- pow_inv. apply pow_incr. split; [apply Rlt_le, Rinv_0_lt_compat; lra|].
    apply (Rmult_le_reg_r (1 - eps)); [lra|]. rewrite Rinv_l by lra. cbn [pow]. unfold eps in *. nra.
Qed.
Lemma div_near j k x y a b : finite_double x -> finite_double y -> near j (value x) a -> near k (value y) b -> (0 < a)%R -> (0 < b)%R -> (0 < value y)%R ->
  (bpow radix2 (-1000) <= value x / value y <= bpow radix2 1000)%R ->
  finite_double (SFdiv fprec femax x y) /\ near (1 + (j + 2 * k)) (value (SFdiv fprec femax x y)) (a / b).
Proof.
  intros Fx Fy Nx Ny Ha Hb Hy [B1 B2]. assert (P : (0 < value x / value y)%R) by (eapply Rlt_le_trans; [apply bpow_gt_0|exact B1]).
  assert (Vx := near_nonneg _ _ _ (Rlt_le _ _ Ha) Nx). assert (IB := Rinv_0_lt_compat _ Hb). assert (IY := Rinv_0_lt_compat _ Hy).
  destruct (bounded_finite _ _ (div_rounds x y Fx Fy ltac:(lra))) as [F E]; [rewrite Rabs_pos_eq; lra|]. split; [exact F|]. rewrite E. unfold Rdiv in *.
  apply (near_trans _ _ (value x * / value y)%R); [apply Rlt_le, Rmult_lt_0_compat; assumption| |].
  - apply near_rnd; [lra|]. right. eapply Rle_trans; [|exact B1]. apply bpow_le. lia.
  - apply (near_trans _ _ (a * / value y)%R); [apply Rlt_le, Rmult_lt_0_compat; assumption| |].
    + apply near_scale; [lra|exact Nx].
    + rewrite !(Rmult_comm a). apply near_scale; [lra|]. now apply inv_near.
Qed.

(** [x] is a computed [r], known to [k] roundings, of the order of 2^[lo] to 2^[hi]. *)
Definition tracked (k : nat) (lo hi : Z) (x : spec_float) (r : R) : Prop :=
  finite_double x /\ near k (value x) r /\ (0 < r)%R /\ (bpow radix2 lo <= r <= bpow radix2 hi)%R.
Lemma tracked_mul j k l h l' h' x y a b : tracked j l h x a -> tracked k l' h' y b -> (j <= 1000)%nat -> (k <= 1000)%nat -> -998 <= l + l' -> h + h' <= 998 ->
  tracked (1 + (j + k)) (l + l') (h + h') (SFmul fprec femax x y) (a * b).
Proof.
  intros (Fx & Nx & Px & Bx) (Fy & Ny & Py & By) Hj Hk L H. destruct (widen j _ _ _ _ Px Hj Nx Bx) as [Vx Wx]. destruct (widen k _ _ _ _ Py Hk Ny By) as [Vy Wy].
  destruct (mul_near j k x y a b Fx Fy Nx Ny Px Py) as [F N].
  { refine (three_bounds _ _ _ Vx Vy _ _ _ _ (-1000) 1000 Wx Wy _ _ eq_refl); lia. }
  split; [exact F|]. split; [exact N|]. split; [now apply Rmult_lt_0_compat|]. exact (three_bounds _ _ _ Px Py _ _ _ _ _ _ Bx By (Z.le_refl _) (Z.le_refl _) eq_refl).
Qed.
Lemma inv_bounds x lo hi : (0 < x)%R -> (bpow radix2 lo <= x <= bpow radix2 hi)%R -> (bpow radix2 (- hi) <= / x <= bpow radix2 (- lo))%R.
Proof. intros Hx [H1 H2]. rewrite !bpow_opp. pose proof (bpow_gt_0 radix2 lo). split; apply Rinv_le; lra. Qed.
Lemma tracked_div j k l h l' h' x y a b : tracked j l h x a -> tracked k l' h' y b -> (j <= 1000)%nat -> (k <= 1000)%nat -> -998 <= l - h' -> h - l' <= 998 ->
  tracked (1 + (j + 2 * k)) (l - h') (h - l') (SFdiv fprec femax x y) (a / b).
Proof.
  intros (Fx & Nx & Px & Bx) (Fy & Ny & Py & By) Hj Hk L H. destruct (widen j _ _ _ _ Px Hj Nx Bx) as [Vx Wx]. destruct (widen k _ _ _ _ Py Hk Ny By) as [Vy Wy].
  destruct (div_near j k x y a b Fx Fy Nx Ny Px Py Vy) as [F N].
  { refine (three_bounds _ _ _ Vx (Rinv_0_lt_compat _ Vy) _ _ _ _ (-1000) 1000 Wx (inv_bounds _ _ _ Vy Wy) _ _ eq_refl); lia. }
  split; [exact F|]. split; [exact N|]. split; [apply Rmult_lt_0_compat; [exact Px|now apply Rinv_0_lt_compat]|].
  refine (three_bounds _ _ _ Px (Rinv_0_lt_compat _ Py) _ _ _ _ _ _ Bx (inv_bounds _ _ _ Py By) _ _ eq_refl); lia.
Qed.
Lemma tracked_everyday x : everyday x -> tracked 0 (-90) 90 x (value x).
Proof.
  intros [F B]. rewrite <- !bpow_R in B. assert (P : (0 < value x)%R) by (eapply Rlt_le_trans; [apply bpow_gt_0|exact (proj1 B)]). split; [exact F|]. split; [now apply near_exact|]. now split.
Qed.
Lemma tracked_small z lo hi : 1 <= z < 2 ^ 53 -> (bpow radix2 lo <= IZR z <= bpow radix2 hi)%R -> tracked 0 lo hi (SFofZ z) (IZR z).
Proof.
  intros Hz B. destruct (ofZ_small z ltac:(lia)) as [F V]. assert (0 < IZR z)%R by (apply IZR_lt; lia). split; [exact F|]. rewrite V. split; [now apply near_exact|]. now split.
Qed.
Definition mole : Z := 1000000000000000000000000.
Lemma mole_bounds : (bpow radix2 79 <= IZR mole <= bpow radix2 80)%R.
Proof. rewrite <- !(IZR_Zpower radix2) by lia. split; apply IZR_le; vm_compute; discriminate. Qed.
Lemma tracked_mole : tracked 1 79 80 (SFofZ mole) (IZR mole).
Proof.
  assert (P : (0 < IZR mole)%R) by (apply IZR_lt; reflexivity). assert (B := mole_bounds).
  destruct (bounded_finite _ _ (ofZ_rounds mole)) as [F E].
  { rewrite Rabs_pos_eq by lra. eapply Rle_trans; [exact (proj2 B)|]. apply bpow_le. lia. }
  split; [exact F|]. split; [|now split]. rewrite E. apply near_rnd; [lra|]. right. eapply Rle_trans; [|exact (proj1 B)]. apply bpow_le. lia.
Qed.
Lemma one_small : tracked 0 0 0 (SFofZ 1) 1.
Proof. apply tracked_small; [lia|]. rewrite one_bpow. lra. Qed.
Lemma thousand_small : tracked 0 9 10 (SFofZ 1000) 1000.
Proof. apply tracked_small; [lia|]. change (bpow radix2 9) with 512%R. change (bpow radix2 10) with 1024%R. lra. Qed.
(** The conversion with the number written for 1e-24 left open. *)
Definition conversion_with (c : spec_float) (k : Consts spec_float) (t vol : spec_float) : spec_float :=
  SFdiv fprec femax (SFmul fprec femax (SFdiv fprec femax (SFofZ 1000) (SFmul fprec femax (SFmul fprec femax vol c) (k_NA k)))
    (SFmul fprec femax (SFmul fprec femax (k_NA k) (k_e k)) (SFmul fprec femax (k_NA k) (k_e k)))) (SFmul fprec femax (k_R k) t).
Lemma tracked_conversion c k t vol : tracked 3 (-80) (-79) c (1 / IZR mole) -> everyday (k_NA k) -> everyday (k_e k) -> everyday (k_R k) -> everyday t -> everyday vol ->
  tracked 18 (-632) 810 (conversion_with c k t vol)
    (1000 / (value vol * (1 / IZR mole) * value (k_NA k)) * ((value (k_NA k) * value (k_e k)) * (value (k_NA k) * value (k_e k))) / (value (k_R k) * value t)).
Proof.
  intros T1 HN He HR Ht Hv. apply tracked_everyday in HN, He, HR, Ht, Hv.
  assert (T2 := tracked_mul _ _ _ _ _ _ _ _ _ _ Hv T1). specialize (T2 ltac:(lia) ltac:(lia) ltac:(lia) ltac:(lia)).
  assert (T3 := tracked_mul _ _ _ _ _ _ _ _ _ _ T2 HN). specialize (T3 ltac:(lia) ltac:(lia) ltac:(lia) ltac:(lia)).
  assert (T4 := tracked_div _ _ _ _ _ _ _ _ _ _ thousand_small T3). specialize (T4 ltac:(lia) ltac:(lia) ltac:(lia) ltac:(lia)).
  assert (S1 := tracked_mul _ _ _ _ _ _ _ _ _ _ HN He). specialize (S1 ltac:(lia) ltac:(lia) ltac:(lia) ltac:(lia)).
  assert (S2 := tracked_mul _ _ _ _ _ _ _ _ _ _ S1 S1). specialize (S2 ltac:(lia) ltac:(lia) ltac:(lia) ltac:(lia)).
  assert (T5 := tracked_mul _ _ _ _ _ _ _ _ _ _ T4 S2). specialize (T5 ltac:(lia) ltac:(lia) ltac:(lia) ltac:(lia)).
  assert (U := tracked_mul _ _ _ _ _ _ _ _ _ _ HR Ht). specialize (U ltac:(lia) ltac:(lia) ltac:(lia) ltac:(lia)).
  assert (T6 := tracked_div _ _ _ _ _ _ _ _ _ _ T5 U). specialize (T6 ltac:(lia) ltac:(lia) ltac:(lia) ltac:(lia)).
  exact T6.
Qed.
Lemma model_literal : tracked 3 (-80) (-79) (SFdiv fprec femax (SFofZ 1) (SFofZ mole)) (1 / IZR mole).
Proof. assert (T1 := tracked_div _ _ _ _ _ _ _ _ _ _ one_small tracked_mole). exact (T1 ltac:(lia) ltac:(lia) ltac:(lia) ltac:(lia)). Qed.
Lemma written_literal c : nearest_double c (1 / IZR mole) -> tracked 3 (-80) (-79) c (1 / IZR mole).
Proof.
  intros N. assert (P : (0 < IZR mole)%R) by (apply IZR_lt; reflexivity). assert (B := inv_bounds _ _ _ P mole_bounds). replace (/ IZR mole)%R with (1 / IZR mole)%R in B by (unfold Rdiv; ring).
  assert (Q : (0 < 1 / IZR mole)%R) by (eapply Rlt_le_trans; [apply bpow_gt_0|exact (proj1 B)]).
  split; [exact (proj1 N)|]. split; [|now split]. apply (near_le 1); [lia|lra|]. apply near_rel; [lra|]. rewrite (Rabs_pos_eq (1 / IZR mole)) by lra. apply nearest_error; [exact N|].
  split; [eapply Rle_trans; [|exact (proj1 B)]; apply bpow_le; lia|eapply Rle_trans; [exact (proj2 B)|]; apply bpow_le; lia].
Qed.
Lemma tracked_D s n : everyday s -> (1 <= n <= 3)%nat -> tracked 1 (-106) 76 (SFdiv fprec femax s (SFmul fprec femax (SFofZ 20000) (SFofZ (Z.of_nat n)))) (value s / IZR (20000 * Z.of_nat n)).
Proof.
  intros Hs Hn. apply tracked_everyday in Hs. destruct (mul_exact 20000 (Z.of_nat n) ltac:(lia) ltac:(lia) ltac:(lia)) as [F V].
  assert (R1 : (20000 <= IZR (20000 * Z.of_nat n))%R) by (apply IZR_le; lia). assert (R2 : (IZR (20000 * Z.of_nat n) <= 60000)%R) by (apply IZR_le; lia).
  assert (T : tracked 0 14 16 (SFmul fprec femax (SFofZ 20000) (SFofZ (Z.of_nat n))) (IZR (20000 * Z.of_nat n))).
  { split; [exact F|]. rewrite V. split; [apply near_exact; lra|]. split; [lra|]. change (bpow radix2 14) with 16384%R. change (bpow radix2 16) with 65536%R. lra. }
  assert (T1 := tracked_div _ _ _ _ _ _ _ _ _ _ Hs T). exact (T1 ltac:(lia) ltac:(lia) ltac:(lia) ltac:(lia)).
Qed.
Lemma sigma_units na e gas t vol s n : (0 < na)%R -> (0 < gas)%R -> (0 < t)%R -> (0 < vol)%R -> (1 <= n)%nat ->
  (s / IZR (20000 * Z.of_nat n) * (1000 / (vol * (1 / IZR mole) * na) * ((na * e) * (na * e)) / (gas * t)))%R
  = in_milli (nernst_einstein (na) (e) (gas) (in_cm3 vol) t (in_cm2_per_s (einstein n s))).
Proof.
  intros H1 H2 H3 H4 Hn. assert (0 < INR n)%R by (apply lt_0_INR; lia). unfold in_milli, nernst_einstein, in_cm3, in_cm2_per_s, einstein, angstrom_in_cm, ps_in_s, mole.
  rewrite mult_IZR, <- INR_IZR_INZ. field. repeat split; lra.
Qed.
Lemma sigma_accurate c k t vol s n : tracked 3 (-80) (-79) c (1 / IZR mole) -> everyday (k_NA k) -> everyday (k_e k) -> everyday (k_R k) -> everyday t -> everyday vol -> everyday s -> (1 <= n <= 3)%nat ->
  accurate 20 (SFmul fprec femax (SFdiv fprec femax s (SFmul fprec femax (SFofZ 20000) (SFofZ (Z.of_nat n)))) (conversion_with c k t vol))
    (in_milli (nernst_einstein (value (k_NA k)) (value (k_e k)) (value (k_R k)) (in_cm3 (value vol)) (value t) (in_cm2_per_s (einstein n (value s))))).
Proof.
  intros Hc HN He HR Ht Hv Hs Hn. assert (T := tracked_mul _ _ _ _ _ _ _ _ _ _ (tracked_D s n Hs Hn) (tracked_conversion c k t vol Hc HN He HR Ht Hv)).
  specialize (T ltac:(lia) ltac:(lia) ltac:(lia) ltac:(lia)). destruct T as (F & N & P & _).
  assert (Z' : forall x, everyday x -> (0 < value x)%R) by (intros x Hx; exact (proj1 (proj2 (proj2 (tracked_everyday x Hx))))).
  rewrite <- (sigma_units (value (k_NA k)) (value (k_e k)) (value (k_R k)) (value t) (value vol) (value s) n) by (cbn; auto; lia).
  replace 20%R with (INR 20) by (cbn; lra). apply near_accurate; [lia|exact (Rlt_le _ _ P)|exact F|exact N].
Qed.
Lemma C104_sigma_proof {G Seed RS} (X : Ext spec_float G Seed RS) k b p t vol g b' g' gr : (1 <= b_dims b <= 3)%nat ->
  everyday (k_NA k) -> everyday (k_e k) -> everyday (k_R k) -> everyday t -> everyday vol -> conductivity X k b p t vol g = (b', g', Ok tt) ->
  b_gradient b' = Some gr -> Forall everyday gr ->
  exists ss, b_sigma b' = Some ss
    /\ Forall2 (fun s d => accurate 20 d (in_milli (nernst_einstein (value (k_NA k)) (value (k_e k)) (value (k_R k)) (in_cm3 (value vol)) (value t) (in_cm2_per_s (einstein (b_dims b) (value s)))))) gr ss.
Proof.
  intros Hd HN He HR Ht Hv H EG HF. destruct (stored_sigma X _ _ _ _ _ _ _ _ H) as (gr' & EG' & ->). assert (gr' = gr) by congruence. subst gr'. eexists. split; [reflexivity|].
  unfold diffusion_samples. rewrite map_map. clear H EG EG'. induction HF as [|s l Hs _ IH]; cbn [map]; constructor; [|exact IH].
  exact (sigma_accurate _ k t vol s (b_dims b) model_literal HN He HR Ht Hv Hs Hd).
Qed.
(** With the literal 1e-24 read as the nearest double, which differs from the model's 1/10^24 in the last place. *)
Lemma C104_literal_proof c k t vol s n : nearest_double c (/ IZR (10 ^ 24)) -> everyday (k_NA k) -> everyday (k_e k) -> everyday (k_R k) -> everyday t -> everyday vol -> everyday s -> (1 <= n <= 3)%nat ->
  accurate 20 (SFmul fprec femax (SFdiv fprec femax s (SFmul fprec femax (SFofZ 20000) (SFofZ (Z.of_nat n)))) (conversion_with c k t vol))
    (in_milli (nernst_einstein (value (k_NA k)) (value (k_e k)) (value (k_R k)) (in_cm3 (value vol)) (value t) (in_cm2_per_s (einstein n (value s))))).
Proof.
  intros N. apply sigma_accurate. apply written_literal. replace (1 / IZR mole)%R with (/ IZR (10 ^ 24))%R; [exact N|]. change (10 ^ 24) with mole. unfold Rdiv. ring.
Qed.
Lemma model_conversion k t vol : conductivity_conversion k t vol = conversion_with (SFdiv fprec femax (SFofZ 1) (SFofZ (10 ^ 24))) k t vol.
Proof. reflexivity. Qed.

(** ** Example *)
Definition float_ext (m0 : spec_float) : Ext spec_float nat nat nat :=
  mkExt (fun x => x) (fun g _ size => (repeat 0%nat size, S g)) (fun _ => SFofZ 1) (fun _ => (SFofZ 0, SFofZ 0)) (fun rs => rs) (fun s => s)
    (fun _ _ _ => Ok (SFofZ 1))
    (fun m => Ok (repeat (SFofZ 1) (length m), repeat (repeat (SFofZ 1) (length m)) (length m)))
    (fun m => Ok m) (fun _ => Ok (SFofZ 0)) (SFofZ 2) (fun m => Ok m) (fun _ _ => Ok (SFofZ 1))
    (fun _ x0 => Ok (match x0 with [_] => [m0] | _ => [m0; SFofZ 0] end))
    (fun g rows cols => (repeat (repeat (SFofZ 0) cols) rows, S g)) (fun _ => true) (fun g _ => ([], S g))
    (fun g mu _ n => (repeat mu n, S g)).
Definition float_atoms : Arr spec_float := mkArr 2 [[mkV (SFofZ 1) (SFofZ 0) (SFofZ 0); mkV (SFofZ 0) (SFofZ 2) (SFofZ 0)]; [mkV (SFofZ 0) (SFofZ 0) (SFofZ 0); mkV (SFofZ 1) (SFofZ 1) (SFofZ 1)]].
Definition float_data : Boot spec_float :=
  mkBoot [float_atoms; float_atoms] [SFofZ 1; SFofZ 2] 2 [] [SFofZ 1; SFofZ 2] [SFofZ 2; SFofZ 4] [SFofZ 1; SFofZ 1] [SFofZ 1; SFofZ 1] [] [] [] [SFofZ 4; SFofZ 2] [] 1 (PyStr "xyz") []
         None None None None None None None SAll None 3 None None.
Definition float_fit : GLSParams spec_float nat := mkGLSParams (SFofZ 1) (SFofZ 10) false true 1 4 0 1 (Some 7%nat).
Definition float_consts : Consts spec_float := mkConsts (SFofZ 602214076000000000000000) (SFdiv fprec femax (SFofZ 1602176634) (SFofZ 10000000000000000000000000000)) (SFdiv fprec femax (SFofZ 8314462618) (SFofZ 1000000000)).
Lemma C104_example_proof g : exists bd bj bs,
  diffusion (float_ext (SFofZ 6)) float_data float_fit g = (bd, 8%nat, Ok tt) /\ b_gradient bd = Some (repeat (SFofZ 6) 4) /\ b_D bd = Some (repeat (decimal 1 10000) 4)
  /\ jump_diffusion (float_ext (SFofZ 6)) float_data float_fit g = (bj, 8%nat, Ok tt) /\ b_DJ bj = Some (repeat (decimal 1 20000) 4)
  /\ conductivity (float_ext (SFofZ 6)) float_consts float_data float_fit (SFofZ 300) (SFofZ 1000) g = (bs, 8%nat, Ok tt) /\ b_gradient bs = Some (repeat (SFofZ 6) 4).
Proof. do 3 eexists. repeat split; vm_compute; reflexivity. Qed.
Lemma everyday_int z : 1 <= z < 2 ^ 53 -> everyday (SFofZ z).
Proof.
  intros Hz. destruct (ofZ_small z ltac:(lia)) as [F V]. split; [exact F|]. rewrite V, <- !bpow_R. split.
  - apply Rle_trans with 1%R; [rewrite <- one_bpow; apply bpow_le; lia|apply IZR_le; lia].
  - eapply Rle_trans; [apply (IZR_pow z 53); lia|]. apply bpow_le. lia.
Qed.
Lemma everyday_value x m e : finite_double x -> value x = (IZR (Zpos m) * powerRZ 2 e)%R -> -142 <= e <= 37 -> 2 ^ 52 <= Zpos m < 2 ^ 53 -> everyday x.
Proof.
  intros F V E [M1 M2]. split; [exact F|]. rewrite V, <- !bpow_R. pose proof (bpow_gt_0 radix2 e).
  assert (L : (bpow radix2 52 <= IZR (Zpos m))%R) by (rewrite <- (IZR_Zpower radix2) by lia; apply IZR_le; exact M1). assert (U := IZR_pow (Zpos m) 53 ltac:(lia) M2). split.
  - apply Rle_trans with (bpow radix2 52 * bpow radix2 e)%R; [rewrite <- bpow_plus; apply bpow_le; lia|]. apply Rmult_le_compat_r; lra.
  - apply Rle_trans with (bpow radix2 53 * bpow radix2 e)%R; [apply Rmult_le_compat_r; lra|]. rewrite <- bpow_plus. apply bpow_le. lia.
Qed.
Lemma C104_values_proof : everyday (k_NA float_consts) /\ everyday (k_e float_consts) /\ everyday (k_R float_consts) /\ everyday (SFofZ 300) /\ everyday (SFofZ 1000) /\ everyday (SFofZ 6) /\ bounded_sample (SFofZ 6).
Proof.
  split; [apply (everyday_value _ 8973689019680023 26); [split; [vm_compute; reflexivity|vm_compute; exact I]|vm_compute; reflexivity|lia|lia]|].
  split; [apply (everyday_value _ 6655181362828884 (-115)); [split; [vm_compute; reflexivity|vm_compute; exact I]|vm_compute; reflexivity|lia|lia]|].
  split; [apply (everyday_value _ 4680626343526340 (-49)); [split; [vm_compute; reflexivity|vm_compute; exact I]|vm_compute; reflexivity|lia|lia]|].
  do 3 (split; [apply everyday_int; lia|]). destruct (ofZ_small 6 ltac:(lia)) as [F V]. split; [exact F|]. rewrite V, <- bpow_R. rewrite Rabs_pos_eq by lra.
  apply Rle_trans with (bpow radix2 3); [change (bpow radix2 3) with 8%R; lra|apply bpow_le; lia].
Qed.
