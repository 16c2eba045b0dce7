(** * ProofsCaged: atoms kept in place are reported as not diffusing (C112) *)
From Verif Require Import Base Spec SpecParser SpecStats SpecRun SpecFit SpecGls SpecAnalyzer SpecTrue SpecColl SpecMarkov SpecFitErr SpecCaged
  ModelParser ModelDiffusion ModelHdf ModelAnalyzer Lemmas ProofsDisp ProofsStats ProofsTraj ProofsAnalyzer ProofsCollective ProofsTrue ProofsColl ProofsHetero ProofsCov ProofsFitErr ProofsFitErr3 ProofsBoot.
From Coq Require Import Reals Lra Lia Psatz.
Open Scope nat_scope.

Lemma sqlen_nonneg axes v : (0 <= sqlen axes v)%R.
Proof. unfold sqlen. induction axes as [|a axes IH]; cbn [map]; [cbn; lra|]. rewrite rsum_cons. pose proof (Rle_0_sqr (coord v a)) as Q. unfold Rsqr in Q. lra. Qed.
Lemma rsum_bound {T} (f : T -> R) B (l : list T) : (forall x, In x l -> (0 <= f x <= B)%R) -> (0 <= rsum (map f l) <= INR (length l) * B)%R.
Proof.
  induction l as [|x l IH]; intros H; [cbn; lra|]. cbn [map length]. rewrite rsum_cons, S_INR. pose proof (H x (or_introl eq_refl)).
  assert (0 <= rsum (map f l) <= INR (length l) * B)%R by (apply IH; intros; apply H; now right). lra.
Qed.
Lemma mixed_between (b : nat -> nat -> R) T m B : 0 < m <= T -> (forall f g, f <= g < T -> (0 <= b f g <= B)%R) ->
  (0 <= (INR (T - m) * over_time T m b + b 0%nat (m - 1)%nat) / INR (T - m + 1) <= B)%R.
Proof.
  intros Hm H. assert (P : (0 < INR (T - m + 1))%R) by (apply lt_0_INR; lia). assert (B0 := H 0 (m - 1) ltac:(lia)).
  assert (A : (0 <= INR (T - m) * over_time T m b <= INR (T - m) * B)%R).
  { destruct (Nat.eq_dec (T - m) 0) as [->|N]; [cbn [INR]; lra|]. assert (Q : (0 < INR (T - m))%R) by (apply lt_0_INR; lia). unfold over_time, average. rewrite tab_length.
    replace (INR (T - m) * (rsum (tab (T - m) (fun j => b j (j + m)%nat)) / INR (T - m)))%R with (rsum (tab (T - m) (fun j => b j (j + m)%nat))) by (field; lra).
    unfold tab. pose proof (rsum_bound (fun j => b j (j + m)%nat) B (seq 0 (T - m))) as R. rewrite seq_length in R. apply R. intros j Hj. apply in_seq in Hj. apply H. lia. }
  rewrite plus_INR in *. cbn [INR] in *. split; [apply Rmult_le_pos; [lra|apply Rlt_le, Rinv_0_lt_compat, P]|].
  apply (Rmult_le_reg_r (INR (T - m) + 1)); [exact P|]. unfold Rdiv. rewrite Rmult_assoc, Rinv_l, Rmult_1_r by lra. lra.
Qed.
Section Cage.
  Context {G Seed RS : Type} (X : Ext R G Seed RS).
  Lemma caged_square axes natoms k pos idx fw T a f g : caged axes natoms k pos idx fw T a -> f <= g < T -> (0 <= square_between axes natoms k pos idx fw f g <= a * a)%R.
  Proof.
    intros H Hf. unfold square_between, average. rewrite map_length. destruct (Nat.eq_dec (length idx) 0) as [E|N].
    - destruct idx; [|discriminate]. cbn. unfold Rdiv. rewrite Rmult_0_l. nra.
    - assert (P : (0 < INR (length idx))%R) by (apply lt_0_INR; lia).
      pose proof (rsum_bound (fun i => sqlen axes (relative_displacement natoms pos fw (site natoms i) (f * k) (g * k))) (a * a)%R idx) as R.
      assert (Q := R (fun i Hi => conj (sqlen_nonneg _ _) (H i f g Hi Hf))). split; [apply Rmult_le_pos; [lra|apply Rlt_le, Rinv_0_lt_compat, P]|].
      apply (Rmult_le_reg_r (INR (length idx))); [exact P|]. unfold Rdiv. rewrite Rmult_assoc, Rinv_l, Rmult_1_r by lra. lra.
  Qed.
  Lemma ones_scaled (l : list (V3 R)) : map (fun p => scale3 (fst p) (snd p)) (combine (repeat 1%R (length l)) l) = l.
  Proof. induction l as [|v l IH]; [reflexivity|]. cbn [length repeat combine map fst snd]. rewrite IH. f_equal. destruct v. unfold scale3. cbn. f_equal; lra. Qed.
  Lemma caged_charge axes q natoms k pos idx fw T a f g : caged axes natoms k pos idx fw T a -> f <= g < T -> length q = length idx ->
    (0 <= sqlen axes (sum3 (map (fun p => scale3 (fst p) (snd p)) (combine q (moves natoms k pos idx fw f g)))) <= rsum (map (fun c => c * c) q) * (INR (length idx) * (a * a)))%R.
  Proof.
    intros H Hf L. split; [apply sqlen_nonneg|]. eapply Rle_trans; [apply weighted_bound; unfold moves; now rewrite map_length|].
    apply Rmult_le_compat_l; [apply rsum_sq_nonneg|]. unfold moves. rewrite map_map. apply rsum_bound. intros i Hi. split; [apply sqlen_nonneg|now apply H].
  Qed.
  Lemma sum_ones n : rsum (map (fun c => c * c)%R (repeat 1%R n)) = INR n.
  Proof. induction n as [|n IH]; [reflexivity|]. cbn [repeat map]. rewrite rsum_cons, IH, S_INR. lra. Qed.
  Lemma caged_total axes natoms k pos idx fw T a f g : caged axes natoms k pos idx fw T a -> f <= g < T ->
    (0 <= total_between axes natoms k pos idx fw f g <= INR (length idx) * INR (length idx) * (a * a))%R.
  Proof.
    intros H Hf. pose proof (caged_charge axes (repeat 1%R (length idx)) natoms k pos idx fw T a f g H Hf (repeat_length _ _)) as C. rewrite sum_ones in C.
    unfold total_between. assert (E := ones_scaled (moves natoms k pos idx fw f g)). unfold moves in E at 1. rewrite map_length in E. rewrite E in C. lra.
  Qed.
  Lemma C112_msd_proof i circ cell types vol n natoms k x a p u axes g an g' (r : R) :
    faithful_read i circ cell types vol n natoms k x a p -> (0 < u_sub_sample_dt u)%Z -> u_block u = false -> names (pystr_text (u_dimension u)) axes ->
    caged axes natoms k (fun f b => cart cell (x f b)) (p_indices p) (p_drift_indices p) (kept n k) r ->
    diffusion_analyzer X (of_parsed p) u g = Ok (an, g') -> forall j t v, nth_error (b_dt (an_diff an)) j = Some t -> nth_error (b_n (an_diff an)) j = Some v -> (0 <= v <= r * r)%R.
  Proof.
    intros F Hk Hb Hn C H j t v Ht Hv. destruct (C81_reported_proof X _ _ _ _ _ _ _ _ _ _ _ _ _ _ _ _ F Hk Hb Hn H j t Ht) as (m & _ & _ & E2 & E3).
    cbv zeta in E3. rewrite Hv in E3. injection E3 as ->. apply (mixed_between (square_between axes natoms k (fun f b => cart cell (x f b)) (p_indices p) (p_drift_indices p))); [exact E2|].
    intros f f' Hf. eapply caged_square; eassumption.
  Qed.
  Lemma C112_mstd_proof i circ cell types vol n natoms k x a p u axes g an g' (r : R) :
    faithful_read i circ cell types vol n natoms k x a p -> (0 < u_sub_sample_dt u)%Z -> u_block u = false -> names (pystr_text (u_dimension u)) axes ->
    caged axes natoms k (fun f b => cart cell (x f b)) (p_indices p) (p_drift_indices p) (kept n k) r ->
    jump_diffusion_analyzer X (of_parsed p) u g = Ok (an, g') -> forall j t v, nth_error (b_dt (an_diff an)) j = Some t -> nth_error (b_n (an_diff an)) j = Some v ->
    (0 <= v <= INR (length (p_indices p)) * INR (length (p_indices p)) * (r * r))%R.
  Proof.
    intros F Hk Hb Hn C H j t v Ht Hv. destruct (C85_mstd_proof X _ _ _ _ _ _ _ _ _ _ _ _ _ _ _ _ F Hk Hb Hn H j t Ht) as (m & _ & _ & E2 & E3).
    cbv zeta in E3. rewrite Hv in E3. injection E3 as ->. apply mixed_between; [exact E2|]. intros f f' Hf. eapply caged_total; eassumption.
  Qed.
  Lemma C112_mscd_proof i circ cell types vol n natoms k x a p q u g an g' (r : R) :
    faithful_read i circ cell types vol n natoms k x a p -> (0 < u_sub_sample_dt u)%Z -> u_block u = false -> (forall l, q = QArray l -> length l = length (p_indices p)) ->
    caged all_axes natoms k (fun f b => cart cell (x f b)) (p_indices p) (p_drift_indices p) (kept n k) r ->
    conductivity_analyzer X (of_parsed p) q u g = Ok (an, g') -> forall j t v, nth_error (b_dt (an_diff an)) j = Some t -> nth_error (b_n (an_diff an)) j = Some v ->
    (0 <= v <= rsum (map (fun c => c * c) (charges q (length (p_indices p)))) * (INR (length (p_indices p)) * (r * r)))%R.
  Proof.
    intros F Hk Hb Hq C H j t v Ht Hv. destruct (C85_mscd_proof X _ _ _ _ _ _ _ _ _ _ _ _ _ _ _ _ F Hk Hb Hq H j t Ht) as (m & _ & _ & E2 & E3).
    cbv zeta in E3. rewrite Hv in E3. injection E3 as ->. apply mixed_between; [exact E2|]. intros f f' Hf. unfold charge_between. eapply caged_charge; [eassumption|exact Hf|].
    unfold charges. destruct q as [c|l]; [apply repeat_length|now apply Hq].
  Qed.
  (** Uniform motion. *)
  Lemma sqlen_scale axes c v : sqlen axes (scale3 c v) = (c * c * sqlen axes v)%R.
  Proof. unfold sqlen. induction axes as [|a axes IH]; cbn [map]; [cbn; lra|]. rewrite !rsum_cons, IH. destruct a; cbn; ring. Qed.
  Lemma uniform_square axes natoms k pos idx fw T vel f g : uniform_motion natoms k pos idx fw T vel -> f <= g < T ->
    square_between axes natoms k pos idx fw f g = (INR (g - f) * INR (g - f) * average (map (fun i => sqlen axes (vel i)) idx))%R.
  Proof.
    intros H Hf. unfold square_between, average. rewrite !map_length.
    rewrite (map_ext_in _ (fun i => (INR (g - f) * INR (g - f)) * sqlen axes (vel i))%R) by (intros i Hi; rewrite (H i f g Hi Hf); apply sqlen_scale).
    rewrite rsum_map_scal. unfold Rdiv. ring.
  Qed.
  Lemma C112_uniform_proof i circ cell types vol n natoms k x a p u axes g an g' vel :
    faithful_read i circ cell types vol n natoms k x a p -> (0 < u_sub_sample_dt u)%Z -> u_block u = false -> names (pystr_text (u_dimension u)) axes ->
    uniform_motion natoms k (fun f b => cart cell (x f b)) (p_indices p) (p_drift_indices p) (kept n k) vel ->
    diffusion_analyzer X (of_parsed p) u g = Ok (an, g') -> forall j t, nth_error (b_dt (an_diff an)) j = Some t ->
    exists m, nth_error (p_intervals p) (j * Z.to_nat (u_sub_sample_dt u)) = Some (Z.of_nat m) /\ 0 < m <= kept n k
      /\ nth_error (b_n (an_diff an)) j = Some (average (map (fun i => sqlen axes (vel i)) (p_indices p)) * (INR m * INR m - (2 * INR m - 1) / INR (kept n k - m + 1)))%R.
  Proof.
    intros F Hk Hb Hn U H j t Ht. destruct (C81_reported_proof X _ _ _ _ _ _ _ _ _ _ _ _ _ _ _ _ F Hk Hb Hn H j t Ht) as (m & E1 & _ & E2 & E3).
    exists m. split; [exact E1|]. split; [exact E2|]. cbv zeta in E3. rewrite E3. f_equal. clear E3. set (T := kept n k) in *. set (pos := fun f b => cart cell (x f b)) in *.
    rewrite (uniform_square axes natoms k pos _ _ T vel 0 (m - 1) U) by lia. set (V := average (map (fun i => sqlen axes (vel i)) (p_indices p))).
    assert (P : (0 < INR (T - m + 1))%R) by (apply lt_0_INR; lia). rewrite Nat.sub_0_r.
    assert (E : (INR (T - m) * true_msd axes natoms k pos (p_indices p) (p_drift_indices p) T m = INR (T - m) * (INR m * INR m * V))%R).
    { destruct (Nat.eq_dec (T - m) 0) as [->|N]; [cbn [INR]; ring|]. f_equal. unfold true_msd, tab.
      rewrite (map_ext_in _ (fun _ => (INR m * INR m * V)%R)); [apply average_const; destruct (T - m); [lia|discriminate]|].
      intros l Hl. apply in_seq in Hl. rewrite (uniform_square axes natoms k pos _ _ T vel l (l + m) U) by lia. replace (l + m - l) with m by lia. reflexivity. }
    rewrite E. rewrite plus_INR in *. rewrite (minus_INR m 1) by lia. cbn [INR] in *. field. lra.
  Qed.
  (** The slope. *)
  Lemma misfit_bound dt y c B : length dt = length y -> (forall i, i < length dt -> (Rabs (vec_entry y i - c) <= B)%R) -> (misfit dt y 0 c <= INR (length dt) * (B * B))%R.
  Proof.
    intros L H. unfold misfit. replace (INR (length dt) * (B * B))%R with (sumto (length dt) (fun _ => B * B)%R).
    - apply ProofsCov.sumto_le. intros i Hi. specialize (H i Hi). rewrite Rmult_0_l, Rplus_0_l. rewrite <- (Rabs_pos_eq ((vec_entry y i - c) * (vec_entry y i - c))) by exact (Rle_0_sqr (vec_entry y i - c)). rewrite Rabs_mult.
      apply Rmult_le_compat; try exact H; apply Rabs_pos.
    - generalize (length dt). intros k. induction k as [|k IH]; [cbn; lra|]. rewrite S_INR. cbn [sumto]. rewrite IH. lra.
  Qed.
  Lemma C112_slope_proof dt y (ld : R) w (kappa g c B : R) : length dt = length y -> 0 < length dt -> sound_weights w (length dt) kappa -> (0 <= kappa)%R -> most_likely (log_likelihood dt y ld w) [g; c] ->
    (forall v, In v y -> (0 <= v <= B)%R) -> (g * g * time_spread dt <= kappa * (B * B / 4))%R.
  Proof.
    intros L L0 W K M H. pose proof (C100_slope_proof dt y ld w kappa g c 0 (B / 2) L W M (Rle_refl 0)) as S. rewrite Rminus_0_r in S.
    assert (Q : (misfit dt y 0 (B / 2) <= INR (length dt) * (B / 2 * (B / 2)))%R).
    { apply misfit_bound; [exact L|]. intros i Hi. assert (V := H (vec_entry y i) ltac:(apply nth_In; lia)). apply Rabs_le. lra. }
    assert (P : (0 < INR (length dt))%R) by (now apply lt_0_INR). apply (Rmult_le_compat_l kappa) in Q; [|exact K]. unfold time_spread.
    apply (Rmult_le_reg_r (INR (length dt))); [exact P|]. unfold Rdiv at 1. replace (g * g * (variation dt * / INR (length dt)) * INR (length dt))%R with (g * g * variation dt)%R by (field; lra). lra.
  Qed.
  Lemma C112_slope_origin_proof dt y (ld : R) w (kappa g B : R) : length dt = length y -> 0 < length dt -> sound_weights w (length dt) kappa -> (0 <= kappa)%R -> most_likely (log_likelihood dt y ld w) [g] ->
    (forall v, In v y -> (0 <= v <= B)%R) -> (g * g * time_square dt <= kappa * (B * B))%R.
  Proof.
    intros L L0 W K M H. pose proof (C100_slope1_proof dt y ld w kappa g 0 L W M (Rle_refl 0)) as S. rewrite Rminus_0_r in S.
    assert (Q : (misfit dt y 0 0 <= INR (length dt) * (B * B))%R).
    { apply misfit_bound; [exact L|]. intros i Hi. assert (V := H (vec_entry y i) ltac:(apply nth_In; lia)). apply Rabs_le. lra. }
    assert (P : (0 < INR (length dt))%R) by (now apply lt_0_INR). apply (Rmult_le_compat_l kappa) in Q; [|exact K]. unfold time_square.
    apply (Rmult_le_reg_r (INR (length dt))); [exact P|]. unfold Rdiv at 1. replace (g * g * (variation_origin dt * / INR (length dt)) * INR (length dt))%R with (g * g * variation_origin dt)%R by (field; lra). lra.
  Qed.
  Lemma skipn_reported (an : Analyzer R) r (dt y : list R) (lo hi : R) : skipn r (b_dt (an_diff an)) = dt -> skipn r (b_n (an_diff an)) = y -> length dt = length y ->
    (forall j t v, nth_error (b_dt (an_diff an)) j = Some t -> nth_error (b_n (an_diff an)) j = Some v -> (lo <= v <= hi)%R) -> forall v, In v y -> (lo <= v <= hi)%R.
  Proof.
    intros Ed Ey L H v Hv. apply In_nth_error in Hv as [j Hj]. assert (Lj : j < length y) by (apply nth_error_Some; congruence).
    destruct (nth_error dt j) as [t|] eqn:Et; [|apply nth_error_None in Et; lia]. subst dt y. rewrite nth_error_skipn in Et, Hj. exact (H _ _ _ Et Hj).
  Qed.
  Lemma C112_fit_proof i circ cell types vol n natoms k x a p u axes g an g' (r : R) from dt y (ld : R) w (kappa slope icept : R) :
    faithful_read i circ cell types vol n natoms k x a p -> (0 < u_sub_sample_dt u)%Z -> u_block u = false -> names (pystr_text (u_dimension u)) axes ->
    caged axes natoms k (fun f b => cart cell (x f b)) (p_indices p) (p_drift_indices p) (kept n k) r ->
    diffusion_analyzer X (of_parsed p) u g = Ok (an, g') -> skipn from (b_dt (an_diff an)) = dt -> skipn from (b_n (an_diff an)) = y ->
    length dt = length y -> 0 < length dt -> sound_weights w (length dt) kappa -> (0 <= kappa)%R ->
    (most_likely (log_likelihood dt y ld w) [slope; icept] -> (slope * slope * time_spread dt <= kappa * (r * r * (r * r) / 4))%R)
    /\ (most_likely (log_likelihood dt y ld w) [slope] -> (slope * slope * time_square dt <= kappa * (r * r * (r * r)))%R).
  Proof.
    intros F Hk Hb Hn C H Ed Ey L L0 W K.
    assert (Y := skipn_reported an from dt y 0 (r * r) Ed Ey L (C112_msd_proof _ _ _ _ _ _ _ _ _ _ _ _ _ _ _ _ _ F Hk Hb Hn C H)). split; intros M.
    - exact (C112_slope_proof dt y ld w kappa slope icept (r * r) L L0 W K M Y).
    - exact (C112_slope_origin_proof dt y ld w kappa slope (r * r) L L0 W K M Y).
  Qed.
End Cage.

(** ** A vibrating and a moving atom *)
Definition vibration (f : nat) : R := if Nat.even f then 0%R else (1 / 10)%R.
Lemma vibration_gentle : gentle vibration.
Proof. intros f. unfold vibration. rewrite Nat.even_succ, <- Nat.negb_even. destruct (Nat.even f); cbn [negb]; lra. Qed.
Lemma walk_move s f g : relative_displacement 2 (fun f b => cart unit_cell (walk s f b)) [1%Z] (site 2 0) (f * 1) (g * 1) = mkV (s g - s f)%R 0%R 0%R.
Proof.
  rewrite !Nat.mul_1_r. change (site 2 0) with 0. unfold relative_displacement, average3. cbn [map]. change (site 2 1) with 1. unfold average.
  cbn [walk zero3 cart unit_cell minus3 vx vy vz length map rsum fold_right]. cbn. unfold minus3, cart, dot. cbn. f_equal; field.
Qed.
Lemma C112_example_proof : forall G Seed RS (X : Ext R G Seed RS) circ (g : G), exists p an q bn y,
  faithful_read Ase circ unit_cell ["Li"; "O"]%string 1%R 4 2 1 (walk vibration) walk_params p
  /\ caged all_axes 2 1 (fun f b => cart unit_cell (walk vibration f b)) (p_indices p) (p_drift_indices p) (kept 4 1) (1 / 10)
  /\ diffusion_analyzer X (of_parsed p) (demo_boot 1 "xyz") g = Ok (an, g) /\ b_n (an_diff an) = y /\ b_dt (an_diff an) = [1; 2]%R /\ length y = 2
  /\ sound_weights unit2 2 1 /\ (exists s c, most_likely (log_likelihood [1; 2]%R y 0%R unit2) [s; c])
  /\ faithful_read Ase circ unit_cell ["Li"; "O"]%string 1%R 4 2 1 (walk ProofsTrue.steady) walk_params q
  /\ uniform_motion 2 1 (fun f b => cart unit_cell (walk ProofsTrue.steady f b)) (p_indices q) (p_drift_indices q) (kept 4 1) (fun _ => mkV (1 / 10) 0 0)%R
  /\ diffusion_analyzer X (of_parsed q) (demo_boot 1 "xyz") g = Ok (bn, g) /\ b_dt (an_diff bn) = [1; 2]%R.
Proof.
  intros G Seed RS X circ g. destruct (walk_run G Seed RS X circ g vibration vibration_gentle) as (p & an & W). destruct (walk_run G Seed RS X circ g ProofsTrue.steady steady_gentle) as (q & bn & W2).
  exists p, an, q, bn, (b_n (an_diff an)). destruct (walked_values X circ g vibration p an W) as [V1 V2]. destruct W as (F & E1 & E2 & E3 & H & Ht). destruct W2 as (F2 & D1 & D2 & D3 & H2 & Ht2).
  assert (LY : length (b_n (an_diff an)) = 2).
  { pose proof H as H'. unfold diffusion_analyzer in H'. inv_bind H' pr E. destruct pr as [b g1]. injection H' as <- <-. cbn [an_diff] in *.
    destruct (msd_run X (demo_boot 1 "xyz") _ _ _ _ _ _ eq_refl E) as (axes & shown & _ & _ & _ & _ & _ & HR).
    rewrite (br_n _ _ _ _ _ _ _ _ _ _ HR eq_refl), map_length, <- (br_dt_len _ _ _ _ _ _ _ _ _ _ HR), Ht. reflexivity. }
  split; [exact F|]. split.
  { intros i f f' Hi Hf. rewrite E2 in Hi. destruct Hi as [<-|[]]. rewrite E3, walk_move. unfold sqlen, all_axes, vibration. cbn [map rsum fold_right coord vx vy vz].
    destruct (Nat.even f), (Nat.even f'); lra. }
  split; [exact H|]. split; [reflexivity|]. split; [exact Ht|]. split; [exact LY|]. split; [exact unit2_sound|]. split.
  { destruct (b_n (an_diff an)) as [|y0 [|y1 [|]]]; try discriminate LY. do 2 eexists. apply two_best. }
  split; [exact F2|]. split; [|split; [exact H2|exact Ht2]].
  intros i f f' Hi Hf. rewrite D2 in Hi. destruct Hi as [<-|[]]. rewrite D3, walk_move. unfold ProofsTrue.steady, scale3. cbn [vx vy vz]. rewrite minus_INR by lia. f_equal; field.
Qed.
