(** * ProofsFitErr: how far a fitted line is from the true one (C100) *)
From Verif Require Import Base Spec SpecParser SpecStats SpecRun SpecFit SpecGls SpecTrue SpecPool SpecColl SpecMarkov SpecCalib SpecIdeal SpecLong SpecFitErr
  ModelParser ModelDiffusion ModelHdf ModelAnalyzer Lemmas
  ProofsDisp ProofsCov ProofsFit2 ProofsGls ProofsTraj ProofsMarkov ProofsTrue ProofsColl ProofsPool ProofsCollective ProofsCalib ProofsIdeal ProofsLong.
From Coq Require Import Reals Lra Lia Psatz.
Open Scope nat_scope.

(** ** The fitted line minimises a convex function on the half plane of slopes that are not negative *)
Lemma parabola (q0 b I : R) : (0 <= I)%R -> (0 <= q0 + 2 * b + I)%R ->
  (forall s, (0 <= s <= 1)%R -> (q0 + 2 * b + I <= q0 + 2 * (s * b) + s * s * I)%R) -> (I <= q0)%R.
Proof.
  intros HI H1 H. assert (B : (b <= - I)%R).
  { destruct (Rle_or_lt b (- I)) as [L|L]; [exact L|exfalso].
    set (d := (b + I)%R) in *. assert (D : (0 < d)%R) by (unfold d; lra).
    set (s := (1 - d / (d + I + 1))%R). assert (P : (0 < d + I + 1)%R) by lra.
    assert (S0 : (0 < d / (d + I + 1))%R) by (apply Rmult_lt_0_compat; [lra|now apply Rinv_0_lt_compat]).
    assert (S1 : (d / (d + I + 1) <= 1)%R).
    { apply Rmult_le_reg_r with (d + I + 1)%R; [exact P|]. unfold Rdiv. rewrite Rmult_assoc, Rinv_l; lra. }
    specialize (H s ltac:(unfold s; lra)). set (t := (d / (d + I + 1))%R) in *. replace s with (1 - t)%R in H by reflexivity.
    assert (E : (t * (d + I + 1) = d)%R) by (unfold t; field; lra).
    assert (Q : (2 * (t * b) + (2 * t - t * t) * I <= 0)%R) by lra. replace b with (d - I)%R in Q by (unfold d; ring).
    assert (Q' : (t * (2 * d - t * I) <= 0)%R) by lra.
    assert ((0 < 2 * d - t * I)%R) by nra. pose proof (Rmult_lt_0_compat _ _ S0 H0). lra. }
  lra.
Qed.
Definition step_line (dt : list R) (a b : R) : list R := zip_with Rplus (map (Rmult a) dt) (map (Rmult b) (ones (length dt))).
Lemma step_length dt a b : length (step_line dt a b) = length dt.
Proof. unfold step_line. rewrite zip_with_length, !map_length, ones_length. lia. Qed.
Lemma step_scaled dt a b s : step_line dt (s * a) (s * b) = map (Rmult s) (step_line dt a b).
Proof.
  apply (nth_ext _ _ 0%R 0%R); [now rewrite map_length, !step_length|]. rewrite step_length. intros i Hi.
  rewrite (nth_map_lt _ _ i 0%R) by (now rewrite step_length).
  pose proof (line_entry dt (s * a) (s * b) i Hi) as E1. pose proof (line_entry dt a b i Hi) as E2. unfold vec_entry in E1, E2. unfold step_line. rewrite E1, E2. ring.
Qed.
Lemma norm_residuals dt y g c : length dt = length y -> norm2 (residuals dt y g c) = misfit dt y g c.
Proof.
  intros HL. unfold norm2, misfit. rewrite residuals_length by exact HL. rewrite HL. apply sumto_ext. intros i Hi.
  assert (E : vec_entry (residuals dt y g c) i = (g * vec_entry dt i + c - vec_entry y i)%R).
  { unfold vec_entry, residuals. rewrite (nth_map_lt _ _ i (0,0)%R) by (rewrite combine_length; lia). rewrite combine_nth by exact HL. reflexivity. }
  rewrite E. ring.
Qed.
Lemma norm_step dt a b : norm2 (step_line dt a b) = sumto (length dt) (fun i => (a * vec_entry dt i + b) * (a * vec_entry dt i + b))%R.
Proof. unfold norm2. rewrite step_length. apply sumto_ext. intros i Hi. unfold step_line. rewrite line_entry by exact Hi. reflexivity. Qed.
Lemma condition_semidefinite w n k : sound_weights w n k -> forall x, length x = n -> (0 <= quadratic w x)%R.
Proof.
  intros (Hw & _ & lo & hi & L & _ & H) x Hx. destruct (H x) as [H1 _]; [now rewrite (proj1 Hw)|].
  apply Rle_trans with (2 := H1). apply Rmult_le_pos; [lra|]. unfold norm2. apply sumto_nonneg. intros i _. apply Rle_0_sqr.
Qed.
(** The core: [P s] is the weighted misfit of the line at the fraction [s] of the way from the true to the fitted one. *)
Lemma closer w n k r0 r : sound_weights w n k -> length r0 = n -> length r = n ->
  (forall s, (0 <= s <= 1)%R -> (quadratic w (zip_with Rplus r0 r) <= quadratic w (zip_with Rplus r0 (map (Rmult s) r)))%R) ->
  (norm2 r <= k * norm2 r0)%R.
Proof.
  intros HS H0 H1 H. pose proof (condition_semidefinite w n k HS) as P. destruct HS as (Hw & Hs & lo & hi & L & HC & HB).
  assert (Q : (quadratic w r <= quadratic w r0)%R).
  { apply (parabola _ (bilinear w r0 r)).
    - now apply P.
    - rewrite <- (quadratic_add w n) by assumption. apply P. rewrite zip_with_length. lia.
    - intros s Ss. specialize (H s Ss). rewrite !(quadratic_add w n) in H by (try assumption; now rewrite map_length).
      rewrite (bilinear_scale_r w n) in H by assumption. unfold quadratic in H |- *.
      rewrite bilinear_scale_l, (bilinear_scale_r w n) in H by assumption. lra. }
  destruct (HB r) as [B1 _]; [now rewrite (proj1 Hw)|]. destruct (HB r0) as [_ B2]; [now rewrite (proj1 Hw)|].
  assert (N0 : (0 <= norm2 r0)%R) by (unfold norm2; apply sumto_nonneg; intros i _; apply Rle_0_sqr).
  apply Rmult_le_reg_l with lo; [exact L|]. apply Rle_trans with (hi * norm2 r0)%R; [lra|].
  replace (lo * (k * norm2 r0))%R with (k * lo * norm2 r0)%R by ring. apply Rmult_le_compat_r; assumption.
Qed.
Lemma less_misfit dt y (ld : R) w g c g' c' : length dt = length y -> square w (length dt) ->
  most_likely (log_likelihood dt y ld w) [g; c] -> (0 <= g')%R -> (0 <= g)%R /\ (quadratic w (residuals dt y g c) <= quadratic w (residuals dt y g' c'))%R.
Proof.
  intros HL Hw (l & E & HM) G'. rewrite HL in Hw. destruct (Rle_or_lt 0 g) as [G|G].
  - split; [exact G|]. rewrite ll_two in E by assumption. injection E as <-.
    pose proof (HM [g'; c'] _ eq_refl (ll_two dt y ld w g' c' HL Hw G')). lra.
  - exfalso. rewrite ll_negative in E by exact G. discriminate.
Qed.
Lemma less_misfit1 dt y (ld : R) w g g' : length dt = length y -> square w (length dt) ->
  most_likely (log_likelihood dt y ld w) [g] -> (0 <= g')%R -> (0 <= g)%R /\ (quadratic w (residuals dt y g 0) <= quadratic w (residuals dt y g' 0))%R.
Proof.
  intros HL Hw (l & E & HM) G'. rewrite HL in Hw. destruct (Rle_or_lt 0 g) as [G|G].
  - split; [exact G|]. rewrite ll_one in E by assumption. injection E as <-.
    pose proof (HM [g'] _ eq_refl (ll_one dt y ld w g' HL Hw G')). lra.
  - exfalso. rewrite ll_negative in E by exact G. discriminate.
Qed.
Lemma C100_line_proof dt y (ld : R) w k g c g0 c0 : length dt = length y -> sound_weights w (length dt) k ->
  most_likely (log_likelihood dt y ld w) [g; c] -> (0 <= g0)%R -> (between_lines dt g c g0 c0 <= k * misfit dt y g0 c0)%R.
Proof.
  intros HL HS HM G0. rewrite <- norm_residuals by exact HL.
  replace (between_lines dt g c g0 c0) with (norm2 (step_line dt (g - g0) (c - c0))) by (rewrite norm_step; unfold between_lines; apply sumto_ext; intros; ring).
  apply (closer w (length dt)); [exact HS|rewrite residuals_length by exact HL; now symmetry|apply step_length|]. intros s Ss.
  rewrite <- step_scaled. destruct (less_misfit dt y ld w g c 0 0 HL (proj1 HS) HM (Rle_refl 0)) as [G _].
  destruct (less_misfit dt y ld w g c (g0 + s * (g - g0)) (c0 + s * (c - c0)) HL (proj1 HS) HM) as [_ Q]; [nra|].
  rewrite (residuals_shift dt y g0 c0 g c HL) in Q. rewrite (residuals_shift dt y g0 c0 (g0 + s * (g - g0)) _ HL) in Q.
  replace (g0 + s * (g - g0) - g0)%R with (s * (g - g0))%R in Q by ring. replace (c0 + s * (c - c0) - c0)%R with (s * (c - c0))%R in Q by ring. exact Q.
Qed.
Lemma shift0 dt y g g' : length dt = length y -> residuals dt y g' 0 = zip_with Rplus (residuals dt y g 0) (step_line dt (g' - g) 0).
Proof. intros HL. rewrite (residuals_shift dt y g 0 g' 0 HL). now rewrite Rminus_0_r. Qed.
Lemma C100_line1_proof dt y (ld : R) w k g g0 : length dt = length y -> sound_weights w (length dt) k ->
  most_likely (log_likelihood dt y ld w) [g] -> (0 <= g0)%R -> (between_lines dt g 0 g0 0 <= k * misfit dt y g0 0)%R.
Proof.
  intros HL HS HM G0. rewrite <- norm_residuals by exact HL.
  replace (between_lines dt g 0 g0 0) with (norm2 (step_line dt (g - g0) 0)) by (rewrite norm_step; unfold between_lines; apply sumto_ext; intros; ring).
  apply (closer w (length dt)); [exact HS|rewrite residuals_length by exact HL; now symmetry|apply step_length|]. intros s Ss.
  rewrite <- step_scaled. rewrite Rmult_0_r. destruct (less_misfit1 dt y ld w g 0 HL (proj1 HS) HM (Rle_refl 0)) as [G _].
  destruct (less_misfit1 dt y ld w g (g0 + s * (g - g0)) HL (proj1 HS) HM) as [_ Q]; [nra|].
  rewrite (shift0 dt y g0 g HL) in Q. rewrite (shift0 dt y g0 (g0 + s * (g - g0)) HL) in Q.
  replace (g0 + s * (g - g0) - g0)%R with (s * (g - g0))%R in Q by ring. exact Q.
Qed.
(** From the points of the line to its slope. *)
Lemma slope_share dt a b : ((a * a) * variation dt <= sumto (length dt) (fun i => (a * vec_entry dt i + b) * (a * vec_entry dt i + b)))%R.
Proof.
  destruct dt as [|t0 l] eqn:E0; [cbn; lra|]. rewrite <- E0. assert (Hn : (0 < INR (length dt))%R) by (apply lt_0_INR; rewrite E0; cbn; lia).
  unfold variation. set (n := length dt) in *. set (m := average dt). set (e := (b + a * m)%R).
  rewrite (sumto_ext n (fun i => (a * vec_entry dt i + b) * (a * vec_entry dt i + b))%R (fun i => a * a * ((vec_entry dt i - m) * (vec_entry dt i - m)) + (2 * a * e) * (vec_entry dt i - m) + e * e)%R) by (intros; unfold e; ring).
  rewrite !sumto_plus, !sumto_scale, sumto_minus, !sumto_const.
  assert (Z : (sumto n (vec_entry dt) - INR n * m = 0)%R).
  { unfold m, average. fold n. replace (sumto n (vec_entry dt)) with (rsum dt); [field; lra|].
    rewrite <- (map_nth_seq 0%R dt) at 1. fold n. rewrite ProofsCalib.rsum_sumto. reflexivity. }
  change (fun i => vec_entry dt i) with (vec_entry dt) in *. rewrite Z. pose proof (Rle_0_sqr e) as Q. unfold Rsqr in Q. pose proof (Rmult_le_pos _ _ (Rlt_le _ _ Hn) Q). lra.
Qed.
Lemma C100_slope_proof dt y (ld : R) w k g c g0 c0 : length dt = length y -> sound_weights w (length dt) k ->
  most_likely (log_likelihood dt y ld w) [g; c] -> (0 <= g0)%R -> ((g - g0) * (g - g0) * variation dt <= k * misfit dt y g0 c0)%R.
Proof.
  intros HL HS HM G0. apply Rle_trans with (2 := C100_line_proof dt y ld w k g c g0 c0 HL HS HM G0).
  eapply Rle_trans; [apply (slope_share dt (g - g0) (c - c0))|]. right. unfold between_lines. apply sumto_ext. intros; ring.
Qed.
Lemma C100_slope1_proof dt y (ld : R) w k g g0 : length dt = length y -> sound_weights w (length dt) k ->
  most_likely (log_likelihood dt y ld w) [g] -> (0 <= g0)%R -> ((g - g0) * (g - g0) * variation_origin dt <= k * misfit dt y g0 0)%R.
Proof.
  intros HL HS HM G0. apply Rle_trans with (2 := C100_line1_proof dt y ld w k g g0 HL HS HM G0).
  right. unfold variation_origin, norm2, between_lines. rewrite <- sumto_scale. apply sumto_ext. intros; ring.
Qed.

(** ** Many runs *)
Section Ensemble.
  Context {E : Type} (es : list E) (wt : E -> R).
  Hypothesis W : probabilities es wt.
  Notation M := (mean_over es wt).
  Lemma mean_misfit dt (y : E -> list R) (q : nat -> R) g0 c0 :
    (forall i, i < length dt -> (M (fun e => (vec_entry (y e) i - (g0 * vec_entry dt i + c0)) * (vec_entry (y e) i - (g0 * vec_entry dt i + c0))) <= q i)%R) ->
    (M (fun e => misfit dt (y e) g0 c0) <= sumto (length dt) q)%R.
  Proof. intros H. unfold misfit. rewrite (mean_sumto es wt (length dt) (fun i e => _)). now apply ProofsLong.sumto_le. Qed.
  Lemma slope_within dt (y : E -> list R) k (g : E -> R) g0 c0 V (q : nat -> R) : (0 < V)%R -> (0 <= k)%R ->
    (forall e, In e es -> ((g e - g0) * (g e - g0) * V <= k * misfit dt (y e) g0 c0)%R) ->
    (forall i, i < length dt -> (M (fun e => (vec_entry (y e) i - (g0 * vec_entry dt i + c0)) * (vec_entry (y e) i - (g0 * vec_entry dt i + c0))) <= q i)%R) ->
    within_square es wt g g0 (k * sumto (length dt) q / V).
  Proof.
    intros HV Hk H HQ. apply chebyshev; [exact W|]. apply Rmult_le_reg_r with V; [exact HV|]. unfold Rdiv at 1. rewrite Rmult_assoc, Rinv_l, Rmult_1_r by lra.
    rewrite Rmult_comm, <- mean_scale. apply Rle_trans with (M (fun e => k * misfit dt (y e) g0 c0)%R).
    - apply mean_le; [exact W|]. intros e He. specialize (H e He). lra.
    - rewrite mean_scale. apply Rmult_le_compat_l; [exact Hk|]. now apply mean_misfit.
  Qed.
End Ensemble.
Lemma sound_nonneg w n k : 0 < n -> sound_weights w n k -> (0 <= k)%R.
Proof.
  intros Hn (Hw & _ & lo & hi & L & HC & HB). pose (x := ones n). destruct (HB x) as [H1 H2]; [unfold x; now rewrite ones_length, (proj1 Hw)|].
  assert (N : (0 < norm2 x)%R).
  { unfold norm2, x. rewrite ones_length. rewrite (sumto_ext n _ (fun _ => 1%R)) by (intros i Hi; unfold vec_entry, ones; rewrite (nth_indep _ 0%R 1%R) by (now rewrite repeat_length); rewrite nth_repeat; ring). rewrite sumto_const. rewrite Rmult_1_r. now apply lt_0_INR. }
  assert (lo <= hi)%R by (apply Rmult_le_reg_r with (norm2 x); lra). apply Rmult_le_reg_r with lo; lra.
Qed.
Lemma variation_nonempty dt : (0 < variation dt)%R -> 0 < length dt.
Proof. destruct dt; cbn; [lra|lia]. Qed.
Lemma variation_origin_nonempty dt : (0 < variation_origin dt)%R -> 0 < length dt.
Proof. destruct dt; cbn; [lra|lia]. Qed.
Lemma someone {E} (es : list E) wt : probabilities es wt -> exists e, In e es.
Proof. intros [W _]. destruct es as [|e l]; [cbn in W; lra|]. exists e. now left. Qed.

Lemma C100_runs_proof {E} (es : list E) (wt : E -> R) dt (y : E -> list R) (ld : E -> R) w k (g c : E -> R) g0 c0 (q : nat -> R) : probabilities es wt ->
  (forall e, In e es -> length dt = length (y e) /\ sound_weights (w e) (length dt) k /\ most_likely (log_likelihood dt (y e) (ld e) (w e)) [g e; c e]) ->
  (0 <= g0)%R -> (0 < variation dt)%R ->
  (forall i, i < length dt -> within_square es wt (fun e => vec_entry (y e) i) (g0 * vec_entry dt i + c0)%R (q i)) ->
  within_square es wt g g0 (k * sumto (length dt) q / variation dt).
Proof.
  intros W F G0 HV HQ. destruct (someone es wt W) as [e0 I0].
  apply (slope_within es wt W dt y k g g0 c0); [exact HV| | |].
  - apply (sound_nonneg (w e0) (length dt)); [now apply variation_nonempty|]. now destruct (F e0 I0) as (_ & S & _).
  - intros e He. destruct (F e He) as (H1 & H2 & H3). now apply (C100_slope_proof dt (y e) (ld e) (w e) k (g e) (c e) g0 c0).
  - intros i Hi. apply (HQ i Hi).
Qed.
Lemma C100_runs1_proof {E} (es : list E) (wt : E -> R) dt (y : E -> list R) (ld : E -> R) w k (g : E -> R) g0 (q : nat -> R) : probabilities es wt ->
  (forall e, In e es -> length dt = length (y e) /\ sound_weights (w e) (length dt) k /\ most_likely (log_likelihood dt (y e) (ld e) (w e)) [g e]) ->
  (0 <= g0)%R -> (0 < variation_origin dt)%R ->
  (forall i, i < length dt -> within_square es wt (fun e => vec_entry (y e) i) (g0 * vec_entry dt i + 0)%R (q i)) ->
  within_square es wt g g0 (k * sumto (length dt) q / variation_origin dt).
Proof.
  intros W F G0 HV HQ. destruct (someone es wt W) as [e0 I0].
  apply (slope_within es wt W dt y k g g0 0%R); [exact HV| | |].
  - apply (sound_nonneg (w e0) (length dt)); [now apply variation_origin_nonempty|]. now destruct (F e0 I0) as (_ & S & _).
  - intros e He. destruct (F e He) as (H1 & H2 & H3). now apply (C100_slope1_proof dt (y e) (ld e) (w e) k (g e) g0).
  - intros i Hi. apply (HQ i Hi).
Qed.

(** ** The reported values *)
Lemma steady_smaller {E} (es : list E) wt b T m m' gap M s2 : m' <= m -> steady_windows es wt b T m gap M s2 -> steady_windows es wt b T m' gap M s2.
Proof. intros H [S1 S2 S3]. split; intros; [apply S1|apply S2|apply S3]; lia. Qed.
Lemma nth_error_skipn {T} (l : list T) r i : nth_error (skipn r l) i = nth_error l (r + i).
Proof. revert l. induction r as [|r IH]; intros [|x l]; cbn; try reflexivity; [now destruct i|apply IH]. Qed.
Lemma skipn_entry (l l' : list R) r i : skipn r l = l' -> i < length l' -> nth_error l (r + i) = Some (vec_entry l' i).
Proof. intros <- Hi. rewrite <- nth_error_skipn. now apply nth_error_nth'. Qed.
