(** * ProofsFitErr2: the fitted slopes of ever longer simulations and the example of C100 *)
From Verif Require Import Base Spec SpecParser SpecStats SpecRun SpecFit SpecGls SpecTrue SpecPool SpecColl SpecMarkov SpecCalib SpecIdeal SpecLong SpecFitErr
  ModelParser ModelDiffusion ModelHdf ModelAnalyzer Lemmas
  ProofsDisp ProofsCov ProofsFit2 ProofsGls ProofsTraj ProofsStats ProofsMarkov ProofsTrue ProofsColl ProofsPool ProofsCollective ProofsCalib ProofsIdeal ProofsLong ProofsLong2 ProofsFitErr.
From Coq Require Import Reals Lra Lia Psatz.
Open Scope nat_scope.

Section Reports.
  Context {G Seed RS : Type} (X : Ext R G Seed RS) {E : Type} (es : list E) (wt : E -> R) (x : E -> nat -> nat -> V3 R) (p : E -> Parsed R) (an : E -> Analyzer R)
    (dt : list R) (y : E -> list R) (ld : E -> R) (w : E -> list (list R)) (slope icept : E -> R) (kappa g0 c0 : R).
  Notation fitted := (forall e, In e es -> length dt = length (y e) /\ sound_weights (w e) (length dt) kappa /\ most_likely (log_likelihood dt (y e) (ld e) (w e)) [slope e; icept e]).
  Notation data r sub ms := (forall e, In e es -> skipn r (b_dt (an_diff (an e))) = dt /\ skipn r (b_n (an_diff (an e))) = y e
       /\ forall j, j < length dt -> nth_error (p_intervals (p e)) ((r + j) * sub) = Some (Z.of_nat (nth j ms 0))).
  Lemma slopes_within r sub ms (run : E -> Prop) T gap M s2 : probabilities es wt -> (forall e, In e es -> run e) -> data r sub ms -> fitted ->
    (0 <= g0)%R -> (0 < variation dt)%R -> straight M ms dt g0 c0 ->
    (forall j (v : E -> R), j < length dt -> (forall e, In e es -> run e /\ exists t, nth_error (b_dt (an_diff (an e))) (r + j) = Some t /\ nth_error (b_n (an_diff (an e))) (r + j) = Some (v e)
       /\ nth_error (p_intervals (p e)) ((r + j) * sub) = Some (Z.of_nat (nth j ms 0))) ->
       within_square es wt v (M (nth j ms 0)) (allowance T (nth j ms 0) gap M s2)) ->
    within_square es wt slope g0 (kappa * allowances T ms gap M s2 / variation dt).
  Proof.
    intros W Rn D F G0 HV (SL & ST) K. unfold allowances. rewrite SL.
    apply (C100_runs_proof es wt dt y ld w kappa slope icept g0 c0); try assumption.
    intros j Hj. rewrite <- ST by exact Hj. apply (K j); [exact Hj|]. intros e He. split; [now apply Rn|].
    destruct (D e He) as (D1 & D2 & D3). destruct (F e He) as (F1 & _). exists (vec_entry dt j). split; [now apply skipn_entry|]. split; [|now apply D3].
    apply skipn_entry; [exact D2|lia].
  Qed.
  Lemma C100_msd_proof i circ cell types vol n natoms k a u axes r ms m gap (M : nat -> R) (s2 : R) :
    probabilities es wt -> (forall e, In e es -> faithful_read i circ cell types vol n natoms k (x e) a (p e)) ->
    (0 < u_sub_sample_dt u)%Z -> u_block u = false -> names (pystr_text (u_dimension u)) axes ->
    (forall e, In e es -> exists g g', diffusion_analyzer X (of_parsed (p e)) u g = Ok (an e, g')) ->
    data r (Z.to_nat (u_sub_sample_dt u)) ms -> fitted ->
    (forall l, In l ms -> l <= m) ->
    steady_windows es wt (fun e => square_between axes natoms k (fun f b => cart cell (x e f b)) (p_indices (p e)) (p_drift_indices (p e))) (kept n k) m gap M s2 ->
    (0 <= g0)%R -> (0 < variation dt)%R -> straight M ms dt g0 c0 ->
    within_square es wt slope g0 (kappa * allowances (kept n k) ms gap M s2 / variation dt).
  Proof.
    intros W F Hk Hb Hn Rn D Fi Hm S G0 HV ST. apply (slopes_within r (Z.to_nat (u_sub_sample_dt u)) ms _ (kept n k) gap M s2 W Rn D Fi G0 HV ST).
    intros j v Hj H. apply (C99_msd_proof X es wt x p an v i circ cell types vol n natoms k a u axes (r + j) (nth j ms 0) gap M s2 W F Hk Hb Hn).
    - intros e He. destruct (H e He) as ((g & g' & R1) & t & R2). exists g, g', t. now split.
    - apply (steady_smaller es wt _ _ m); [|exact S]. apply Hm. apply nth_In. rewrite (proj1 ST). exact Hj.
  Qed.
  Lemma C100_mstd_proof i circ cell types vol n natoms k a u axes r ms m gap (M : nat -> R) (s2 : R) :
    probabilities es wt -> (forall e, In e es -> faithful_read i circ cell types vol n natoms k (x e) a (p e)) ->
    (0 < u_sub_sample_dt u)%Z -> u_block u = false -> names (pystr_text (u_dimension u)) axes ->
    (forall e, In e es -> exists g g', jump_diffusion_analyzer X (of_parsed (p e)) u g = Ok (an e, g')) ->
    data r (Z.to_nat (u_sub_sample_dt u)) ms -> fitted ->
    (forall l, In l ms -> l <= m) ->
    steady_windows es wt (fun e => total_between axes natoms k (fun f b => cart cell (x e f b)) (p_indices (p e)) (p_drift_indices (p e))) (kept n k) m gap M s2 ->
    (0 <= g0)%R -> (0 < variation dt)%R -> straight M ms dt g0 c0 ->
    within_square es wt slope g0 (kappa * allowances (kept n k) ms gap M s2 / variation dt).
  Proof.
    intros W F Hk Hb Hn Rn D Fi Hm S G0 HV ST. apply (slopes_within r (Z.to_nat (u_sub_sample_dt u)) ms _ (kept n k) gap M s2 W Rn D Fi G0 HV ST).
    intros j v Hj H. apply (C99_mstd_proof X es wt x p an v i circ cell types vol n natoms k a u axes (r + j) (nth j ms 0) gap M s2 W F Hk Hb Hn).
    - intros e He. destruct (H e He) as ((g & g' & R1) & t & R2). exists g, g', t. now split.
    - apply (steady_smaller es wt _ _ m); [|exact S]. apply Hm. apply nth_In. rewrite (proj1 ST). exact Hj.
  Qed.
  Lemma C100_mscd_proof i circ cell types vol n natoms k a q u r ms m gap (M : nat -> R) (s2 : R) :
    probabilities es wt -> (forall e, In e es -> faithful_read i circ cell types vol n natoms k (x e) a (p e)) ->
    (0 < u_sub_sample_dt u)%Z -> u_block u = false -> (forall e l, In e es -> q = QArray l -> length l = length (p_indices (p e))) ->
    (forall e, In e es -> exists g g', conductivity_analyzer X (of_parsed (p e)) q u g = Ok (an e, g')) ->
    data r (Z.to_nat (u_sub_sample_dt u)) ms -> fitted ->
    (forall l, In l ms -> l <= m) ->
    steady_windows es wt (fun e => charge_between (charges q (length (p_indices (p e)))) natoms k (fun f b => cart cell (x e f b)) (p_indices (p e)) (p_drift_indices (p e))) (kept n k) m gap M s2 ->
    (0 <= g0)%R -> (0 < variation dt)%R -> straight M ms dt g0 c0 ->
    within_square es wt slope g0 (kappa * allowances (kept n k) ms gap M s2 / variation dt).
  Proof.
    intros W F Hk Hb Hq Rn D Fi Hm S G0 HV ST. apply (slopes_within r (Z.to_nat (u_sub_sample_dt u)) ms _ (kept n k) gap M s2 W Rn D Fi G0 HV ST).
    intros j v Hj H. apply (C99_mscd_proof X es wt x p an v i circ cell types vol n natoms k a q u (r + j) (nth j ms 0) gap M s2 W F Hk Hb Hq).
    - intros e He. destruct (H e He) as ((g & g' & R1) & t & R2). exists g, g', t. now split.
    - apply (steady_smaller es wt _ _ m); [|exact S]. apply Hm. apply nth_In. rewrite (proj1 ST). exact Hj.
  Qed.
  (** Random walks. *)
  Lemma C100_walk_proof i circ cell types vol n natoms k a u axes r ms tau N s C (q : R) :
    probabilities es wt -> (forall e, In e es -> faithful_read i circ cell types vol n natoms k (x e) a (p e)) ->
    (0 < u_sub_sample_dt u)%Z -> u_block u = false -> names (pystr_text (u_dimension u)) axes ->
    (forall e, In e es -> exists g g', diffusion_analyzer X (of_parsed (p e)) u g = Ok (an e, g')) ->
    data r (Z.to_nat (u_sub_sample_dt u)) ms -> fitted ->
    (forall l, In l ms -> 0 < l) -> length ms = length dt -> (0 < tau)%R -> (forall j, j < length dt -> vec_entry dt j = (tau * INR (nth j ms 0%nat))%R) ->
    0 < N -> 1 < kept n k -> (forall e, In e es -> length (p_indices (p e)) = N) ->
    (forall e c f l, In e es -> c < N -> f + l < kept n k ->
       move_of natoms k (fun f b => cart cell (x e f b)) (p_indices (p e)) (p_drift_indices (p e)) c f (f + l) = net (s e) c f l) ->
    independent_steps es wt s -> unbiased_steps es wt s N (kept n k - 1) -> second_moments es wt s N (kept n k - 1) C -> fourth_below es wt s N (kept n k - 1) axes q ->
    (0 < variation dt)%R ->
    within_square es wt slope (trace_of axes C / tau)%R
      (kappa * sumto (length dt) (fun j => walk_spread axes C q (nth j ms 0%nat) * (2 * INR (nth j ms 0%nat) - 1) / (INR N * INR (kept n k - nth j ms 0%nat + 1))
        + trace_of axes C / INR (kept n k - nth j ms 0%nat + 1) * (trace_of axes C / INR (kept n k - nth j ms 0%nat + 1))) / variation dt)%R.
  Proof.
    intros W F Hk Hb Hn Rn D Fi Hm SL Ht ST HN HT HL HO HI HU HC HF HV.
    apply (C100_runs_proof es wt dt y ld w kappa slope icept (trace_of axes C / tau)%R 0%R); try assumption.
    - apply Rmult_le_pos; [|left; now apply Rinv_0_lt_compat].
      rewrite <- (step_square es wt (proj1 W) s axes N (kept n k - 1) C HC 0 0 HN ltac:(lia)).
      apply Rle_trans with (mean_over es wt (fun _ => 0%R)); [rewrite mean_const by exact (proj1 W); lra|].
      apply mean_le; [exact W|]. intros e He. unfold sqlen. apply sum_nonneg. intros c. apply Rle_0_sqr.
    - intros j Hj. rewrite ST by exact Hj. replace (trace_of axes C / tau * (tau * INR (nth j ms 0%nat)) + 0)%R with (INR (nth j ms 0%nat) * trace_of axes C)%R by (field; lra).
      apply (C99_walk_proof X es wt x p an (fun e => vec_entry (y e) j) i circ cell types vol n natoms k a u axes (r + j) (nth j ms 0) N s C q W F Hk Hb Hn); try assumption.
      + intros e He. destruct (Rn e He) as (g & g' & R1). destruct (D e He) as (D1 & D2 & D3). destruct (Fi e He) as (F1 & _).
        exists g, g', (vec_entry dt j). split; [exact R1|]. split; [now apply skipn_entry|]. split; [apply skipn_entry; [exact D2|lia]|now apply D3].
      + apply Hm. apply nth_In. lia.
  Qed.
End Reports.

(** ** Long enough *)
Lemma allowances_small ms gap (s2 B eps : R) : (0 <= s2)%R -> (0 < eps)%R -> exists T0, forall T M, T0 <= T -> (forall l, In l ms -> (Rabs (M l - M (l - 1)%nat) <= B)%R) ->
  (allowances T ms gap M s2 <= eps)%R.
Proof.
  intros Hs. revert eps. induction ms as [|l ms IH]; intros eps He.
  - exists 0. intros. cbn. lra.
  - destruct (IH (eps / 2)%R ltac:(lra)) as [T1 H1]. destruct (allowance_small l gap s2 B 1 (eps / 2) Hs ltac:(lra) ltac:(lra)) as [T2 H2].
    exists (T1 + T2). intros T M HT HB. unfold allowances. cbn [length]. rewrite sumto_first. cbn [nth].
    specialize (H1 T M ltac:(lia) ltac:(intros; apply HB; now right)). specialize (H2 T M ltac:(lia) ltac:(apply HB; now left)). unfold allowances in H1. lra.
Qed.
Lemma slope_long_enough ms gap (s2 B kappa V d eps : R) : (0 <= s2)%R -> (0 <= kappa)%R -> (0 < V)%R -> (0 < d)%R -> (0 < eps)%R -> exists T0, forall E (es : list E) wt slope g0 T dt M,
  within_square es wt slope g0 (kappa * allowances T ms gap M s2 / variation dt) -> (V <= variation dt)%R -> T0 <= T -> (forall l, In l ms -> (Rabs (M l - M (l - 1)%nat) <= B)%R) ->
  (chance_beyond es wt slope g0 d <= eps)%R.
Proof.
  intros Hs Hk HV Hd He. assert (D2 : (0 < d * d)%R) by now apply Rmult_lt_0_compat.
  destruct (allowances_small ms gap s2 B (eps * (d * d) * V / (kappa + 1))%R Hs) as [T0 H].
  { apply Rmult_lt_0_compat; [now repeat apply Rmult_lt_0_compat|]. apply Rinv_0_lt_compat. lra. }
  exists T0. intros E es wt slope g0 T dt M [_ HW] HVd HT HB. specialize (H T M HT HB). apply Rle_trans with (1 := HW d Hd).
  apply Rmult_le_reg_r with (d * d)%R; [exact D2|]. unfold Rdiv at 1. rewrite Rmult_assoc, Rinv_l, Rmult_1_r by lra.
  apply Rmult_le_reg_r with (variation dt); [lra|]. unfold Rdiv at 1. rewrite Rmult_assoc, Rinv_l, Rmult_1_r by lra.
  apply Rle_trans with (eps * (d * d) * V)%R; [|apply Rmult_le_compat_l; [left; now repeat apply Rmult_lt_0_compat|exact HVd]].
  apply Rle_trans with (kappa * (eps * (d * d) * V / (kappa + 1)))%R; [now apply Rmult_le_compat_l|].
  apply Rmult_le_reg_r with (kappa + 1)%R; [lra|]. replace (kappa * (eps * (d * d) * V / (kappa + 1)) * (kappa + 1))%R with (kappa * (eps * (d * d) * V))%R by (field; lra).
  assert (0 < eps * (d * d) * V)%R by now repeat apply Rmult_lt_0_compat. lra.
Qed.
