(** * ProofsLong: reported displacements of ever longer simulations (C99) *)
From Verif Require Import Base Spec SpecParser SpecStats SpecRun SpecFit SpecGls SpecTrue SpecPool SpecColl SpecMarkov SpecCalib SpecIdeal SpecLong
  ModelParser ModelDiffusion ModelHdf ModelAnalyzer Lemmas
  ProofsDisp ProofsCov ProofsIntervals ProofsWindows ProofsParser ProofsBoot ProofsTraj ProofsStats ProofsStats2 ProofsFit ProofsFit2 ProofsMarkov ProofsTrue ProofsColl ProofsPool ProofsCollective ProofsCalib ProofsIdeal.
From Coq Require Import Reals Lra Lia Psatz.
Open Scope nat_scope.

Lemma sumto_le n f g : (forall i, i < n -> (f i <= g i)%R) -> (sumto n f <= sumto n g)%R.
Proof. induction n as [|n IH]; intros H; [cbn; lra|]. cbn [sumto]. assert (A := H n ltac:(lia)). assert (B := IH ltac:(intros; apply H; lia)). lra. Qed.
Lemma sumto_range K lo hi : sumto K (fun j => if (lo <=? j) && (j <? hi) then 1 else 0)%R = INR (Nat.min K hi - Nat.min K lo).
Proof.
  induction K as [|K IH]; [reflexivity|]. cbn [sumto]. rewrite IH. destruct (Nat.leb_spec lo K), (Nat.ltb_spec K hi); cbn [andb].
  - replace (Nat.min (S K) hi - Nat.min (S K) lo) with (S (Nat.min K hi - Nat.min K lo)) by lia. rewrite S_INR. ring.
  - replace (Nat.min (S K) hi - Nat.min (S K) lo) with (Nat.min K hi - Nat.min K lo) by lia. ring.
  - replace (Nat.min (S K) hi - Nat.min (S K) lo) with (Nat.min K hi - Nat.min K lo) by lia. ring.
  - replace (Nat.min (S K) hi - Nat.min (S K) lo) with (Nat.min K hi - Nat.min K lo) by lia. ring.
Qed.

Lemma weighted_le {E} (es : list E) (wt f g : E -> R) : (forall e, In e es -> (0 <= wt e)%R) -> (forall e, In e es -> (f e <= g e)%R) ->
  (mean_over es wt f <= mean_over es wt g)%R.
Proof.
  intros P H. unfold mean_over. induction es as [|e l IH]; cbn [map]; [lra|]. rewrite !rsum_cons.
  assert (wt e * f e <= wt e * g e)%R by (apply Rmult_le_compat_l; [apply P; now left|apply H; now left]).
  assert (rsum (map (fun e => wt e * f e)%R l) <= rsum (map (fun e => wt e * g e)%R l))%R by (apply IH; intros; [apply P|apply H]; now right). lra.
Qed.
Lemma chance_scaled {E} (es : list E) (wt v : E -> R) c d : (forall e, In e es -> (0 <= wt e)%R) -> (0 < d)%R ->
  (d * d * chance_beyond es wt v c d <= mean_over es wt (fun e => (v e - c) * (v e - c)))%R.
Proof.
  intros P Hd. unfold chance_beyond. rewrite <- rsum_map_scale. unfold mean_over. induction es as [|e l IH]; cbn [map]; [lra|]. rewrite !rsum_cons.
  assert (wt e >= 0)%R by (apply Rle_ge, P; now left). specialize (IH ltac:(intros; apply P; now right)).
  assert (d * d * (if Rlt_dec d (Rabs (v e - c)) then wt e else 0) <= wt e * ((v e - c) * (v e - c)))%R; [|lra].
  destruct (Rlt_dec d (Rabs (v e - c))) as [L|_].
  - assert (d * d <= (v e - c) * (v e - c))%R.
    { replace ((v e - c) * (v e - c))%R with (Rabs (v e - c) * Rabs (v e - c))%R by (rewrite <- Rabs_mult; apply Rabs_pos_eq; apply Rle_0_sqr). apply Rmult_le_compat; lra. }
    nra.
  - pose proof (Rle_0_sqr (v e - c))%R as S0. unfold Rsqr in S0. nra.
Qed.

Section Ensemble.
  Context {E : Type} (es : list E) (wt : E -> R).
  Hypothesis W : probabilities es wt.
  Notation M := (mean_over es wt).
  Notation cov := (covary es wt).
  Let W1 : rsum (map wt es) = 1%R := proj1 W.
  Lemma mean_le f g : (forall e, In e es -> (f e <= g e)%R) -> (M f <= M g)%R.
  Proof.
    apply weighted_le. apply W.
  Qed.
  Lemma cov_bound f g s2 : (spread_over es wt f <= s2)%R -> (spread_over es wt g <= s2)%R -> (cov f g <= s2)%R.
  Proof.
    intros Hf Hg. apply Rle_trans with (1/2 * spread_over es wt f + 1/2 * spread_over es wt g)%R; [|lra].
    unfold covary, spread_over. rewrite <- !mean_scale, <- mean_plus. apply mean_le. intros e _.
    pose proof (Rle_0_sqr ((f e - M f) - (g e - M g)))%R as S0. unfold Rsqr in S0. lra.
  Qed.
  Lemma spread_pos f : (0 <= spread_over es wt f)%R.
  Proof.
    rewrite <- (mean_const es wt 0 W1). apply mean_le. intros e _. apply Rle_0_sqr.
  Qed.
  (** Error about any value: spread plus squared bias. *)
  Lemma mean_square v c : M (fun e => (v e - c) * (v e - c))%R = (spread_over es wt v + (M v - c) * (M v - c))%R.
  Proof.
    unfold spread_over.
    rewrite (mean_ext es wt (fun e => (v e - c) * (v e - c))%R (fun e => (v e - M v) * (v e - M v) + (2 * (M v - c) * v e + (c * c - M v * M v)))%R) by (intros; ring).
    rewrite !mean_plus, mean_scale, (mean_const es wt _ W1). ring.
  Qed.
  Lemma chebyshev v c q : (M (fun e => (v e - c) * (v e - c)) <= q)%R -> within_square es wt v c q.
  Proof.
    intros H. split; [exact H|]. intros d Hd. apply Rmult_le_reg_r with (d * d)%R; [nra|]. unfold Rdiv. rewrite Rmult_assoc, Rinv_l, Rmult_1_r by nra.
    apply Rle_trans with (2 := H). rewrite Rmult_comm. apply chance_scaled; [apply W|exact Hd].
  Qed.
  (** The average of [K] quantities of which only those closer than [r] are correlated. *)
  Lemma average_spread K r (Wd : nat -> E -> R) s2 : 0 < K -> 0 < r -> (forall o, o < K -> (spread_over es wt (Wd o) <= s2)%R) ->
    (forall o o', o + r <= o' -> o' < K -> cov (Wd o) (Wd o') = 0%R) ->
    (spread_over es wt (fun e => / INR K * sumto K (fun o => Wd o e)) <= s2 * (2 * INR r - 1) / INR K)%R.
  Proof.
    intros HK Hr HS HA. assert (Kp : (0 < INR K)%R) by now apply lt_0_INR.
    assert (S0 : (0 <= s2)%R) by (eapply Rle_trans; [apply spread_pos|apply (HS 0 HK)]).
    rewrite spread_covary, covary_scale, covary_comm, covary_scale by exact W1.
    rewrite (covary_sum es wt W1 K Wd).
    assert (B : (sumto K (fun i => cov (Wd i) (fun e => sumto K (fun o => Wd o e))) <= sumto K (fun _ => s2 * (2 * INR r - 1)))%R).
    { apply sumto_le. intros i Hi. rewrite (covary_comm es wt), (covary_sum es wt W1 K Wd).
      apply Rle_trans with (sumto K (fun j => s2 * (if (i + 1 - r <=? j) && (j <? i + r) then 1 else 0)))%R.
      - apply sumto_le. intros j Hj. destruct (Nat.leb_spec (i + 1 - r) j), (Nat.ltb_spec j (i + r)); cbn [andb].
        + rewrite Rmult_1_r. apply cov_bound; apply HS; lia.
        + rewrite (covary_comm es wt), HA by lia. lra.
        + rewrite HA by lia. lra.
        + lia.
      - rewrite sumto_scale, sumto_range. apply Rmult_le_compat_l; [exact S0|].
        assert (L : Nat.min K (i + r) - Nat.min K (i + 1 - r) <= 2 * r - 1) by lia. apply le_INR in L.
        assert (Q : INR (2 * r - 1) = (2 * INR r - 1)%R) by (rewrite minus_INR, mult_INR by lia; cbn [INR]; ring). lra. }
    rewrite sumto_const in B. unfold Rdiv.
    apply Rle_trans with (/ INR K * (/ INR K * (INR K * (s2 * (2 * INR r - 1)))))%R.
    - apply Rmult_le_compat_l; [left; now apply Rinv_0_lt_compat|]. apply Rmult_le_compat_l; [left; now apply Rinv_0_lt_compat|]. exact B.
    - right. field. lra.
  Qed.
  (** What is reported: the average over the windows of [m] frames and one of [m-1]. *)
  Lemma steady_bound (b : E -> nat -> nat -> R) T m gap Mf s2 (v : E -> R) : 0 < m <= T -> steady_windows es wt b T m gap Mf s2 ->
    (forall e, In e es -> v e = ((INR (T - m) * over_time T m (b e) + b e 0%nat (m - 1)%nat) / INR (T - m + 1))%R) ->
    within_square es wt v (Mf m) (allowance T m gap Mf s2).
  Proof.
    intros Hm [S1 S2 S3] Hv. set (K := (T - m + 1)).
    set (Wd := fun o e => match o with O => b e 0 (m - 1) | S j => b e j (j + m) end).
    assert (Kp : (0 < INR K)%R) by (apply lt_0_INR; unfold K; lia).
    assert (Ev : forall e, In e es -> v e = (/ INR K * sumto K (fun o => Wd o e))%R).
    { intros e He. rewrite (Hv e He). fold K. unfold Rdiv. rewrite (Rmult_comm _ (/ INR K)). f_equal. unfold K. rewrite Nat.add_1_r. rewrite <- ProofsCalib.rsum_sumto.
      rewrite <- cons_seq, <- seq_shift. cbn [map]. rewrite map_map, rsum_cons. cbn [Wd]. unfold over_time, average, tab. rewrite map_length, seq_length.
      destruct (T - m) as [|q] eqn:Eq; [cbn; ring|]. field. apply not_0_INR. lia. }
    assert (MW : forall o, o < K -> M (Wd o) = match o with O => Mf (m - 1) | S _ => Mf m end).
    { intros [|o] Ho; cbn [Wd]; [apply (S1 0 (m - 1)); lia|apply S1; unfold K in Ho; lia]. }
    assert (Bias : (M v - Mf m = - ((Mf m - Mf (m - 1)%nat) / INR K))%R).
    { rewrite (mean_ext es wt v _ Ev), mean_scale, (mean_sumto es wt K Wd). rewrite (sumto_ext K _ (fun o => match o with O => Mf (m - 1)%nat | S _ => Mf m end)) by exact MW.
      unfold K. rewrite Nat.add_1_r, <- ProofsCalib.rsum_sumto, <- cons_seq, <- seq_shift. cbn [map]. rewrite map_map, rsum_cons, rsum_const, seq_length, S_INR.
      assert (0 <= INR (T - m))%R by apply pos_INR. field. lra. }
    assert (Sp : (spread_over es wt v <= s2 * (2 * INR (m + gap) - 1) / INR K)%R).
    { rewrite spread_covary, (covary_ext es wt W1 v _ v _ Ev Ev), <- spread_covary. apply average_spread; [unfold K; lia|lia| |].
      - intros [|o] Ho; cbn [Wd]; [apply (S2 0 (m - 1)); lia|apply S2; unfold K in Ho; lia].
      - intros o [|o'] H H'; [lia|]. unfold K in H'. destruct o as [|o]; cbn [Wd].
        + apply (S3 0 (m - 1) o' m); lia.
        + apply S3; lia. }
    apply chebyshev. rewrite mean_square, Bias. unfold allowance. fold K. lra.
  Qed.
  (** Averages over uncorrelated atoms. *)
  Lemma steady_average (own : nat -> E -> nat -> nat -> R) N T m gap Mf s2 : 0 < N -> steady_atoms es wt own N T m gap Mf s2 ->
    steady_windows es wt (fun e f g => / INR N * sumto N (fun c => own c e f g))%R T m gap Mf (s2 / INR N).
  Proof.
    intros HN [A1 A2]. assert (Np : (0 < INR N)%R) by now apply lt_0_INR. split.
    - intros f l H1 H2. rewrite mean_scale, (mean_sumto es wt N (fun c e => own c e f (f + l))).
      rewrite (sumto_ext N _ (fun _ => Mf l)) by (intros c Hc; now apply (st_mean _ _ _ _ _ _ _ _ (A1 c Hc))). rewrite sumto_const. field. lra.
    - intros f l H1 H2. pose proof (average_spread N 1 (fun c e => own c e f (f + l)) s2 HN ltac:(lia)) as Q. cbn beta in Q. cbn [INR] in Q.
      replace (s2 * (2 * 1 - 1) / INR N)%R with (s2 / INR N)%R in Q by (unfold Rdiv; ring). apply Q.
      + intros c Hc. now apply (st_spread _ _ _ _ _ _ _ _ (A1 c Hc)).
      + intros c c' H H'. apply A2; lia.
    - intros f l f' l' H1 H2 H3 H4. rewrite covary_scale, covary_comm, covary_scale by exact W1.
      rewrite (covary_sum es wt W1 N (fun c e => own c e f' (f' + l'))). rewrite (sumto_zero N); [ring|]. intros c Hc.
      rewrite covary_comm, (covary_sum es wt W1 N (fun c e => own c e f (f + l))). apply sumto_zero. intros c' Hc'.
      destruct (Nat.eq_dec c' c) as [->|D]; [now apply (st_apart _ _ _ _ _ _ _ _ (A1 c Hc))|]. apply A2; lia.
  Qed.
End Ensemble.

(** ** Parser and analysers *)
Section Reports.
  Context {G Seed RS : Type} (X : Ext R G Seed RS) {E : Type} (es : list E) (wt : E -> R) (x : E -> nat -> nat -> V3 R) (p : E -> Parsed R) (an : E -> Analyzer R) (v : E -> R).
  Lemma C99_msd_proof i circ cell types vol n natoms k a u axes j m gap (M : nat -> R) (s2 : R) :
    probabilities es wt -> (forall e, In e es -> faithful_read i circ cell types vol n natoms k (x e) a (p e)) ->
    (0 < u_sub_sample_dt u)%Z -> u_block u = false -> names (pystr_text (u_dimension u)) axes ->
    (forall e, In e es -> exists g g' t, diffusion_analyzer X (of_parsed (p e)) u g = Ok (an e, g')
       /\ nth_error (b_dt (an_diff (an e))) j = Some t /\ nth_error (b_n (an_diff (an e))) j = Some (v e)
       /\ nth_error (p_intervals (p e)) (j * Z.to_nat (u_sub_sample_dt u)) = Some (Z.of_nat m)) ->
    steady_windows es wt (fun e => square_between axes natoms k (fun f b => cart cell (x e f b)) (p_indices (p e)) (p_drift_indices (p e))) (kept n k) m gap M s2 ->
    within_square es wt v (M m) (allowance (kept n k) m gap M s2).
  Proof.
    intros W F Hk Hb Hn R S.
    assert (V : forall e, In e es -> 0 < m <= kept n k /\ v e = ((INR (kept n k - m) * over_time (kept n k) m (square_between axes natoms k (fun f b => cart cell (x e f b)) (p_indices (p e)) (p_drift_indices (p e)))
        + square_between axes natoms k (fun f b => cart cell (x e f b)) (p_indices (p e)) (p_drift_indices (p e)) 0 (m - 1)) / INR (kept n k - m + 1))%R).
    { intros e He. destruct (R e He) as (g & g' & t & R1 & R2 & R3 & R4).
      destruct (C81_reported_proof X _ _ _ _ _ _ _ _ _ _ _ _ _ _ _ _ (F e He) Hk Hb Hn R1 j t R2) as (m' & E1 & _ & E2 & E3).
      rewrite R4 in E1. injection E1 as E1. apply Nat2Z.inj in E1. subst m'. split; [exact E2|]. cbv zeta in E3. rewrite R3 in E3. injection E3 as ->. reflexivity. }
    assert (Hm : 0 < m <= kept n k).
    { destruct es as [|e0 l]; [destruct W as [W _]; cbn in W; lra|]. apply (V e0). now left. }
    apply (steady_bound es wt W _ _ _ _ _ _ v Hm S). intros e He. now apply V.
  Qed.
  Lemma C99_collective i circ cell types vol n natoms k a s j m gap (M : nat -> R) (s2 : R) (between : E -> nat -> nat -> R) : probabilities es wt ->
    (forall e, In e es -> faithful_read i circ cell types vol n natoms k (x e) a (p e)) ->
    (forall e, In e es -> exists t, reports (p e) n natoms k s (positions cell (x e)) (between e) (an_diff (an e)) j t /\ nth_error (b_n (an_diff (an e))) j = Some (v e)
      /\ nth_error (p_intervals (p e)) (j * s) = Some (Z.of_nat m)) ->
    steady_windows es wt between (kept n k) m gap M s2 -> within_square es wt v (M m) (allowance (kept n k) m gap M s2).
  Proof.
    intros W F R S.
    assert (V : forall e, In e es -> 0 < m <= kept n k /\ v e = ((INR (kept n k - m) * over_time (kept n k) m (between e) + between e 0%nat (m - 1)%nat) / INR (kept n k - m + 1))%R).
    { intros e He. destruct (R e He) as (t & (m' & E1 & _ & E2 & E3) & R3 & R4). rewrite R4 in E1. injection E1 as E1. apply Nat2Z.inj in E1. subst m'. split; [exact E2|]. rewrite R3 in E3. now injection E3 as ->. }
    assert (Hm : 0 < m <= kept n k).
    { destruct es as [|e0 l]; [destruct W as [W _]; cbn in W; lra|]. apply (V e0). now left. }
    apply (steady_bound es wt W _ _ _ _ _ _ v Hm S). intros e He. now apply V.
  Qed.
  Lemma C99_mstd_proof i circ cell types vol n natoms k a u axes j m gap (M : nat -> R) (s2 : R) :
    probabilities es wt -> (forall e, In e es -> faithful_read i circ cell types vol n natoms k (x e) a (p e)) ->
    (0 < u_sub_sample_dt u)%Z -> u_block u = false -> names (pystr_text (u_dimension u)) axes ->
    (forall e, In e es -> exists g g' t, jump_diffusion_analyzer X (of_parsed (p e)) u g = Ok (an e, g')
       /\ nth_error (b_dt (an_diff (an e))) j = Some t /\ nth_error (b_n (an_diff (an e))) j = Some (v e)
       /\ nth_error (p_intervals (p e)) (j * Z.to_nat (u_sub_sample_dt u)) = Some (Z.of_nat m)) ->
    steady_windows es wt (fun e => total_between axes natoms k (fun f b => cart cell (x e f b)) (p_indices (p e)) (p_drift_indices (p e))) (kept n k) m gap M s2 ->
    within_square es wt v (M m) (allowance (kept n k) m gap M s2).
  Proof.
    intros W F Hk Hb Hn R S.
    refine (C99_collective i circ cell types vol n natoms k a (Z.to_nat (u_sub_sample_dt u)) j m gap M s2 _ W F _ S).
    intros e He. destruct (R e He) as (g & g' & t & R1 & R2 & R3 & R4). exists t. split; [|split; [exact R3|exact R4]].
    exact (C85_mstd_proof X _ _ _ _ _ _ _ _ _ _ _ _ _ _ _ _ (F e He) Hk Hb Hn R1 j t R2).
  Qed.
  Lemma C99_mscd_proof i circ cell types vol n natoms k a q u j m gap (M : nat -> R) (s2 : R) :
    probabilities es wt -> (forall e, In e es -> faithful_read i circ cell types vol n natoms k (x e) a (p e)) ->
    (0 < u_sub_sample_dt u)%Z -> u_block u = false -> (forall e l, In e es -> q = QArray l -> length l = length (p_indices (p e))) ->
    (forall e, In e es -> exists g g' t, conductivity_analyzer X (of_parsed (p e)) q u g = Ok (an e, g')
       /\ nth_error (b_dt (an_diff (an e))) j = Some t /\ nth_error (b_n (an_diff (an e))) j = Some (v e)
       /\ nth_error (p_intervals (p e)) (j * Z.to_nat (u_sub_sample_dt u)) = Some (Z.of_nat m)) ->
    steady_windows es wt (fun e => charge_between (charges q (length (p_indices (p e)))) natoms k (fun f b => cart cell (x e f b)) (p_indices (p e)) (p_drift_indices (p e))) (kept n k) m gap M s2 ->
    within_square es wt v (M m) (allowance (kept n k) m gap M s2).
  Proof.
    intros W F Hk Hb Hq R S.
    refine (C99_collective i circ cell types vol n natoms k a (Z.to_nat (u_sub_sample_dt u)) j m gap M s2 _ W F _ S).
    intros e He. destruct (R e He) as (g & g' & t & R1 & R2 & R3 & R4). exists t. split; [|split; [exact R3|exact R4]].
    refine (C85_mscd_proof X i circ cell types vol n natoms k (x e) a (p e) q u g (an e) g' (F e He) Hk Hb (fun l => Hq e l He) R1 j t R2).
  Qed.
  (** Many atoms. *)
  Lemma C99_atoms_proof i circ cell types vol n natoms k a u axes j m gap N (M : nat -> R) (s2 : R) :
    probabilities es wt -> (forall e, In e es -> faithful_read i circ cell types vol n natoms k (x e) a (p e)) ->
    (0 < u_sub_sample_dt u)%Z -> u_block u = false -> names (pystr_text (u_dimension u)) axes ->
    (forall e, In e es -> exists g g' t, diffusion_analyzer X (of_parsed (p e)) u g = Ok (an e, g')
       /\ nth_error (b_dt (an_diff (an e))) j = Some t /\ nth_error (b_n (an_diff (an e))) j = Some (v e)
       /\ nth_error (p_intervals (p e)) (j * Z.to_nat (u_sub_sample_dt u)) = Some (Z.of_nat m)) ->
    0 < N -> (forall e, In e es -> length (p_indices (p e)) = N) ->
    steady_atoms es wt (fun c e => own_square axes natoms k (fun f b => cart cell (x e f b)) (p_indices (p e)) (p_drift_indices (p e)) c) N (kept n k) m gap M s2 ->
    within_square es wt v (M m) (allowance (kept n k) m gap M (s2 / INR N)).
  Proof.
    intros W F Hk Hb Hn R HN HL S.
    apply (C99_msd_proof i circ cell types vol n natoms k a u axes j m gap M (s2 / INR N) W F Hk Hb Hn R).
    pose proof (steady_average es wt W _ N _ _ _ _ _ HN S) as [S1 S2 S3].
    assert (Q : forall e f g, In e es -> square_between axes natoms k (fun f b => cart cell (x e f b)) (p_indices (p e)) (p_drift_indices (p e)) f g
      = (/ INR N * sumto N (fun c => own_square axes natoms k (fun f b => cart cell (x e f b)) (p_indices (p e)) (p_drift_indices (p e)) c f g))%R).
    { intros e f g He. rewrite square_moves. rewrite <- (map_nth_seq zero3 (moves _ _ _ _ _ _ _)). rewrite map_map. unfold moves at 2. rewrite map_length, (HL e He).
      unfold average. rewrite map_length, seq_length, ProofsCalib.rsum_sumto. unfold Rdiv. rewrite Rmult_comm. reflexivity. }
    split.
    - intros f l H1 H2. rewrite <- (S1 f l H1 H2). apply mean_ext. intros e He. now apply Q.
    - intros f l H1 H2. rewrite spread_covary. rewrite (covary_ext es wt (proj1 W) _ _ _ _ (fun e He => Q e f (f + l) He) (fun e He => Q e f (f + l) He)). rewrite <- spread_covary. now apply S2.
    - intros f l f' l' H1 H2 H3 H4. rewrite (covary_ext es wt (proj1 W) _ _ _ _ (fun e He => Q e f (f + l) He) (fun e He => Q e f' (f' + l') He)). now apply S3.
  Qed.
End Reports.
(** ** Long enough *)
Lemma allowance_small m gap (s2 B d eps : R) : (0 <= s2)%R -> (0 < d)%R -> (0 < eps)%R -> exists T0, forall T M,
  T0 <= T -> (Rabs (M m - M (m - 1)%nat) <= B)%R -> (allowance T m gap M s2 / (d * d) <= eps)%R.
Proof.
  intros Hs Hd He. set (A := (s2 * (2 * INR (m + gap)) + B * B)%R).
  assert (A0 : (0 <= A)%R) by (unfold A; pose proof (pos_INR (m + gap)); pose proof (Rle_0_sqr B) as Q; unfold Rsqr in Q; nra).
  set (c := (A / (d * d * eps))%R).
  assert (c0 : (0 <= c)%R) by (unfold c; apply Rmult_le_pos; [exact A0|]; left; apply Rinv_0_lt_compat; repeat apply Rmult_lt_0_compat; assumption).
  assert (Q : exists q, (c < INR q)%R).
  { exists (Z.to_nat (up c)). pose proof (archimed c) as [U _]. assert (0 < up c)%Z by (apply lt_IZR; lra). rewrite INR_IZR_INZ, Z2Nat.id by lia. lra. }
  destruct Q as [q Hq]. exists (m + q). intros T M HT HB.
  set (K := (T - m + 1)). assert (HK : (c <= INR K)%R) by (apply Rle_trans with (INR q); [lra|]; apply le_INR; unfold K; lia).
  assert (K1 : (1 <= INR K)%R) by (change 1%R with (INR 1); apply le_INR; unfold K; lia).
  assert (HA : (allowance T m gap M s2 <= A / INR K)%R).
  { unfold allowance. fold K. set (b := (M m - M (m - 1)%nat)%R) in *. unfold A.
    assert (b * b <= B * B)%R by (pose proof (Rabs_pos b); replace (b * b)%R with (Rabs b * Rabs b)%R by (rewrite <- Rabs_mult; apply Rabs_pos_eq; apply Rle_0_sqr); apply Rmult_le_compat; lra).
    assert (I0 : (0 < / INR K)%R) by (apply Rinv_0_lt_compat; lra).
    assert (I1 : (/ INR K <= 1)%R) by (rewrite <- Rinv_1; apply Rinv_le_contravar; lra).
    unfold Rdiv. replace (b * / INR K * (b * / INR K))%R with (b * b * / INR K * / INR K)%R by ring.
    assert (b * b * / INR K * / INR K <= B * B * / INR K)%R.
    { apply Rle_trans with (b * b * / INR K * 1)%R; [apply Rmult_le_compat_l; [|exact I1]|].
      - pose proof (Rle_0_sqr b) as Q. unfold Rsqr in Q. apply Rmult_le_pos; lra.
      - rewrite Rmult_1_r. apply Rmult_le_compat_r; lra. }
    assert (s2 * (2 * INR (m + gap) - 1) * / INR K <= s2 * (2 * INR (m + gap)) * / INR K)%R.
    { apply Rmult_le_compat_r; [lra|]. apply Rmult_le_compat_l; lra. }
    lra. }
  apply Rmult_le_reg_r with (d * d)%R; [nra|]. unfold Rdiv at 1. rewrite Rmult_assoc, Rinv_l, Rmult_1_r by nra.
  apply Rle_trans with (1 := HA). apply Rmult_le_reg_r with (INR K); [lra|]. unfold Rdiv. rewrite Rmult_assoc, Rinv_l, Rmult_1_r by lra.
  apply Rle_trans with (eps * (d * d) * c)%R; [|apply Rmult_le_compat_l; [|exact HK]; left; repeat apply Rmult_lt_0_compat; assumption]. right. unfold c. field. lra.
Qed.
Lemma long_enough {E} (es : list E) wt v T m gap M s2 d eps : (0 < d)%R -> within_square es wt v (M m) (allowance T m gap M s2) ->
  (allowance T m gap M s2 / (d * d) <= eps)%R -> (chance_beyond es wt v (M m) d <= eps)%R.
Proof. intros Hd [_ H] L. eapply Rle_trans; [apply H; exact Hd|exact L]. Qed.
Lemma C99_msd_long_proof : forall m gap (s2 B d eps : R), (0 <= s2)%R -> (0 < d)%R -> (0 < eps)%R -> exists T0, forall G Seed RS (X : Ext R G Seed RS) E (es : list E) (wt : E -> R) x (p : E -> Parsed R) (an : E -> Analyzer R) (v : E -> R)
    i circ cell types vol n natoms k a u axes j (M : nat -> R),
  probabilities es wt -> (forall e, In e es -> faithful_read i circ cell types vol n natoms k (x e) a (p e)) ->
  (0 < u_sub_sample_dt u)%Z -> u_block u = false -> names (pystr_text (u_dimension u)) axes ->
  (forall e, In e es -> exists g g' t, diffusion_analyzer X (of_parsed (p e)) u g = Ok (an e, g')
     /\ nth_error (b_dt (an_diff (an e))) j = Some t /\ nth_error (b_n (an_diff (an e))) j = Some (v e)
     /\ nth_error (p_intervals (p e)) (j * Z.to_nat (u_sub_sample_dt u)) = Some (Z.of_nat m)) ->
  steady_windows es wt (fun e => square_between axes natoms k (fun f b => cart cell (x e f b)) (p_indices (p e)) (p_drift_indices (p e))) (kept n k) m gap M s2 -> (Rabs (M m - M (m - 1)%nat) <= B)%R -> T0 <= kept n k ->
  (chance_beyond es wt v (M m) d <= eps)%R.
Proof.
  intros m gap s2 B d eps Hs Hd He. destruct (allowance_small m gap s2 B d eps Hs Hd He) as [T0 HT]. exists T0.
  intros G Seed RS X E es wt x p an v i circ cell types vol n natoms k a u axes j M W F Hk Hb Hn R S HB HK.
  apply (long_enough es wt v (kept n k) m gap M s2 d eps Hd); [|now apply HT].
  exact (C99_msd_proof X es wt x p an v i circ cell types vol n natoms k a u axes j m gap M s2 W F Hk Hb Hn R S).
Qed.
Lemma C99_mstd_long_proof : forall m gap (s2 B d eps : R), (0 <= s2)%R -> (0 < d)%R -> (0 < eps)%R -> exists T0, forall G Seed RS (X : Ext R G Seed RS) E (es : list E) (wt : E -> R) x (p : E -> Parsed R) (an : E -> Analyzer R) (v : E -> R)
    i circ cell types vol n natoms k a u axes j (M : nat -> R),
  probabilities es wt -> (forall e, In e es -> faithful_read i circ cell types vol n natoms k (x e) a (p e)) ->
  (0 < u_sub_sample_dt u)%Z -> u_block u = false -> names (pystr_text (u_dimension u)) axes ->
  (forall e, In e es -> exists g g' t, jump_diffusion_analyzer X (of_parsed (p e)) u g = Ok (an e, g')
     /\ nth_error (b_dt (an_diff (an e))) j = Some t /\ nth_error (b_n (an_diff (an e))) j = Some (v e)
     /\ nth_error (p_intervals (p e)) (j * Z.to_nat (u_sub_sample_dt u)) = Some (Z.of_nat m)) ->
  steady_windows es wt (fun e => total_between axes natoms k (fun f b => cart cell (x e f b)) (p_indices (p e)) (p_drift_indices (p e))) (kept n k) m gap M s2 -> (Rabs (M m - M (m - 1)%nat) <= B)%R -> T0 <= kept n k ->
  (chance_beyond es wt v (M m) d <= eps)%R.
Proof.
  intros m gap s2 B d eps Hs Hd He. destruct (allowance_small m gap s2 B d eps Hs Hd He) as [T0 HT]. exists T0.
  intros G Seed RS X E es wt x p an v i circ cell types vol n natoms k a u axes j M W F Hk Hb Hn R S HB HK.
  apply (long_enough es wt v (kept n k) m gap M s2 d eps Hd); [|now apply HT].
  exact (C99_mstd_proof X es wt x p an v i circ cell types vol n natoms k a u axes j m gap M s2 W F Hk Hb Hn R S).
Qed.
Lemma C99_mscd_long_proof : forall m gap (s2 B d eps : R), (0 <= s2)%R -> (0 < d)%R -> (0 < eps)%R -> exists T0, forall G Seed RS (X : Ext R G Seed RS) E (es : list E) (wt : E -> R) x (p : E -> Parsed R) (an : E -> Analyzer R) (v : E -> R)
    i circ cell types vol n natoms k a q u j (M : nat -> R),
  probabilities es wt -> (forall e, In e es -> faithful_read i circ cell types vol n natoms k (x e) a (p e)) ->
  (0 < u_sub_sample_dt u)%Z -> u_block u = false -> (forall e l, In e es -> q = QArray l -> length l = length (p_indices (p e))) ->
  (forall e, In e es -> exists g g' t, conductivity_analyzer X (of_parsed (p e)) q u g = Ok (an e, g')
     /\ nth_error (b_dt (an_diff (an e))) j = Some t /\ nth_error (b_n (an_diff (an e))) j = Some (v e)
     /\ nth_error (p_intervals (p e)) (j * Z.to_nat (u_sub_sample_dt u)) = Some (Z.of_nat m)) ->
  steady_windows es wt (fun e => charge_between (charges q (length (p_indices (p e)))) natoms k (fun f b => cart cell (x e f b)) (p_indices (p e)) (p_drift_indices (p e))) (kept n k) m gap M s2 -> (Rabs (M m - M (m - 1)%nat) <= B)%R -> T0 <= kept n k ->
  (chance_beyond es wt v (M m) d <= eps)%R.
Proof.
  intros m gap s2 B d eps Hs Hd He. destruct (allowance_small m gap s2 B d eps Hs Hd He) as [T0 HT]. exists T0.
  intros G Seed RS X E es wt x p an v i circ cell types vol n natoms k a q u j M W F Hk Hb Hn R S HB HK.
  apply (long_enough es wt v (kept n k) m gap M s2 d eps Hd); [|now apply HT].
  exact (C99_mscd_proof X es wt x p an v i circ cell types vol n natoms k a q u j m gap M s2 W F Hk Hb Hn R S).
Qed.
