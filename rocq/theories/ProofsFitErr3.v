(** * ProofsFitErr3: long simulations, inverse matrices and the example of C100 *)
From Verif Require Import Base Spec SpecParser SpecStats SpecRun SpecFit SpecGls SpecTrue SpecPool SpecColl SpecMarkov SpecCalib SpecIdeal SpecLong SpecFitErr
  ModelParser ModelDiffusion ModelHdf ModelAnalyzer Lemmas
  ProofsDisp ProofsBoot ProofsCov ProofsFit2 ProofsGls ProofsTraj ProofsStats ProofsMarkov ProofsTrue ProofsColl ProofsPool ProofsCollective ProofsCalib ProofsIdeal ProofsLong ProofsLong2 ProofsFitErr ProofsFitErr2.
From Coq Require Import Reals Lra Lia Psatz.
Open Scope nat_scope.

Lemma C100_msd_long_proof : forall ms gap (s2 B kappa V d eps : R), (0 <= s2)%R -> (0 <= kappa)%R -> (0 < V)%R -> (0 < d)%R -> (0 < eps)%R -> exists T0, forall G Seed RS (X : Ext R G Seed RS) E (es : list E) (wt : E -> R) x (p : E -> Parsed R) (an : E -> Analyzer R) dt (y : E -> list R) (ld : E -> R) w (slope icept : E -> R) (g0 c0 : R)
    i circ cell types vol n natoms k a u axes r m (M : nat -> R),
  probabilities es wt -> (forall e, In e es -> faithful_read i circ cell types vol n natoms k (x e) a (p e)) ->
  (0 < u_sub_sample_dt u)%Z -> u_block u = false -> names (pystr_text (u_dimension u)) axes ->
  (forall e, In e es -> exists g g', diffusion_analyzer X (of_parsed (p e)) u g = Ok (an e, g')) ->
  (forall e, In e es -> skipn r (b_dt (an_diff (an e))) = dt /\ skipn r (b_n (an_diff (an e))) = y e
     /\ forall j, j < length dt -> nth_error (p_intervals (p e)) ((r + j) * Z.to_nat (u_sub_sample_dt u)) = Some (Z.of_nat (nth j ms 0))) ->
  (forall e, In e es -> length dt = length (y e) /\ sound_weights (w e) (length dt) kappa /\ most_likely (log_likelihood dt (y e) (ld e) (w e)) [slope e; icept e]) ->
  (forall l, In l ms -> l <= m) ->
  steady_windows es wt (fun e => square_between axes natoms k (fun f b => cart cell (x e f b)) (p_indices (p e)) (p_drift_indices (p e))) (kept n k) m gap M s2 ->
  (0 <= g0)%R -> (V <= variation dt)%R -> straight M ms dt g0 c0 -> (forall l, In l ms -> (Rabs (M l - M (l - 1)%nat) <= B)%R) -> T0 <= kept n k ->
  (chance_beyond es wt slope g0 d <= eps)%R.
Proof.
  intros ms gap s2 B kappa V d eps Hs Hk HV Hd He. destruct (slope_long_enough ms gap s2 B kappa V d eps Hs Hk HV Hd He) as [T0 HT]. exists T0.
  intros G Seed RS X E es wt x p an dt y ld w slope icept g0 c0 i circ cell types vol n natoms k a u axes r m M W F Hk' Hb Hn Rn D Fi Hm S G0 HVd ST HB HK.
  apply (HT E es wt slope g0 (kept n k) dt M); try assumption.
  apply (C100_msd_proof X es wt x p an dt y ld w slope icept kappa g0 c0 i circ cell types vol n natoms k a u axes r ms m gap M s2); try assumption. lra.
Qed.
Lemma C100_mstd_long_proof : forall ms gap (s2 B kappa V d eps : R), (0 <= s2)%R -> (0 <= kappa)%R -> (0 < V)%R -> (0 < d)%R -> (0 < eps)%R -> exists T0, forall G Seed RS (X : Ext R G Seed RS) E (es : list E) (wt : E -> R) x (p : E -> Parsed R) (an : E -> Analyzer R) dt (y : E -> list R) (ld : E -> R) w (slope icept : E -> R) (g0 c0 : R)
    i circ cell types vol n natoms k a u axes r m (M : nat -> R),
  probabilities es wt -> (forall e, In e es -> faithful_read i circ cell types vol n natoms k (x e) a (p e)) ->
  (0 < u_sub_sample_dt u)%Z -> u_block u = false -> names (pystr_text (u_dimension u)) axes ->
  (forall e, In e es -> exists g g', jump_diffusion_analyzer X (of_parsed (p e)) u g = Ok (an e, g')) ->
  (forall e, In e es -> skipn r (b_dt (an_diff (an e))) = dt /\ skipn r (b_n (an_diff (an e))) = y e
     /\ forall j, j < length dt -> nth_error (p_intervals (p e)) ((r + j) * Z.to_nat (u_sub_sample_dt u)) = Some (Z.of_nat (nth j ms 0))) ->
  (forall e, In e es -> length dt = length (y e) /\ sound_weights (w e) (length dt) kappa /\ most_likely (log_likelihood dt (y e) (ld e) (w e)) [slope e; icept e]) ->
  (forall l, In l ms -> l <= m) ->
  steady_windows es wt (fun e => total_between axes natoms k (fun f b => cart cell (x e f b)) (p_indices (p e)) (p_drift_indices (p e))) (kept n k) m gap M s2 ->
  (0 <= g0)%R -> (V <= variation dt)%R -> straight M ms dt g0 c0 -> (forall l, In l ms -> (Rabs (M l - M (l - 1)%nat) <= B)%R) -> T0 <= kept n k ->
  (chance_beyond es wt slope g0 d <= eps)%R.
Proof.
  intros ms gap s2 B kappa V d eps Hs Hk HV Hd He. destruct (slope_long_enough ms gap s2 B kappa V d eps Hs Hk HV Hd He) as [T0 HT]. exists T0.
  intros G Seed RS X E es wt x p an dt y ld w slope icept g0 c0 i circ cell types vol n natoms k a u axes r m M W F Hk' Hb Hn Rn D Fi Hm S G0 HVd ST HB HK.
  apply (HT E es wt slope g0 (kept n k) dt M); try assumption.
  apply (C100_mstd_proof X es wt x p an dt y ld w slope icept kappa g0 c0 i circ cell types vol n natoms k a u axes r ms m gap M s2); try assumption. lra.
Qed.
Lemma C100_mscd_long_proof : forall ms gap (s2 B kappa V d eps : R), (0 <= s2)%R -> (0 <= kappa)%R -> (0 < V)%R -> (0 < d)%R -> (0 < eps)%R -> exists T0, forall G Seed RS (X : Ext R G Seed RS) E (es : list E) (wt : E -> R) x (p : E -> Parsed R) (an : E -> Analyzer R) dt (y : E -> list R) (ld : E -> R) w (slope icept : E -> R) (g0 c0 : R)
    i circ cell types vol n natoms k a q u r m (M : nat -> R),
  probabilities es wt -> (forall e, In e es -> faithful_read i circ cell types vol n natoms k (x e) a (p e)) ->
  (0 < u_sub_sample_dt u)%Z -> u_block u = false -> (forall e l, In e es -> q = QArray l -> length l = length (p_indices (p e))) ->
  (forall e, In e es -> exists g g', conductivity_analyzer X (of_parsed (p e)) q u g = Ok (an e, g')) ->
  (forall e, In e es -> skipn r (b_dt (an_diff (an e))) = dt /\ skipn r (b_n (an_diff (an e))) = y e
     /\ forall j, j < length dt -> nth_error (p_intervals (p e)) ((r + j) * Z.to_nat (u_sub_sample_dt u)) = Some (Z.of_nat (nth j ms 0))) ->
  (forall e, In e es -> length dt = length (y e) /\ sound_weights (w e) (length dt) kappa /\ most_likely (log_likelihood dt (y e) (ld e) (w e)) [slope e; icept e]) ->
  (forall l, In l ms -> l <= m) ->
  steady_windows es wt (fun e => charge_between (charges q (length (p_indices (p e)))) natoms k (fun f b => cart cell (x e f b)) (p_indices (p e)) (p_drift_indices (p e))) (kept n k) m gap M s2 ->
  (0 <= g0)%R -> (V <= variation dt)%R -> straight M ms dt g0 c0 -> (forall l, In l ms -> (Rabs (M l - M (l - 1)%nat) <= B)%R) -> T0 <= kept n k ->
  (chance_beyond es wt slope g0 d <= eps)%R.
Proof.
  intros ms gap s2 B kappa V d eps Hs Hk HV Hd He. destruct (slope_long_enough ms gap s2 B kappa V d eps Hs Hk HV Hd He) as [T0 HT]. exists T0.
  intros G Seed RS X E es wt x p an dt y ld w slope icept g0 c0 i circ cell types vol n natoms k a q u r m M W F Hk' Hb Hn Rn D Fi Hm S G0 HVd ST HB HK.
  apply (HT E es wt slope g0 (kept n k) dt M); try assumption.
  apply (C100_mscd_proof X es wt x p an dt y ld w slope icept kappa g0 c0 i circ cell types vol n natoms k a q u r ms m gap M s2); try assumption. lra.
Qed.

(** ** The inverse of a well-conditioned matrix *)
Lemma dot_sym (a b : nat -> R) n : sumto n (fun i => a i * b i)%R = sumto n (fun i => b i * a i)%R.
Proof. apply sumto_ext. intros; ring. Qed.
Section Inverse.
  Context (w S : list (list R)) (n : nat) (lo hi : R).
  Hypothesis (Hw : square w n) (Sw : symmetric w) (HS : square S n) (SS : symmetric S) (HI : inverse_of w S).
  Hypothesis (L0 : (0 < lo)%R) (H0 : (0 < hi)%R) (HB : forall x, length x = length S -> (lo * norm2 x <= quadratic S x <= hi * norm2 x)%R).
  Context (x : list R).
  Hypothesis Lx : length x = n.
  Let z := map (fun i => sumto n (fun j => matrix_entry w i j * vec_entry x j)%R) (seq 0 n).
  Let Lz : length z = n.
  Proof. unfold z. now rewrite map_length, seq_length. Qed.
  Let Ez i : i < n -> vec_entry z i = sumto n (fun j => matrix_entry w i j * vec_entry x j)%R.
  Proof. intros Hi. unfold z, vec_entry at 1. rewrite (nth_map_lt _ _ i 0) by (now rewrite seq_length). now rewrite seq_nth. Qed.
  Let Sz i : i < n -> sumto n (fun j => matrix_entry S i j * vec_entry z j)%R = vec_entry x i.
  Proof.
    intros Hi. rewrite (sumto_ext n _ (fun j => sumto n (fun l => vec_entry x l * (matrix_entry w l j * matrix_entry S j i))%R)).
    - rewrite sumto_swap. rewrite (sumto_ext n _ (fun l => if Nat.eqb l i then vec_entry x l else 0)%R).
      + rewrite (sumto_one n i) by (try assumption; intros l _ D; apply Nat.eqb_neq in D; now rewrite D). now rewrite Nat.eqb_refl.
      + intros l Hl. rewrite sumto_scale. rewrite <- (proj1 HS) at 1. rewrite HI by (rewrite (proj1 HS); assumption). destruct (Nat.eqb l i); ring.
    - intros j Hj. rewrite Ez by exact Hj. rewrite <- sumto_scale. apply sumto_ext. intros l Hl.
      rewrite (Sw j l) by (rewrite (proj1 Hw); assumption). rewrite (SS i j) by (rewrite (proj1 HS); assumption). ring.
  Qed.
  Let dots v : length v = n -> bilinear S v z = sumto n (fun i => vec_entry v i * vec_entry x i)%R.
  Proof.
    intros Lv. unfold bilinear. rewrite Lv, Lz. apply sumto_ext. intros i Hi. rewrite <- (Sz i Hi), <- sumto_scale. apply sumto_ext. intros; ring.
  Qed.
  Let wx : quadratic w x = quadratic S z.
  Proof.
    unfold quadratic at 2. rewrite dots by exact Lz. unfold quadratic, bilinear. rewrite Lx. apply sumto_ext. intros i Hi. rewrite Ez by exact Hi.
    rewrite (Rmult_comm (sumto _ _)), <- sumto_scale. apply sumto_ext. intros; ring.
  Qed.
  Lemma inverse_bounds : (norm2 x <= hi * quadratic w x)%R /\ (lo * quadratic w x <= norm2 x)%R.
  Proof.
    assert (Nx : norm2 x = sumto n (fun i => vec_entry x i * vec_entry x i)%R) by (unfold norm2; now rewrite Lx).
    assert (Nz : norm2 z = sumto n (fun i => vec_entry z i * vec_entry z i)%R) by (unfold norm2; now rewrite Lz).
    assert (Pz : (0 <= norm2 z)%R) by (unfold norm2; apply sumto_nonneg; intros i _; apply Rle_0_sqr).
    assert (Px : (0 <= norm2 x)%R) by (unfold norm2; apply sumto_nonneg; intros i _; apply Rle_0_sqr).
    destruct (HB z) as [Z1 Z2]; [now rewrite (proj1 HS)|]. destruct (HB x) as [X1 X2]; [now rewrite (proj1 HS)|]. rewrite wx.
    assert (Qz : (0 <= quadratic S z)%R) by (apply Rle_trans with (2 := Z1); apply Rmult_le_pos; lra). split.
    - assert (Lh : length (map (Rmult (- hi)) z) = n) by (now rewrite map_length).
      assert (Q : (0 <= quadratic S (zip_with Rplus x (map (Rmult (- hi)) z)))%R).
      { destruct (HB (zip_with Rplus x (map (Rmult (- hi)) z))) as [Q1 _]; [rewrite zip_with_length, (proj1 HS); lia|].
        apply Rle_trans with (2 := Q1). apply Rmult_le_pos; [lra|]. unfold norm2. apply sumto_nonneg. intros i _. apply Rle_0_sqr. }
      rewrite (quadratic_add S n) in Q by assumption. rewrite (bilinear_scale_r S n) in Q by assumption.
      unfold quadratic at 2 in Q. rewrite bilinear_scale_l, (bilinear_scale_r S n) in Q by assumption. rewrite dots in Q by exact Lx. rewrite <- Nx in Q. fold (quadratic S z) in Q.
      apply Rmult_le_reg_l with hi; [exact H0|]. lra.
    - assert (Q : (0 <= sumto n (fun i => (vec_entry x i - lo * vec_entry z i) * (vec_entry x i - lo * vec_entry z i)))%R) by (apply sumto_nonneg; intros i _; apply Rle_0_sqr).
      rewrite (sumto_ext n _ (fun i => vec_entry x i * vec_entry x i + (- 2 * lo) * (vec_entry z i * vec_entry x i) + lo * lo * (vec_entry z i * vec_entry z i))%R) in Q by (intros; ring).
      rewrite !sumto_plus, !sumto_scale in Q. rewrite <- Nx, <- Nz, <- dots in Q by exact Lz. fold (quadratic S z) in Q.
      assert (lo * (lo * norm2 z) <= lo * quadratic S z)%R by (apply Rmult_le_compat_l; lra). lra.
  Qed.
End Inverse.
Lemma C100_weights_proof w S n kappa : square w n -> symmetric w -> sound_weights S n kappa -> inverse_of w S -> sound_weights w n kappa.
Proof.
  intros Hw Sw HS0 HI. pose proof HS0 as (HS & SS & lo & hi & L0 & HC & HB). split; [exact Hw|]. split; [exact Sw|].
  destruct n as [|n].
  - exists 1%R, (Rmin kappa 1). split; [lra|]. split; [rewrite Rmult_1_r; apply Rmin_l|]. intros x Lx. rewrite (proj1 Hw) in Lx. destruct x; [|discriminate]. cbn. lra.
  - set (x := ones (Datatypes.S n)). destruct (HB x) as [H1 H2]; [unfold x; now rewrite ones_length, (proj1 HS)|].
    assert (N : (0 < norm2 x)%R).
    { unfold norm2, x. rewrite ones_length. rewrite (sumto_ext (Datatypes.S n) _ (fun _ => 1%R)) by (intros i Hi; unfold vec_entry, ones; rewrite (nth_indep _ 0%R 1%R) by (now rewrite repeat_length); rewrite nth_repeat; ring).
      rewrite sumto_const. rewrite Rmult_1_r. apply lt_0_INR. lia. }
    assert (LH : (lo <= hi)%R) by (apply Rmult_le_reg_r with (norm2 x); lra). clear x H1 H2 N.
    assert (H0 : (0 < hi)%R) by lra. exists (/ hi)%R, (/ lo)%R. split; [now apply Rinv_0_lt_compat|]. split.
    + apply Rmult_le_reg_l with lo; [exact L0|]. rewrite Rinv_r by lra. apply Rmult_le_reg_r with hi; [exact H0|]. rewrite !Rmult_assoc, Rinv_l by lra. lra.
    + intros x Lx. rewrite (proj1 Hw) in Lx. destruct (inverse_bounds w S (Datatypes.S n) lo hi Hw Sw HS SS HI L0 H0 HB x Lx) as [B1 B2]. split.
      * apply Rmult_le_reg_l with hi; [exact H0|]. rewrite <- Rmult_assoc, Rinv_r by lra. lra.
      * apply Rmult_le_reg_l with lo; [exact L0|]. rewrite <- Rmult_assoc, Rinv_r by lra. lra.
Qed.

(** ** The example *)
Definition unit2 : list (list R) := [[1; 0]; [0; 1]]%R.
Lemma unit2_form x : length x = 2 -> quadratic unit2 x = norm2 x.
Proof. destruct x as [|a [|b [|]]]; try discriminate. intros _. cbn. ring. Qed.
Lemma unit2_sound : sound_weights unit2 2 1.
Proof.
  split; [repeat split; repeat constructor|]. split.
  - intros i j Hi Hj. cbn in Hi, Hj. destruct i as [|[|i]], j as [|[|j]]; try lia; reflexivity.
  - exists 1%R, 1%R. split; [lra|]. split; [lra|]. intros x Lx. rewrite unit2_form by exact Lx. lra.
Qed.
(** The best line through two points with a slope that is not negative. *)
Definition two_slope (a b : R) : R := if Rle_dec a b then (b - a)%R else 0%R.
Definition two_icept (a b : R) : R := if Rle_dec a b then (2 * a - b)%R else ((a + b) / 2)%R.
Lemma two_best a b : most_likely (log_likelihood [1;2]%R [a;b] 0%R unit2) [two_slope a b; two_icept a b].
Proof.
  assert (Sq : square unit2 (length [a;b])) by (apply unit2_sound).
  assert (P : (0 <= two_slope a b)%R) by (unfold two_slope; destruct (Rle_dec a b); lra).
  assert (Q : forall g c, quadratic unit2 (residuals [1;2]%R [a;b] g c) = ((g + c - a) * (g + c - a) + (2 * g + c - b) * (2 * g + c - b))%R) by (intros; cbn; ring).
  eexists. split; [apply ll_two; [reflexivity|exact Sq|exact P]|]. intros th l L E. destruct th as [|g [|c [|]]]; try discriminate L.
  destruct (Rlt_or_le g 0) as [N|N]; [rewrite ll_negative in E by exact N; discriminate|].
  rewrite ll_two in E by (reflexivity || assumption). injection E as <-. rewrite !Q. unfold two_slope, two_icept. destruct (Rle_dec a b) as [C|C].
  - set (A := (g + c - a)%R). set (B := (2 * g + c - b)%R). pose proof (Rle_0_sqr A) as HA. pose proof (Rle_0_sqr B) as HB. unfold Rsqr in *. lra.
  - assert (E : (2 * ((g + c - a) * (g + c - a) + (2 * g + c - b) * (2 * g + c - b)) = (g + (a - b)) * (g + (a - b)) + (3 * g + 2 * c - a - b) * (3 * g + 2 * c - a - b))%R) by ring.
    pose proof (Rle_0_sqr (3 * g + 2 * c - a - b)) as HA. unfold Rsqr in HA.
    assert ((a - b) * (a - b) <= (g + (a - b)) * (g + (a - b)))%R by (apply Rmult_le_compat; lra). lra.
Qed.
Lemma C100_example_proof : forall G Seed RS (X : Ext R G Seed RS) circ (g : G), exists p an y slope icept,
  probabilities tosses eighth
  /\ (forall e, In e tosses -> faithful_read Ase circ unit_cell ["Li"; "O"]%string 1%R 4 2 1 (walk (random_walk e)) walk_params (p e))
  /\ (forall e, In e tosses -> diffusion_analyzer X (of_parsed (p e)) (demo_boot 1 "xyz") g = Ok (an e, g))
  /\ (forall e, In e tosses -> skipn 0 (b_dt (an_diff (an e))) = [1;2]%R /\ skipn 0 (b_n (an_diff (an e))) = y e
       /\ forall j, j < 2 -> nth_error (p_intervals (p e)) ((0 + j) * 1) = Some (Z.of_nat (nth j [1;2] 0)))
  /\ (forall e, In e tosses -> 2 = length (y e) /\ sound_weights unit2 2 1 /\ most_likely (log_likelihood [1;2]%R (y e) 0%R unit2) [slope e; icept e])
  /\ variation [1;2]%R = (1 / 2)%R /\ (0 < variation [1;2])%R
  /\ within_square tosses eighth slope (1 / 100)%R (2 * (1 / 160000 + (4 / 10000 + 1 / 90000)))%R
  /\ mean_over tosses eighth (fun e => (slope e - 1 / 100) * (slope e - 1 / 100))%R = (1 / 40000 + 1 / 2880000 + 1 / 25600)%R.
Proof.
  intros G Seed RS X circ g.
  assert (K : exists p an, forall e, In e tosses -> walked X circ g (random_walk e) (p e) (an e)).
  { assert (L : forall es, exists p an, forall e, In e es -> walked X circ g (random_walk e) (p e) (an e)).
    { induction es as [|e0 es (p & an & IH)].
      - destruct (walk_run G Seed RS X circ g steady steady_gentle) as (p & an & _). exists (fun _ => p), (fun _ => an). intros e [].
      - destruct (walk_run G Seed RS X circ g _ (random_gentle e0)) as (p0 & an0 & W).
        assert (D : forall e : bool * bool * bool, {e = e0} + {e <> e0}) by (intros; repeat decide equality).
        exists (fun e => if D e then p0 else p e), (fun e => if D e then an0 else an e). intros e [<-|He].
        + destruct (D e0); [exact W|congruence].
        + destruct (D e) as [->|_]; [exact W|now apply IH]. }
    apply L. }
  destruct K as (p & an & K).
  set (d := fun e f l => ((random_walk e (f + l)%nat - random_walk e f) * (random_walk e (f + l)%nat - random_walk e f))%R).
  set (v1 := fun e => ((d e 0%nat 1%nat + d e 1%nat 1%nat + d e 2%nat 1%nat) / 4)%R).
  set (v2 := fun e => ((d e 0%nat 1%nat + d e 0%nat 2%nat + d e 1%nat 2%nat) / 3)%R).
  assert (Y : forall e, In e tosses -> b_n (an_diff (an e)) = [v1 e; v2 e]).
  { intros e He. destruct (walked_values X circ g _ _ _ (K e He)) as [V1 V2]. destruct (K e He) as (_ & _ & _ & _ & H & Ht).
    assert (L : length (b_n (an_diff (an e))) = 2).
    { unfold diffusion_analyzer in H. inv_bind H bg Eb. destruct bg as [b g1]. injection H as Ha Hg. rewrite <- Ha in Ht |- *. cbn [an_diff] in *.
      destruct (msd_run X (demo_boot 1 "xyz") _ _ _ _ _ _ eq_refl Eb) as (axes & shown & _ & _ & _ & _ & _ & HR).
      rewrite (br_n_len _ _ _ _ _ _ _ _ _ _ HR), <- (br_dt_len _ _ _ _ _ _ _ _ _ _ HR), Ht. reflexivity. }
    destruct (b_n (an_diff (an e))) as [|a [|b [|]]]; try discriminate L. cbn in V1, V2. injection V1 as ->. injection V2 as ->. reflexivity. }
  exists p, an, (fun e => [v1 e; v2 e]), (fun e => two_slope (v1 e) (v2 e)), (fun e => two_icept (v1 e) (v2 e)).
  assert (F : forall e, In e tosses -> faithful_read Ase circ unit_cell ["Li"; "O"]%string 1%R 4 2 1 (walk (random_walk e)) walk_params (p e)) by (intros e He; apply (K e He)).
  assert (Rn : forall e, In e tosses -> diffusion_analyzer X (of_parsed (p e)) (demo_boot 1 "xyz") g = Ok (an e, g)) by (intros e He; apply (K e He)).
  assert (L1 : forall e, In e tosses -> length (p_indices (p e)) = 1) by (intros e He; destruct (K e He) as (_ & _ & E2 & _); now rewrite E2).
  assert (Mv : forall e c f l, In e tosses -> c < 1 -> f + l < 4 ->
       move_of 2 1 (fun f b => cart unit_cell (walk (random_walk e) f b)) (p_indices (p e)) (p_drift_indices (p e)) c f (f + l) = net (coin_step e) c f l).
  { intros e c f l He Hc Hl. destruct (K e He) as (_ & _ & E2 & E3 & _). rewrite E2, E3. assert (c = 0) by lia. subst c. rewrite walk_move. now apply coin_net. }
  assert (Dt : forall e, In e tosses -> skipn 0 (b_dt (an_diff (an e))) = [1;2]%R /\ skipn 0 (b_n (an_diff (an e))) = [v1 e; v2 e]
       /\ forall j, j < 2 -> nth_error (p_intervals (p e)) ((0 + j) * 1) = Some (Z.of_nat (nth j [1;2] 0))).
  { intros e He. cbn [skipn]. split; [apply (K e He)|]. split; [now apply Y|]. destruct (K e He) as (_ & E1 & _). rewrite E1. intros j Hj. destruct j as [|[|j]]; [reflexivity|reflexivity|lia]. }
  assert (Ft : forall e, In e tosses -> 2 = length [v1 e; v2 e] /\ sound_weights unit2 2 1 /\ most_likely (log_likelihood [1;2]%R [v1 e; v2 e] 0%R unit2) [two_slope (v1 e) (v2 e); two_icept (v1 e) (v2 e)]).
  { intros e _. split; [reflexivity|]. split; [exact unit2_sound|apply two_best]. }
  assert (Vr : variation [1;2]%R = (1 / 2)%R) by (unfold variation, average, rsum, vec_entry; cbn; field).
  split; [exact tosses_probabilities|]. split; [exact F|]. split; [exact Rn|]. split; [exact Dt|]. split; [exact Ft|]. split; [exact Vr|]. split; [rewrite Vr; lra|]. split.
  - pose proof (C100_walk_proof X tosses eighth (fun e => walk (random_walk e)) p an [1;2]%R (fun e => [v1 e; v2 e]) (fun _ => 0%R) (fun _ => unit2) (fun e => two_slope (v1 e) (v2 e)) (fun e => two_icept (v1 e) (v2 e)) 1%R
      Ase circ unit_cell ["Li"; "O"]%string 1%R 4 2 1 walk_params (demo_boot 1 "xyz") all_axes 0 [1;2] 1%R 1 coin_step coin_moments (1 / 10000)%R tosses_probabilities F eq_refl eq_refl names_xyz) as Q.
    rewrite kept_one in Q.
    specialize (Q ltac:(intros e He; exists g, g; now apply Rn) Dt Ft ltac:(intros l [<-|[<-|[]]]; lia) eq_refl ltac:(lra) ltac:(intros [|[|j]] Hj; [cbn; ring|cbn; ring|cbn in Hj; lia]) ltac:(lia) ltac:(lia) L1 Mv
      coin_independent coin_unbiased coin_second coin_fourth ltac:(rewrite Vr; lra)).
    assert (T1 : trace_of all_axes coin_moments = (1 / 100)%R) by (unfold trace_of, all_axes, rsum; cbn; ring).
    assert (T2 : trace_square all_axes coin_moments = (1 / 10000)%R) by (unfold trace_square, all_axes, rsum; cbn; field).
    unfold walk_spread in Q. rewrite T1, T2, Vr in Q. cbn [Nat.sub Nat.add INR length sumto nth] in Q.
    match type of Q with within_square _ _ _ ?c ?q => replace c with (1 / 100)%R in Q by field; replace q with (2 * (1 / 160000 + (4 / 10000 + 1 / 90000)))%R in Q by field end. exact Q.
  - rewrite mean_tosses. unfold v1, v2, d. cbn [Nat.add random_walk toss]. unfold two_slope.
    repeat match goal with |- context [Rle_dec ?a ?b] => destruct (Rle_dec a b); [try (exfalso; lra)|try (exfalso; lra)] end; lra.
Qed.
