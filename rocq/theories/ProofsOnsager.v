(** * ProofsOnsager: conductivity as a sum over pairs of ions (C125) *)
From Verif Require Import Base Spec SpecParser SpecStats SpecFit SpecAnalyzer ModelParser ModelDiffusion ModelHdf ModelAnalyzer
  Lemmas ProofsDisp ProofsIntervals ProofsWindows ProofsParser ProofsTraj ProofsBoot ProofsStats ProofsStats2 ProofsFit ProofsShape ProofsAnalyzer
  SpecRun SpecGrid ProofsGrid SpecPool ProofsCollective ProofsPool SpecTrue SpecColl SpecNoise ProofsNoise SpecPersist ProofsPersist SpecOnsager.
From Coq Require Import Reals Lra Lia.
Open Scope R_scope.

(** ** One observation *)
Definition carried (q : list R) (vs : list (V3 R)) : V3 R := sum3 (map (fun p => scale3 (fst p) (snd p)) (combine q vs)).
Lemma carried_coord c : forall n q vs, length q = n -> length vs = n -> coord (carried q vs) c = rsum (map (fun a => nth a q 0 * coord (nth a vs zero3) c) (seq 0 n)).
Proof.
  unfold carried. induction n as [|n IH]; intros [|x q] [|v vs] Hq Hv; try discriminate; [destruct c; reflexivity|].
  cbn [combine map]. rewrite sum3_cons. replace (coord (plus3 _ _) c) with (coord (scale3 x v) c + coord (sum3 (map (fun p => scale3 (fst p) (snd p)) (combine q vs))) c) by (destruct c; reflexivity).
  rewrite IH by (cbn in Hq, Hv; lia). rewrite ProofsNoise.coord_scale. rewrite <- cons_seq, <- seq_shift. cbn [map]. rewrite map_map, rsum_cons. reflexivity.
Qed.
Lemma double_sum (f g : nat -> R) l l' : rsum (map f l) * rsum (map g l') = rsum (map (fun a => rsum (map (fun b => f a * g b) l')) l).
Proof.
  rewrite (map_ext (fun a => rsum (map (fun b => f a * g b) l')) (fun a => rsum (map g l') * f a)) by (intros a; rewrite rsum_map_scal; ring).
  rewrite rsum_map_scal. ring.
Qed.
Lemma carried_pairs axes n q q' vs : length q = n -> length q' = n -> length vs = n ->
  scalar axes (carried q vs) (carried q' vs) = over_pairs n q q' (fun a b => scalar axes (nth a vs zero3) (nth b vs zero3)).
Proof.
  intros Hq Hq' Hv. unfold scalar, over_pairs.
  rewrite (map_ext _ (fun d => rsum (map (fun a => rsum (map (fun b => nth a q 0 * nth b q' 0 * (coord (nth a vs zero3) d * coord (nth b vs zero3) d)) (seq 0 n))) (seq 0 n)))).
  2:{ intros d. rewrite !(carried_coord d n) by assumption. rewrite double_sum. f_equal. apply map_ext. intros a. f_equal. apply map_ext. intros b. ring. }
  rewrite (rsum_swap (fun d a => rsum (map (fun b => nth a q 0 * nth b q' 0 * (coord (nth a vs zero3) d * coord (nth b vs zero3) d)) (seq 0 n))) axes (seq 0 n)).
  f_equal. apply map_ext. intros a.
  rewrite (rsum_swap (fun d b => nth a q 0 * nth b q' 0 * (coord (nth a vs zero3) d * coord (nth b vs zero3) d)) axes (seq 0 n)).
  f_equal. apply map_ext. intros b. now rewrite rsum_map_scal.
Qed.
Lemma sqlen_scalar axes v : sqlen axes v = scalar axes v v. Proof. reflexivity. Qed.

(** ** The average over observations *)
Lemma average_tab_plus n (f g : nat -> R) : average (tab n (fun t => f t + g t)) = average (tab n f) + average (tab n g).
Proof. unfold average. rewrite !tab_length. unfold tab. rewrite rsum_map_plus. unfold Rdiv. ring. Qed.
Lemma average_tab_scal n c (f : nat -> R) : average (tab n (fun t => c * f t)) = c * average (tab n f).
Proof. unfold average. rewrite !tab_length. unfold tab. rewrite rsum_map_scal. unfold Rdiv. ring. Qed.
Lemma at_length (d : Arr R) n t : arr_wf d -> length (a_rows d) = n -> (t < a_obs d)%nat -> length (at_time d t) = n.
Proof. intros W L Ht. rewrite at_time_wf by assumption. now rewrite map_length. Qed.
Lemma pairs_average n q q' (d : Arr R) : arr_wf d -> length (a_rows d) = n -> length q = n -> length q' = n ->
  average (tab (a_obs d) (fun t => scalar all_axes (carried q (at_time d t)) (carried q' (at_time d t)))) = over_pairs n q q' (together d).
Proof.
  intros W L Hq Hq'. rewrite (tab_ext' _ (fun t => over_pairs n q q' (fun a b => scalar all_axes (nth a (at_time d t) zero3) (nth b (at_time d t) zero3)))).
  2:{ intros t Ht. apply carried_pairs; [assumption..|]. now apply at_length. }
  unfold over_pairs. rewrite (average_tab_sum (fun t a => rsum (map (fun b => nth a q 0 * nth b q' 0 * scalar all_axes (nth a (at_time d t) zero3) (nth b (at_time d t) zero3)) (seq 0 n)))).
  f_equal. apply map_ext. intros a. rewrite (average_tab_sum (fun t b => nth a q 0 * nth b q' 0 * scalar all_axes (nth a (at_time d t) zero3) (nth b (at_time d t) zero3))).
  f_equal. apply map_ext. intros b. now rewrite average_tab_scal.
Qed.
Lemma mscd_pairs n q (d : Arr R) : arr_wf d -> length (a_rows d) = n -> length q = n -> mscd_of all_axes q d = over_pairs n q q (together d).
Proof. intros W L Hq. rewrite <- pairs_average by assumption. reflexivity. Qed.
Lemma scalar_sym axes a b : scalar axes a b = scalar axes b a.
Proof. unfold scalar. f_equal. apply map_ext. intros c. ring. Qed.
Lemma together_sym d a b : together d a b = together d b a.
Proof. unfold together. f_equal. apply tab_ext'. intros t _. apply scalar_sym. Qed.

(** ** Sums over pairs *)
Lemma over_pairs_ext n q1 q1' q2 q2' L : (forall a, (a < n)%nat -> nth a q1 0 = nth a q1' 0) -> (forall a, (a < n)%nat -> nth a q2 0 = nth a q2' 0) -> over_pairs n q1 q2 L = over_pairs n q1' q2' L.
Proof. intros H H'. unfold over_pairs. f_equal. apply map_ext_in. intros a Ha. apply in_seq in Ha. f_equal. apply map_ext_in. intros b Hb. apply in_seq in Hb. rewrite H, H' by lia. reflexivity. Qed.
Lemma over_pairs_lin n q q1 q2 q' s L : (forall a, (a < n)%nat -> nth a q 0 = nth a q1 0 + s * nth a q2 0) -> over_pairs n q q' L = over_pairs n q1 q' L + s * over_pairs n q2 q' L.
Proof.
  intros H. unfold over_pairs. rewrite <- rsum_map_scal, <- rsum_map_plus. f_equal. apply map_ext_in. intros a Ha. apply in_seq in Ha.
  rewrite <- rsum_map_scal, <- rsum_map_plus. f_equal. apply map_ext. intros b. rewrite H by lia. ring.
Qed.
Lemma over_pairs_sym n q q' d : over_pairs n q q' (together d) = over_pairs n q' q (together d).
Proof.
  unfold over_pairs. rewrite (rsum_swap (fun a b => nth a q 0 * nth b q' 0 * together d a b)). f_equal. apply map_ext. intros a. f_equal. apply map_ext. intros b.
  rewrite (together_sym d b a). ring.
Qed.
Lemma over_pairs_square n q q1 q2 s d : (forall a, (a < n)%nat -> nth a q 0 = nth a q1 0 + s * nth a q2 0) ->
  over_pairs n q q (together d) = over_pairs n q1 q1 (together d) + 2 * s * over_pairs n q1 q2 (together d) + s * s * over_pairs n q2 q2 (together d).
Proof.
  intros H. rewrite (over_pairs_lin n q q1 q2 q s) by exact H. rewrite (over_pairs_sym n q1 q), (over_pairs_sym n q2 q).
  rewrite (over_pairs_lin n q q1 q2 q1 s), (over_pairs_lin n q q1 q2 q2 s) by exact H. rewrite (over_pairs_sym n q2 q1). ring.
Qed.
Lemma mscd_nonneg axes q d : 0 <= mscd_of axes q d.
Proof. unfold mscd_of. apply average_nonneg. apply Forall_forall. intros x Hx. apply in_map_iff in Hx. destruct Hx as (t & <- & _). apply sqlen_nonneg. Qed.
Lemma zip_nth (f : R -> R -> R) : forall q q' a, length q = length q' -> (a < length q)%nat -> nth a (map (fun p => f (fst p) (snd p)) (combine q q')) 0 = f (nth a q 0) (nth a q' 0).
Proof. induction q as [|x q IH]; intros [|y q'] a L Ha; try discriminate; cbn in Ha; [lia|]. destruct a as [|a]; [reflexivity|]. cbn. apply IH; [now injection L|lia]. Qed.
Lemma over_pairs_bound n q q' (d : Arr R) : arr_wf d -> length (a_rows d) = n -> length q = n -> length q' = n ->
  over_pairs n q q' (together d) * over_pairs n q q' (together d) <= over_pairs n q q (together d) * over_pairs n q' q' (together d).
Proof.
  intros W L Hq Hq'. set (A := over_pairs n q q (together d)). set (B := over_pairs n q' q' (together d)). set (C := over_pairs n q q' (together d)).
  assert (A0 : 0 <= A) by (unfold A; rewrite <- mscd_pairs by assumption; apply mscd_nonneg).
  assert (B0 : 0 <= B) by (unfold B; rewrite <- mscd_pairs by assumption; apply mscd_nonneg).
  assert (P : forall s, 0 <= A + 2 * s * C + s * s * B).
  { intros s. unfold A, B, C. rewrite <- (over_pairs_square n (map (fun p => (fun x y => x + s * y) (fst p) (snd p)) (combine q q')) q q' s d).
    2:{ intros a Ha. rewrite (zip_nth (fun x y => x + s * y)) by lia. reflexivity. }
    rewrite <- mscd_pairs; [apply mscd_nonneg|assumption..|]. rewrite map_length, combine_length. lia. }
  destruct (Req_dec B 0) as [Z|Z].
  - assert (C = 0); [|subst; nra]. destruct (Req_dec C 0) as [|NC]; [assumption|exfalso]. specialize (P (- (A + 1) / (2 * C))). rewrite Z in P.
    replace (A + 2 * (- (A + 1) / (2 * C)) * C + - (A + 1) / (2 * C) * (- (A + 1) / (2 * C)) * 0) with (- 1) in P by (field; exact NC). lra.
  - specialize (P (- C / B)). replace (A + 2 * (- C / B) * C + - C / B * (- C / B) * B) with (A - C * C / B) in P by (field; exact Z).
    assert (C * C / B <= A) by lra. apply (Rmult_le_compat_r B) in H; [|exact B0]. replace (C * C / B * B) with (C * C) in H by (field; exact Z). lra.
Qed.

(** ** The analyser *)
Open Scope Z_scope.
Section Onsager.
  Context {G Seed RS : Type} (X : Ext R G Seed RS) (d : AnalyzerData R) (u : BootParams R) (natoms : nat).
  Hypotheses (Hk : 0 < u_sub_sample_dt u) (Hb : u_block u = false) (W : Forall arr_wf (an_disp_3d d)) (L : Forall (fun x => length (a_rows x) = natoms) (an_disp_3d d)).
  Lemma one_shown q g an g' j v : (forall l, q = QArray l -> length l = natoms) -> conductivity_analyzer X d q u g = Ok (an, g') -> nth_error (b_n (an_diff an)) j = Some v ->
    exists arr, nth_error (an_disp_3d d) (j * Z.to_nat (u_sub_sample_dt u)) = Some arr /\ arr_wf arr /\ length (a_rows arr) = natoms /\ v = over_pairs natoms (charges q natoms) (charges q natoms) (together arr).
  Proof.
    intros Hq H Hv. unfold conductivity_analyzer in H. destruct (mscd_bootstrap X u (an_delta_t d) (an_disp_3d d) q (an_n_o d) g) as [[b g1]|e] eqn:E; cbn [bind] in H; [|discriminate].
    injection H as <- <-. cbn [an_diff] in Hv. destruct (C30_proof X _ _ _ _ _ _ _ _ natoms Hk Hb W L Hq E) as (used & shown & S1 & (rest & S2 & _) & S3).
    rewrite S3 in Hv. rewrite nth_error_map in Hv. destruct (nth_error shown j) as [arr|] eqn:EA; [|discriminate]. cbn in Hv. injection Hv as <-. exists arr.
    assert (N : nth_error (an_disp_3d d) (j * Z.to_nat (u_sub_sample_dt u)) = Some arr).
    { rewrite <- S1. assert (Q : nth_error (firstn (Nat.div (length used) 2) used) j = Some arr) by (rewrite S2; rewrite nth_error_app1; [exact EA|apply nth_error_Some; congruence]).
      assert (Hj : (j < length (firstn (Nat.div (length used) 2) used))%nat) by (apply nth_error_Some; congruence).
      rewrite firstn_length in Hj. rewrite <- (firstn_skipn (Nat.div (length used) 2) used). rewrite nth_error_app1; [exact Q|]. rewrite firstn_length. exact Hj. }
    split; [exact N|]. apply nth_error_In in N. rewrite Forall_forall in W, L. specialize (W _ N). specialize (L _ N). split; [exact W|]. split; [exact L|].
    apply mscd_pairs; [assumption..|]. destruct q; cbn; [apply repeat_length|now apply Hq].
  Qed.
  Lemma C125_pairs_proof q g an g' j v : (forall l, q = QArray l -> length l = natoms) -> conductivity_analyzer X d q u g = Ok (an, g') -> nth_error (b_n (an_diff an)) j = Some v ->
    exists arr, nth_error (an_disp_3d d) (j * Z.to_nat (u_sub_sample_dt u)) = Some arr /\ v = over_pairs natoms (charges q natoms) (charges q natoms) (together arr)
      /\ (forall a b, together arr a b = together arr b a) /\ forall q' : list R, length q' = natoms -> (0 <= over_pairs natoms q' q' (together arr))%R.
  Proof.
    intros Hq H Hv. destruct (one_shown q g an g' j v Hq H Hv) as (arr & N & Wa & La & V). exists arr. split; [exact N|]. split; [exact V|]. split; [intros; apply together_sym|].
    intros q' Hq'. rewrite <- mscd_pairs by assumption. apply mscd_nonneg.
  Qed.
  Lemma C125_three_proof q1 q2 g g1 g2 h h1 h2 an an1 an2 j v v1 v2 : length q1 = natoms -> length q2 = natoms ->
    conductivity_analyzer X d (QArray q1) u g1 = Ok (an1, h1) -> conductivity_analyzer X d (QArray q2) u g2 = Ok (an2, h2) ->
    conductivity_analyzer X d (QArray (add_charges q1 q2)) u g = Ok (an, h) ->
    nth_error (b_n (an_diff an1)) j = Some v1 -> nth_error (b_n (an_diff an2)) j = Some v2 -> nth_error (b_n (an_diff an)) j = Some v ->
    (exists arr, nth_error (an_disp_3d d) (j * Z.to_nat (u_sub_sample_dt u)) = Some arr /\ (v - v1 - v2 = 2 * over_pairs natoms q1 q2 (together arr))%R)
    /\ ((v - v1 - v2) * (v - v1 - v2) <= 4 * v1 * v2)%R.
  Proof.
    intros H1 H2 R1 R2 R V1 V2 V.
    assert (HS : length (add_charges q1 q2) = natoms) by (unfold add_charges; rewrite map_length, combine_length; lia).
    destruct (one_shown (QArray q1) _ _ _ _ _ ltac:(intros l [= <-]; exact H1) R1 V1) as (a & N & Wa & La & E1).
    destruct (one_shown (QArray q2) _ _ _ _ _ ltac:(intros l [= <-]; exact H2) R2 V2) as (a2 & N2 & _ & _ & E2).
    destruct (one_shown (QArray (add_charges q1 q2)) _ _ _ _ _ ltac:(intros l [= <-]; exact HS) R V) as (a3 & N3 & _ & _ & E).
    rewrite N in N2, N3. injection N2 as <-. injection N3 as <-. cbn [charges] in E1, E2, E.
    assert (Q := over_pairs_square natoms (add_charges q1 q2) q1 q2 1 a). rewrite <- E in Q.
    assert (Q' : (v = v1 + 2 * over_pairs natoms q1 q2 (together a) + v2)%R).
    { rewrite Q; [rewrite <- E1, <- E2; ring|]. intros i Hi. unfold add_charges. rewrite (zip_nth Rplus) by lia. ring. }
    split; [exists a; split; [exact N|lra]|]. assert (B := over_pairs_bound natoms q1 q2 a Wa La H1 H2). rewrite <- E1, <- E2 in B. rewrite Q'. nra.
  Qed.
  Lemma C125_law_proof q1 q2 g1 g2 g3 g4 h1 h2 h3 h4 an1 an2 an3 an4 j v1 v2 v3 v4 : length q1 = natoms -> length q2 = natoms ->
    conductivity_analyzer X d (QArray q1) u g1 = Ok (an1, h1) -> conductivity_analyzer X d (QArray q2) u g2 = Ok (an2, h2) ->
    conductivity_analyzer X d (QArray (add_charges q1 q2)) u g3 = Ok (an3, h3) -> conductivity_analyzer X d (QArray (subtract_charges q1 q2)) u g4 = Ok (an4, h4) ->
    nth_error (b_n (an_diff an1)) j = Some v1 -> nth_error (b_n (an_diff an2)) j = Some v2 -> nth_error (b_n (an_diff an3)) j = Some v3 -> nth_error (b_n (an_diff an4)) j = Some v4 ->
    (v3 + v4 = 2 * v1 + 2 * v2)%R.
  Proof.
    intros H1 H2 R1 R2 R3 R4 V1 V2 V3 V4.
    assert (HS : length (add_charges q1 q2) = natoms) by (unfold add_charges; rewrite map_length, combine_length; lia).
    assert (HD : length (subtract_charges q1 q2) = natoms) by (unfold subtract_charges; rewrite map_length, combine_length; lia).
    destruct (one_shown (QArray q1) _ _ _ _ _ ltac:(intros l [= <-]; exact H1) R1 V1) as (a & N & Wa & La & E1).
    destruct (one_shown (QArray q2) _ _ _ _ _ ltac:(intros l [= <-]; exact H2) R2 V2) as (a2 & N2 & _ & _ & E2).
    destruct (one_shown (QArray (add_charges q1 q2)) _ _ _ _ _ ltac:(intros l [= <-]; exact HS) R3 V3) as (a3 & N3 & _ & _ & E3).
    destruct (one_shown (QArray (subtract_charges q1 q2)) _ _ _ _ _ ltac:(intros l [= <-]; exact HD) R4 V4) as (a4 & N4 & _ & _ & E4).
    rewrite N in N2, N3, N4. injection N2 as <-. injection N3 as <-. injection N4 as <-. cbn [charges] in E1, E2, E3, E4.
    rewrite (over_pairs_square natoms (add_charges q1 q2) q1 q2 1 a) in E3 by (intros i Hi; unfold add_charges; rewrite (zip_nth Rplus) by lia; ring).
    rewrite (over_pairs_square natoms (subtract_charges q1 q2) q1 q2 (-1) a) in E4 by (intros i Hi; unfold subtract_charges; rewrite (zip_nth Rminus) by lia; ring).
    lra.
  Qed.
  Lemma repeat_at (c : R) : forall n a, (a < n)%nat -> nth a (repeat c n) 0%R = c.
  Proof. induction n as [|n IH]; intros [|a] Ha; cbn; [lia|lia|reflexivity|apply IH; lia]. Qed.
  (** Ions that do not move together *)
  Lemma over_pairs_diagonal n q M : (forall a b, (a < n)%nat -> (b < n)%nat -> a <> b -> M a b = 0%R) -> over_pairs n q q M = rsum (map (fun a => nth a q 0 * nth a q 0 * M a a)%R (seq 0 n)).
  Proof.
    intros H. unfold over_pairs. f_equal. apply map_ext_in. intros a Ha. apply in_seq in Ha. replace n with (a + S (n - S a))%nat at 1 by lia. rewrite seq_app, map_app, rsum_app. cbn [seq map]. rewrite rsum_cons.
    rewrite (map_ext_in _ (fun _ => 0%R) (seq 0 a)) by (intros b Hb'; apply in_seq in Hb'; rewrite H by lia; ring).
    rewrite (map_ext_in _ (fun _ => 0%R) (seq (S (0 + a)) (n - S a))) by (intros b Hb'; apply in_seq in Hb'; rewrite H by lia; ring). rewrite !rsum_const. cbn [Nat.add]. ring.
  Qed.
  Lemma trace_msd (x : Arr R) : arr_wf x -> (1 < length (entries x))%nat -> length (a_rows x) = natoms -> rsum (map (fun a => together x a a) (seq 0 natoms)) = (INR natoms * msd_of all_axes x)%R.
  Proof.
    intros Wx Ho Lx. unfold together. rewrite <- (average_tab_sum (fun t a => scalar all_axes (nth a (at_time x t) zero3) (nth a (at_time x t) zero3))).
    rewrite (tab_ext' _ (fun t => rsum (map (sqlen all_axes) (at_time x t)))).
    2:{ intros t Ht. assert (Q := map_nth_seq zero3 (at_time x t)). rewrite (at_length x natoms t Wx Lx Ht) in Q. transitivity (rsum (map (sqlen all_axes) (map (fun i => nth i (at_time x t) zero3) (seq 0 natoms)))); [now rewrite map_map|now rewrite Q]. }
    unfold average. rewrite tab_length, rsum_tab_msd by (assumption || lia). rewrite Lx. field. intros Z. rewrite (entries_count x Wx) in Ho.
    apply INR_eq with (m := 0%nat) in Z. rewrite Z in Ho. lia.
  Qed.
  Lemma C125_self_proof q g g1 h h1 an an1 j v m : names (pystr_text (u_dimension u)) all_axes -> (forall l, q = QArray l -> length l = natoms) ->
    conductivity_analyzer X d q u g = Ok (an, h) -> diffusion_analyzer X d u g1 = Ok (an1, h1) ->
    nth_error (b_n (an_diff an)) j = Some v -> nth_error (b_n (an_diff an1)) j = Some m ->
    exists arr, nth_error (an_disp_3d d) (j * Z.to_nat (u_sub_sample_dt u)) = Some arr
      /\ (INR natoms * m = rsum (map (fun a => together arr a a) (seq 0 natoms)))%R
      /\ ((forall a b, (a < natoms)%nat -> (b < natoms)%nat -> a <> b -> together arr a b = 0%R) ->
          v = rsum (map (fun a => nth a (charges q natoms) 0 * nth a (charges q natoms) 0 * together arr a a)%R (seq 0 natoms))
          /\ forall c, q = QScalar c -> (v = c * c * (INR natoms * m))%R).
  Proof.
    intros Hn Hq H H1 V M. destruct (one_shown q _ _ _ _ _ Hq H V) as (arr & N & Wa & La & E). exists arr. split; [exact N|].
    unfold diffusion_analyzer in H1. destruct (msd_bootstrap X u (an_delta_t d) (an_disp_3d d) (an_n_o d) g1) as [[b g2]|e] eqn:EB; cbn [bind] in H1; [|discriminate]. injection H1 as <- <-. cbn [an_diff] in M.
    destruct (curve_msd X _ _ _ _ _ _ _ _ _ Hk Hb EB M) as (axes & x & A1 & A2 & A3 & A4). rewrite N in A2. injection A2 as <-.
    assert (axes = all_axes) by (eapply names_unique; eassumption). subst axes.
    assert (TR := trace_msd arr Wa A4 La). rewrite <- A3 in TR. split; [now symmetry|]. intros Z. rewrite (over_pairs_diagonal natoms (charges q natoms) (together arr) Z) in E. split; [exact E|].
    intros c ->. cbn [charges] in E. rewrite E, <- TR, <- rsum_map_scal. f_equal. apply map_ext_in. intros a Ha. apply in_seq in Ha. rewrite (repeat_at c natoms a) by lia. ring.
  Qed.
End Onsager.
Lemma C125_example_proof G Seed RS (X : Ext R G Seed RS) (g : G) : let d := mkAnalyzer [1;2]%R duo [4;3]%R (Some 1%R) in
  exists a1 a2 a3 a4 a5, conductivity_analyzer X d (QArray [1; 0]%R) (demo_boot 1 "xyz") g = Ok (a1, g) /\ conductivity_analyzer X d (QArray [0; 1]%R) (demo_boot 1 "xyz") g = Ok (a2, g)
  /\ conductivity_analyzer X d (QArray (add_charges [1; 0] [0; 1])%R) (demo_boot 1 "xyz") g = Ok (a3, g)
  /\ conductivity_analyzer X d (QArray (subtract_charges [1; 0] [0; 1])%R) (demo_boot 1 "xyz") g = Ok (a4, g) /\ diffusion_analyzer X d (demo_boot 1 "xyz") g = Ok (a5, g)
  /\ b_n (an_diff a1) = [5 / 2]%R /\ b_n (an_diff a2) = [5 / 2]%R /\ b_n (an_diff a3) = [10]%R /\ b_n (an_diff a4) = [0]%R
  /\ Forall arr_wf (an_disp_3d d) /\ Forall (fun d => length (a_rows d) = 2%nat) (an_disp_3d d).
Proof.
  intros d. destruct duo_ok as (W & N & _).
  assert (K : forall q, length q = 2%nat -> exists an, conductivity_analyzer X d (QArray q) (demo_boot 1 "xyz") g = Ok (an, g)
    /\ b_n (an_diff an) = [mscd_of all_axes q (let r := [mkV 1 0 0; mkV 0 2 0] in mkArr 2 [r; r])%R]).
  { intros q Hq. assert (Hq' : forall l, QArray q = QArray l -> length l = 2%nat) by (intros l [= <-]; exact Hq).
    destruct (mscd_total X (demo_boot 1 "xyz") [1;2]%R duo (QArray q) [4;3]%R all_axes 2 g eq_refl eq_refl names_xyz) as (b & B); try (discriminate || assumption || (repeat constructor; fail) || (cbn; lia)).
    unfold conductivity_analyzer, d. cbn [an_delta_t an_disp_3d an_n_o]. rewrite B. cbn [bind]. eexists. split; [reflexivity|]. cbn [an_diff].
    destruct (C30_proof X (demo_boot 1 "xyz") _ _ _ _ _ _ _ 2%nat eq_refl eq_refl W N Hq' B) as (used & shown & H2 & H3 & ->).
    cbn [demo_boot u_sub_sample_dt] in H2. change (Z.to_nat 1) with 1%nat in H2. apply sub_sample_one in H2. subst used.
    assert (ES : shown = [(let r := [mkV 1 0 0; mkV 0 2 0] in mkArr 2 [r; r])%R]) by (eapply leading_all; [|exact H3]; repeat constructor).
    rewrite ES. reflexivity. }
  destruct (K [1; 0]%R eq_refl) as (a1 & R1 & V1). destruct (K [0; 1]%R eq_refl) as (a2 & R2 & V2).
  destruct (K (add_charges [1; 0] [0; 1])%R eq_refl) as (a3 & R3 & V3). destruct (K (subtract_charges [1; 0] [0; 1])%R eq_refl) as (a4 & R4 & V4).
  destruct (msd_total X (demo_boot 1 "xyz") [1;2]%R duo [4;3]%R all_axes g eq_refl eq_refl names_xyz) as (b & B); try (discriminate || (repeat constructor; fail) || (cbn; lia)).
  exists a1, a2, a3, a4. exists (mkAn d b). split; [exact R1|]. split; [exact R2|]. split; [exact R3|]. split; [exact R4|]. split.
  { unfold diffusion_analyzer, d. cbn [an_delta_t an_disp_3d an_n_o]. rewrite B. reflexivity. }
  rewrite V1, V2, V3, V4. unfold mscd_of, average, add_charges, subtract_charges, sqlen, sum3, scale3, all_axes. cbn. repeat split; try assumption; f_equal; field.
Qed.
Lemma C125_refuted_proof G Seed RS (X : Ext R G Seed RS) (g : G) : exists d q1 q2 a1 a2 a, length q1 = 2%nat /\ length q2 = 2%nat
  /\ conductivity_analyzer X d (QArray q1) (demo_boot 1 "xyz") g = Ok (a1, g) /\ conductivity_analyzer X d (QArray q2) (demo_boot 1 "xyz") g = Ok (a2, g)
  /\ conductivity_analyzer X d (QArray (add_charges q1 q2)) (demo_boot 1 "xyz") g = Ok (a, g)
  /\ b_n (an_diff a1) = [5 / 2]%R /\ b_n (an_diff a2) = [5 / 2]%R /\ b_n (an_diff a) = [10]%R.
Proof.
  destruct (C125_example_proof G Seed RS X g) as (a1 & a2 & a3 & a4 & a5 & R1 & R2 & R3 & _ & _ & V1 & V2 & V3 & _).
  exists (mkAnalyzer [1;2]%R duo [4;3]%R (Some 1%R)), [1; 0]%R, [0; 1]%R, a1, a2, a3. repeat split; assumption.
Qed.
(** Two ions moving at right angles *)
Definition crossing : Arr R := mkArr 2 [[mkV 1 0 0; mkV 2 0 0]; [mkV 0 1 0; mkV 0 3 0]]%R.
Lemma C125_self_example_proof G Seed RS (X : Ext R G Seed RS) (g : G) : let d := mkAnalyzer [1;2]%R [crossing; crossing] [4;3]%R (Some 1%R) in
  exists a1 a2 v m, conductivity_analyzer X d (QScalar 2%R) (demo_boot 1 "xyz") g = Ok (a1, g) /\ diffusion_analyzer X d (demo_boot 1 "xyz") g = Ok (a2, g)
  /\ nth_error (b_n (an_diff a1)) 0 = Some v /\ nth_error (b_n (an_diff a2)) 0 = Some m /\ v = 30%R
  /\ nth_error (an_disp_3d d) 0 = Some crossing /\ (forall a b, (a < 2)%nat -> (b < 2)%nat -> a <> b -> together crossing a b = 0%R).
Proof.
  intros d. assert (W : Forall arr_wf [crossing; crossing]) by repeat constructor. assert (N : Forall (fun d => length (a_rows d) = 2%nat) [crossing; crossing]) by repeat constructor.
  destruct (mscd_total X (demo_boot 1 "xyz") [1;2]%R [crossing; crossing] (QScalar 2%R) [4;3]%R all_axes 2 g eq_refl eq_refl names_xyz) as (b & B); try (discriminate || assumption || (repeat constructor; fail) || (cbn; lia)).
  destruct (msd_total X (demo_boot 1 "xyz") [1;2]%R [crossing; crossing] [4;3]%R all_axes g eq_refl eq_refl names_xyz) as (b1 & B1); try (discriminate || (repeat constructor; fail) || (cbn; lia)).
  assert (Hq : forall l, QScalar 2%R = QArray l -> length l = 2%nat) by (intros; discriminate).
  exists (mkAn d b), (mkAn d b1). destruct (C30_proof X (demo_boot 1 "xyz") _ _ _ _ _ _ _ 2%nat eq_refl eq_refl W N Hq B) as (used & shown & H2 & H3 & V).
  destruct (msd_run_means X (demo_boot 1 "xyz") _ _ _ _ _ _ eq_refl eq_refl B1) as (axes & used1 & shown1 & N1 & N2 & N3 & N4).
  cbn [demo_boot u_sub_sample_dt] in H2, N2. change (Z.to_nat 1) with 1%nat in H2, N2. apply sub_sample_one in H2, N2. subst used used1.
  assert (ES : shown = [crossing]) by (eapply leading_all; [|exact H3]; repeat constructor).
  assert (ES1 : shown1 = [crossing; crossing]) by (eapply leading_all; [|exact N3]; repeat constructor). subst shown shown1.
  do 2 eexists. split. { unfold conductivity_analyzer, d. cbn [an_delta_t an_disp_3d an_n_o]. rewrite B. reflexivity. }
  split. { unfold diffusion_analyzer, d. cbn [an_delta_t an_disp_3d an_n_o]. rewrite B1. reflexivity. }
  cbn [an_diff]. rewrite V, N4. cbn [map nth_error]. split; [reflexivity|]. split; [reflexivity|]. split; [|split; [reflexivity|]].
  - unfold mscd_of, average, sqlen, sum3, scale3, all_axes. cbn. field.
  - intros [|[|a]] [|[|b']] Ha Hb Hn; try lia; unfold together, average, scalar, all_axes; cbn; field.
Qed.
