(** * ProofsCollective: collective against single-particle displacements (C72) *)
From Verif Require Import Base Spec SpecParser SpecStats ModelParser ModelDiffusion ModelHdf ModelAnalyzer
  Lemmas ProofsBoot ProofsStats ProofsStats2 SpecRun SpecAnalyzer ProofsTraj ProofsAnalyzer SpecInterfaces.
From Coq Require Import Reals Lra Lia Permutation.
Open Scope Z_scope.

(** Cauchy-Schwarz for lists. *)
Lemma rsum_sq_nonneg (l : list R) : (0 <= rsum (map (fun x => x * x) l))%R.
Proof. induction l as [|x l IH]; cbn; [lra|]. pose proof (Rle_0_sqr x) as Q. unfold Rsqr in Q. lra. Qed.
Definition dot (q x : list R) : R := rsum (map (fun p => fst p * snd p)%R (combine q x)).
Lemma dot_cons a q b x : dot (a :: q) (b :: x) = (a * b + dot q x)%R.
Proof. reflexivity. Qed.
Lemma cs_step (a b d s t : R) : (d * d <= s * t -> 0 <= s -> 0 <= t -> (a * b + d) * (a * b + d) <= (a * a + s) * (b * b + t))%R.
Proof.
  intros H Hs Ht. assert (K : (2 * (a * b * d) <= a * a * t + s * (b * b))%R).
  { (* (a sqrt t - b sqrt s)^2 >= 0 *)
    pose proof (sqrt_sqrt _ Hs) as Es. pose proof (sqrt_sqrt _ Ht) as Et. pose proof (sqrt_pos s) as Ps. pose proof (sqrt_pos t) as Pt.
    revert Es Et Ps Pt. generalize (sqrt s) (sqrt t). intros u v Es Et Ps Pt. subst s t.
    assert (D : (Rabs d <= u * v)%R).
    { apply Rsqr_incr_0; [|apply Rabs_pos|apply Rmult_le_pos; assumption]. rewrite <- Rsqr_abs. unfold Rsqr. nra. }
    assert (D2 : (a * b * d <= Rabs (a * b) * (u * v))%R).
    { eapply Rle_trans; [apply Rle_abs|]. rewrite Rabs_mult. apply Rmult_le_compat_l; [apply Rabs_pos|exact D]. }
    rewrite Rabs_mult in D2. assert (Ea : (Rabs a * Rabs a = a * a)%R) by (rewrite <- Rabs_mult; apply Rabs_pos_eq; nra).
    assert (Eb : (Rabs b * Rabs b = b * b)%R) by (rewrite <- Rabs_mult; apply Rabs_pos_eq; nra).
    revert D2 Ea Eb. generalize (Rabs a) (Rabs b). intros A B D2 Ea Eb. rewrite <- Ea, <- Eb. pose proof (Rle_0_sqr (A * v - B * u)%R) as Q. unfold Rsqr in Q. nra. }
  nra.
Qed.
Lemma cauchy (q : list R) : forall x, length x = length q ->
  (dot q x * dot q x <= rsum (map (fun c => c * c) q) * rsum (map (fun c => c * c) x))%R.
Proof.
  induction q as [|a q IH]; intros [|b x] H; try discriminate; cbn [map].
  - unfold dot. cbn. lra.
  - rewrite dot_cons, !rsum_cons. apply cs_step; [apply IH; cbn in H; lia| |]; apply rsum_sq_nonneg.
Qed.
(** Weighted sums of vectors. *)
Lemma coord_sum3 ax l : coord (sum3 l) ax = rsum (map (fun v => coord v ax) l).
Proof. destruct ax; reflexivity. Qed.
Lemma weighted_coord ax q l : coord (sum3 (map (fun p => scale3 (fst p) (snd p)) (combine q l))) ax = dot q (map (fun v => coord v ax) l).
Proof.
  rewrite coord_sum3. unfold dot. revert l. induction q as [|a q IH]; intros [|v l]; try reflexivity. cbn [combine map]. rewrite !rsum_cons, IH.
  destruct ax; reflexivity.
Qed.
Lemma rsum_map_plus {T} (f g : T -> R) l : rsum (map (fun x => f x + g x)%R l) = (rsum (map f l) + rsum (map g l))%R.
Proof. induction l as [|x l IH]; cbn [map]; [cbn; lra|]. rewrite !rsum_cons, IH. lra. Qed.
Lemma rsum_map_scal {T} c (f : T -> R) l : rsum (map (fun x => c * f x)%R l) = (c * rsum (map f l))%R.
Proof. induction l as [|x l IH]; cbn [map]; [cbn; lra|]. rewrite !rsum_cons, IH. lra. Qed.
Lemma rsum_map_le {T} (f g : T -> R) l : (forall x, In x l -> (f x <= g x)%R) -> (rsum (map f l) <= rsum (map g l))%R.
Proof. induction l as [|x l IH]; intros H; cbn [map]; [lra|]. rewrite !rsum_cons. pose proof (H x (or_introl eq_refl)). assert (rsum (map f l) <= rsum (map g l))%R by (apply IH; intros; apply H; now right). lra. Qed.
Lemma weighted_bound axes q l : length l = length q ->
  (sqlen axes (sum3 (map (fun p => scale3 (fst p) (snd p)) (combine q l))) <= rsum (map (fun c => c * c) q) * rsum (map (sqlen axes) l))%R.
Proof.
  intros H. unfold sqlen at 1. induction axes as [|ax axes IH]; cbn [map].
  - cbn. replace (rsum (map (sqlen []) l)) with 0%R; [lra|]. clear H. induction l as [|v l IH]; cbn; [reflexivity|]. unfold sqlen in *. cbn in *. lra.
  - rewrite rsum_cons, weighted_coord.
    assert (E : rsum (map (sqlen (ax :: axes)) l) = (rsum (map (fun c => c * c) (map (fun v => coord v ax) l)) + rsum (map (sqlen axes) l))%R).
    { rewrite map_map, <- rsum_map_plus. reflexivity. }
    rewrite E. pose proof (cauchy q (map (fun v => coord v ax) l)) as C. rewrite map_length in C. specialize (C H). lra.
Qed.
(** Sums over observations and atoms can be taken in either order. *)
Lemma sum_over_times (f : V3 R -> R) (d : Arr R) : arr_wf d ->
  rsum (tab (a_obs d) (fun t => rsum (map f (at_time d t)))) = rsum (map f (entries d)).
Proof.
  unfold arr_wf, entries, at_time, tab. destruct d as [n rows]. cbn [a_obs a_rows]. intros H. induction H as [|r rows Hr _ IH].
  - cbn. induction (seq 0 n) as [|x s IH]; cbn; [reflexivity|]. rewrite IH. lra.
  - cbn [List.concat flat_map]. rewrite map_app, rsum_app, <- IH.
    assert (E : rsum (map f r) = rsum (map (fun t => rsum (map f (match nth_error r t with Some v => [v] | None => [] end))) (seq 0 n))).
    { subst n. clear. induction r as [|v r IH]; [reflexivity|]. cbn [length seq map]. rewrite rsum_cons, IH, <- seq_shift, map_map. cbn. lra. }
    rewrite E, <- rsum_map_plus. f_equal. apply map_ext. intros t. now rewrite map_app, rsum_app.
Qed.
Lemma at_times_length (d : Arr R) t : arr_wf d -> (t < a_obs d)%nat -> length (at_time d t) = length (a_rows d).
Proof. intros H Ht. rewrite at_time_wf by assumption. apply map_length. Qed.
Lemma entries_count (d : Arr R) : arr_wf d -> length (entries d) = (length (a_rows d) * a_obs d)%nat.
Proof. intros H. apply arr_shape_entries. split; [|reflexivity]. split; [reflexivity|exact H]. Qed.
Lemma rsum_tab_msd axes d : arr_wf d -> (0 < length (entries d))%nat ->
  rsum (tab (a_obs d) (fun t => rsum (map (sqlen axes) (at_time d t)))) = (INR (length (a_rows d)) * INR (a_obs d) * msd_of axes d)%R.
Proof.
  intros W H. rewrite sum_over_times by exact W. unfold msd_of, average. rewrite map_length, entries_count, mult_INR in * by exact W.
  assert (N : (0 < length (a_rows d))%nat /\ (0 < a_obs d)%nat) by nia. destruct N as [N O]. apply lt_INR in N, O. cbn in N, O. field. lra.
Qed.
Lemma mscd_bound axes q d : arr_wf d -> length q = length (a_rows d) -> (0 < length (entries d))%nat ->
  (mscd_of axes q d <= INR (length (a_rows d)) * rsum (map (fun c => c * c) q) * msd_of axes d)%R.
Proof.
  intros W Lq H. pose proof (rsum_tab_msd axes d W H) as S. rewrite entries_count in H by exact W.
  assert (O : (0 < a_obs d)%nat) by nia. apply lt_INR in O. cbn in O.
  unfold mscd_of, average. rewrite tab_length. apply Rmult_le_reg_r with (INR (a_obs d)); [exact O|].
  replace (rsum (tab (a_obs d) (fun t => sqlen axes (sum3 (map (fun p => scale3 (fst p) (snd p)) (combine q (at_time d t)))))) / INR (a_obs d) * INR (a_obs d))%R
    with (rsum (tab (a_obs d) (fun t => sqlen axes (sum3 (map (fun p => scale3 (fst p) (snd p)) (combine q (at_time d t))))))) by (field; lra).
  replace (INR (length (a_rows d)) * rsum (map (fun c => c * c) q) * msd_of axes d * INR (a_obs d))%R
    with (rsum (map (fun c => c * c) q) * (INR (length (a_rows d)) * INR (a_obs d) * msd_of axes d))%R by ring.
  rewrite <- S. unfold tab. rewrite <- rsum_map_scal. apply rsum_map_le. intros t Ht. apply in_seq in Ht. apply weighted_bound. rewrite at_times_length by (assumption || lia). congruence.
Qed.
Lemma mstd_is_mscd axes d : arr_wf d -> mstd_of axes d = mscd_of axes (repeat 1%R (length (a_rows d))) d.
Proof.
  intros W. unfold mstd_of, mscd_of. f_equal. unfold tab. apply map_ext_in. intros t Ht. apply in_seq in Ht. f_equal. f_equal.
  rewrite <- (at_times_length d t W) by lia. generalize (at_time d t). intros l. induction l as [|v l IH]; [reflexivity|].
  cbn [length repeat combine map]. rewrite <- IH. f_equal. destruct v. unfold scale3. cbn. f_equal; ring.
Qed.
Lemma rsum_ones n : rsum (map (fun c => c * c)%R (repeat 1%R n)) = INR n.
Proof. induction n as [|n IH]; [reflexivity|]. cbn [repeat map]. rewrite rsum_cons, IH, S_INR. lra. Qed.
Lemma rsum_repeat (c : R) n : rsum (repeat c n) = (INR n * c)%R.
Proof. induction n as [|n IH]; [cbn; lra|]. cbn [repeat]. rewrite rsum_cons, IH, S_INR. lra. Qed.
Lemma mstd_bound axes d : arr_wf d -> (0 < length (entries d))%nat ->
  (mstd_of axes d <= INR (length (a_rows d)) * INR (length (a_rows d)) * msd_of axes d)%R.
Proof.
  intros W H. rewrite mstd_is_mscd by exact W. pose proof (mscd_bound axes (repeat 1%R (length (a_rows d))) d W (repeat_length _ _) H) as K.
  now rewrite rsum_ones in K.
Qed.
(** All atoms move alike. *)
Lemma rsum_dot_const (q : list R) c : dot q (repeat c (length q)) = (rsum q * c)%R.
Proof. unfold dot. induction q as [|a q IH]; cbn [length repeat combine map]; [cbn; lra|]. rewrite !rsum_cons, IH. cbn [fst snd]. lra. Qed.
Lemma alike_at_time (d : Arr R) row t : Forall (fun r => r = row) (a_rows d) -> arr_wf d -> (t < a_obs d)%nat ->
  at_time d t = repeat (nth t row zero3) (length (a_rows d)).
Proof. intros H W Ht. rewrite at_time_wf by assumption. clear W. induction H as [|r l -> _ IH]; [reflexivity|]. cbn. now rewrite IH. Qed.
Lemma map_repeat' {T U} (f : T -> U) x n : map f (repeat x n) = repeat (f x) n.
Proof. induction n; cbn; congruence. Qed.
Lemma mscd_alike axes q d : arr_wf d -> length q = length (a_rows d) -> (0 < length (entries d))%nat -> move_alike d ->
  mscd_of axes q d = (rsum q * rsum q * msd_of axes d)%R.
Proof.
  intros W Lq H (row & HR). pose proof (rsum_tab_msd axes d W H) as S. rewrite entries_count in H by exact W.
  assert (NO : (0 < length (a_rows d))%nat /\ (0 < a_obs d)%nat) by nia. destruct NO as [N O]. apply lt_INR in N, O. cbn in N, O.
  unfold mscd_of, average. rewrite tab_length.
  assert (E1 : tab (a_obs d) (fun t => sqlen axes (sum3 (map (fun p => scale3 (fst p) (snd p)) (combine q (at_time d t)))))
    = tab (a_obs d) (fun t => rsum q * rsum q * sqlen axes (nth t row zero3))%R).
  { unfold tab. apply map_ext_in. intros t Ht. apply in_seq in Ht. rewrite (alike_at_time d row) by (assumption || lia). rewrite <- Lq.
    unfold sqlen. rewrite <- rsum_map_scal. f_equal. apply map_ext. intros ax. rewrite weighted_coord, map_repeat', rsum_dot_const. ring. }
  assert (E2 : tab (a_obs d) (fun t => rsum (map (sqlen axes) (at_time d t))) = tab (a_obs d) (fun t => INR (length (a_rows d)) * sqlen axes (nth t row zero3))%R).
  { unfold tab. apply map_ext_in. intros t Ht. apply in_seq in Ht. rewrite (alike_at_time d row) by (assumption || lia). now rewrite map_repeat', rsum_repeat. }
  rewrite E1. rewrite E2 in S. unfold tab in *. rewrite rsum_map_scal in *. revert S N O.
  generalize (rsum (map (fun t => sqlen axes (nth t row zero3)) (seq 0 (a_obs d)))) (INR (length (a_rows d))) (INR (a_obs d)) (msd_of axes d). clear.
  intros x n o m S N O. assert (x = o * m)%R by nra. subst x. field. lra.
Qed.
Lemma rsum_ones' n : rsum (repeat 1%R n) = INR n.
Proof. rewrite rsum_repeat. ring. Qed.
Lemma mstd_alike axes d : arr_wf d -> (0 < length (entries d))%nat -> move_alike d ->
  mstd_of axes d = (INR (length (a_rows d)) * INR (length (a_rows d)) * msd_of axes d)%R.
Proof.
  intros W H A. rewrite mstd_is_mscd by exact W. rewrite mscd_alike by (try assumption; apply repeat_length). now rewrite rsum_ones'.
Qed.

Section Curves.
  Context {G Seed RS : Type} (X : Ext R G Seed RS).
  Lemma curve_msd u dts disps n_o g b g' i m : 0 < u_sub_sample_dt u -> u_block u = false ->
    msd_bootstrap X u dts disps n_o g = Ok (b, g') -> nth_error (b_n b) i = Some m ->
    exists axes d, names (pystr_text (u_dimension u)) axes /\ nth_error disps (i * Z.to_nat (u_sub_sample_dt u)) = Some d
      /\ m = msd_of axes d /\ (1 < length (entries d))%nat.
  Proof.
    intros Hk Hb E M. destruct (msd_run_means X u _ _ _ _ _ _ Hk Hb E) as (axes & used & shown & N1 & N2 & N3 & N4). rewrite N4, nth_error_map in M.
    destruct (nth_error shown i) as [d|] eqn:Ed; [|discriminate]. injection M as <-. exists axes, d. split; [exact N1|].
    pose proof (nth_error_In _ _ Ed) as Hin. apply (leading_In _ _ _ _ N3) in Hin as [_ Hin].
    apply (leading_nth _ _ _ _ _ N3) in Ed. rewrite N2 in Ed. auto.
  Qed.
  Lemma half_shown (P : Arr R -> Prop) k (disps used shown : list (Arr R)) i d : sub_sample k disps used -> leading P (firstn (Nat.div (length used) 2) used) shown ->
    nth_error shown i = Some d -> nth_error disps (i * k) = Some d.
  Proof.
    intros N2 N3 Ed. apply (leading_nth _ _ _ _ _ N3) in Ed. rewrite <- N2.
    assert (L : (i < length (firstn (Nat.div (length used) 2) used))%nat) by (apply nth_error_Some; congruence).
    rewrite <- Ed. rewrite <- (firstn_skipn (Nat.div (length used) 2) used) at 1. now apply nth_error_app1.
  Qed.
  Lemma curve_mstd u dts disps n_o g b g' i m : 0 < u_sub_sample_dt u -> u_block u = false -> Forall arr_wf disps ->
    mstd_bootstrap X u dts disps n_o g = Ok (b, g') -> nth_error (b_n b) i = Some m ->
    exists axes d, names (pystr_text (u_dimension u)) axes /\ nth_error disps (i * Z.to_nat (u_sub_sample_dt u)) = Some d
      /\ m = mstd_of axes d.
  Proof.
    intros Hk Hb W E M. destruct (C29_proof X u _ _ _ _ _ _ Hk Hb W E) as (axes & used & shown & N1 & N2 & N3 & N4). rewrite N4, nth_error_map in M.
    destruct (nth_error shown i) as [d|] eqn:Ed; [|discriminate]. injection M as <-. exists axes, d. split; [exact N1|]. split; [|reflexivity].
    exact (half_shown _ _ _ _ _ _ _ N2 N3 Ed).
  Qed.
  Lemma curve_mscd u dts disps q n_o g b g' natoms i m : 0 < u_sub_sample_dt u -> u_block u = false -> Forall arr_wf disps ->
    Forall (fun d => length (a_rows d) = natoms) disps -> (forall l, q = QArray l -> length l = natoms) ->
    mscd_bootstrap X u dts disps q n_o g = Ok (b, g') -> nth_error (b_n b) i = Some m ->
    exists d, nth_error disps (i * Z.to_nat (u_sub_sample_dt u)) = Some d /\ m = mscd_of all_axes (charges q natoms) d.
  Proof.
    intros Hk Hb W N Q E M. destruct (C30_proof X u _ _ _ _ _ _ _ _ Hk Hb W N Q E) as (used & shown & N2 & N3 & N4). rewrite N4, nth_error_map in M.
    destruct (nth_error shown i) as [d|] eqn:Ed; [|discriminate]. injection M as <-. exists d. split; [|reflexivity].
    exact (half_shown _ _ _ _ _ _ _ N2 N3 Ed).
  Qed.
  Lemma charges_length q natoms : (forall l : list R, q = QArray l -> length l = natoms) -> length (charges q natoms) = natoms.
  Proof. intros H. destruct q as [c|l]; cbn; [apply repeat_length|now apply H]. Qed.

  Lemma C72_mstd_proof u dts disps n_o n_o' g g1 b b1 g' g1' natoms i m m1 :
    0 < u_sub_sample_dt u -> u_block u = false -> Forall arr_wf disps -> Forall (fun d => length (a_rows d) = natoms) disps ->
    msd_bootstrap X u dts disps n_o g = Ok (b, g') -> mstd_bootstrap X u dts disps n_o' g1 = Ok (b1, g1') ->
    nth_error (b_n b) i = Some m -> nth_error (b_n b1) i = Some m1 ->
    (0 <= m1 <= INR natoms * INR natoms * m)%R /\ (Forall move_alike disps -> m1 = INR natoms * INR natoms * m)%R.
  Proof.
    intros Hk Hb W N E E1 M M1. destruct (curve_msd _ _ _ _ _ _ _ _ _ Hk Hb E M) as (axes & d & A & D & -> & B).
    destruct (curve_mstd _ _ _ _ _ _ _ _ _ Hk Hb W E1 M1) as (axes' & d' & A' & D' & ->).
    assert (axes' = axes) by (eapply names_unique; eauto). assert (d' = d) by congruence. subst axes' d'.
    apply nth_error_In in D. rewrite Forall_forall in W, N. pose proof (W _ D) as Wd. rewrite <- (N _ D). split; [split|].
    - unfold mstd_of, average. rewrite tab_length. apply Rmult_le_pos.
      + unfold tab. apply Rle_trans with (rsum (map (fun _ => 0%R) (seq 0 (a_obs d)))).
        * induction (seq 0 (a_obs d)); cbn; lra.
        * apply rsum_map_le. intros t _. unfold sqlen. rewrite <- (map_map (fun a => coord (sum3 (at_time d t)) a) (fun x => x * x)%R). apply rsum_sq_nonneg.
      + destruct (a_obs d) as [|k] eqn:Ek; [cbn; rewrite Rinv_0; lra|]. left. apply Rinv_0_lt_compat. apply lt_0_INR. lia.
    - apply mstd_bound; [exact Wd|lia].
    - intros HM. rewrite Forall_forall in HM. apply mstd_alike; [exact Wd|lia|exact (HM _ D)].
  Qed.
  Lemma C72_mscd_proof u dts disps q n_o n_o' g g1 b b1 g' g1' natoms i m m1 :
    0 < u_sub_sample_dt u -> u_block u = false -> Forall arr_wf disps -> Forall (fun d => length (a_rows d) = natoms) disps ->
    (forall l, q = QArray l -> length l = natoms) -> names (pystr_text (u_dimension u)) all_axes ->
    msd_bootstrap X u dts disps n_o g = Ok (b, g') -> mscd_bootstrap X u dts disps q n_o' g1 = Ok (b1, g1') ->
    nth_error (b_n b) i = Some m -> nth_error (b_n b1) i = Some m1 ->
    (m1 <= INR natoms * rsum (map (fun c => c * c) (charges q natoms)) * m)%R
    /\ (Forall move_alike disps -> m1 = rsum (charges q natoms) * rsum (charges q natoms) * m)%R.
  Proof.
    intros Hk Hb W N Q HN E E1 M M1. destruct (curve_msd _ _ _ _ _ _ _ _ _ Hk Hb E M) as (axes & d & A & D & -> & B).
    destruct (curve_mscd _ _ _ _ _ _ _ _ _ _ _ Hk Hb W N Q E1 M1) as (d' & D' & ->).
    assert (axes = all_axes) by (eapply names_unique; eauto). assert (d' = d) by congruence. subst axes d'.
    apply nth_error_In in D. rewrite Forall_forall in W, N. pose proof (W _ D) as Wd. pose proof (N _ D) as Nd. pose proof (charges_length q natoms Q) as L. split.
    - replace (INR natoms) with (INR (length (a_rows d))) by now rewrite Nd. apply mscd_bound; [exact Wd|congruence|lia].
    - intros HM. rewrite Forall_forall in HM. apply mscd_alike; [exact Wd|congruence|lia|exact (HM _ D)].
  Qed.
End Curves.

(** Two atoms that move alike. *)
Definition duo : list (Arr R) := (let r := [mkV 1 0 0; mkV 0 2 0] in [mkArr 2 [r; r]; mkArr 2 [r; r]])%R.
Lemma duo_ok : Forall arr_wf duo /\ Forall (fun d => length (a_rows d) = 2%nat) duo /\ Forall move_alike duo.
Proof. split; [repeat constructor|]. split; [repeat constructor|]. repeat constructor; exists [mkV 1 0 0; mkV 0 2 0]%R; repeat constructor. Qed.
Lemma C72_example_proof G Seed RS (X : Ext R G Seed RS) (g : G) : exists b b1 b2,
  msd_bootstrap X (demo_boot 1 "xyz") [1;2]%R duo [4;3]%R g = Ok (b, g)
  /\ mstd_bootstrap X (demo_boot 1 "xyz") [1;2]%R duo [4;3]%R g = Ok (b1, g)
  /\ mscd_bootstrap X (demo_boot 1 "xyz") [1;2]%R duo (QArray [1;-1]%R) [4;3]%R g = Ok (b2, g)
  /\ Forall arr_wf duo /\ Forall (fun d => length (a_rows d) = 2%nat) duo /\ Forall move_alike duo.
Proof.
  destruct duo_ok as (W & N & M).
  destruct (msd_total X (demo_boot 1 "xyz") [1;2]%R duo [4;3]%R all_axes g eq_refl eq_refl names_xyz) as (b & B); try (discriminate || (repeat constructor; fail) || (cbn; lia)).
  destruct (mstd_total X (demo_boot 1 "xyz") [1;2]%R duo [4;3]%R all_axes g eq_refl eq_refl names_xyz) as (b1 & B1); try (discriminate || (repeat constructor; fail) || (cbn; lia)).
  destruct (mscd_total X (demo_boot 1 "xyz") [1;2]%R duo (QArray [1;-1]%R) [4;3]%R all_axes 2 g eq_refl eq_refl names_xyz) as (b2 & B2);
    try (discriminate || (repeat constructor; fail) || (cbn; lia)).
  { intros l [= <-]. reflexivity. }
  exists b, b1, b2. auto 10.
Qed.
Lemma C72_end_proof G Seed RS (X : Ext R G Seed RS) (parse : parser_of) circ (a : Params R) t p u g g1 an an1 g' g1' i m m1 : In parse parsers ->
  parse geomspace_R circ t a = Ok p -> 0 < u_sub_sample_dt u -> u_block u = false ->
  diffusion_analyzer X (of_parsed p) u g = Ok (an, g') -> jump_diffusion_analyzer X (of_parsed p) u g1 = Ok (an1, g1') ->
  nth_error (b_n (an_diff an)) i = Some m -> nth_error (b_n (an_diff an1)) i = Some m1 ->
  (0 <= m1 <= INR (length (p_indices p)) * INR (length (p_indices p)) * m)%R.
Proof.
  intros HP H Hk Hb A A1 M M1. unfold diffusion_analyzer in A. inv_bind A r E. destruct r as [b h]. injection A as <- <-.
  unfold jump_diffusion_analyzer in A1. inv_bind A1 r1 E1. destruct r1 as [b1 h1]. injection A1 as <- <-. cbn [an_diff of_parsed an_delta_t an_disp_3d an_n_o] in *.
  exact (proj1 (C72_mstd_proof X _ _ _ _ _ _ _ _ _ _ _ _ _ _ _ Hk Hb (parsers_shapes _ _ _ _ _ _ HP H) (parsers_rows _ _ _ _ _ HP H) E E1 M M1)).
Qed.
