(** * ProofsHetero: the non-Gaussian parameter of Gaussian motion, of partly immobile atoms and of true trajectories (C96) *)
From Verif Require Import Base Spec SpecParser SpecStats SpecFit SpecAnalyzer ModelParser ModelDiffusion ModelHdf ModelAnalyzer
  Lemmas ProofsDisp ProofsIntervals ProofsWindows ProofsParser ProofsTraj ProofsBoot ProofsStats ProofsStats2 ProofsFit ProofsFit2 ProofsShape ProofsAnalyzer
  SpecRun SpecSym ProofsSym SpecGrid ProofsGrid SpecPool ProofsCollective ProofsPool SpecTrue ProofsTrue SpecHetero.
From Coq Require Import Reals Lra Lia Sorting.Permutation.
Open Scope Z_scope.

(** ** Gaussian motion *)
Lemma average_plus {T} (f g : T -> R) l : average (map (fun x => f x + g x)%R l) = (average (map f l) + average (map g l))%R.
Proof. unfold average. rewrite !map_length, rsum_map_plus. unfold Rdiv. ring. Qed.
Lemma average_zero {T} (l : list T) : average (map (fun _ => 0%R) l) = 0%R.
Proof. unfold average. rewrite rsum_const. unfold Rdiv. ring. Qed.
Lemma average_sum {T} (f : axis -> T -> R) l (h : axis -> R) axes : (forall a, In a axes -> average (map (f a) l) = h a) ->
  average (map (fun v => rsum (map (fun a => f a v) axes)) l) = rsum (map h axes).
Proof.
  induction axes as [|a axes IH]; intros H.
  - cbn [map]. apply average_zero.
  - cbn [map]. rewrite rsum_cons. rewrite (map_ext _ (fun v => (f a v + rsum (map (fun a => f a v) axes))%R)) by (intros v; cbn [map]; now rewrite rsum_cons).
    rewrite average_plus, H, IH; [reflexivity|intros b Hb; apply H; now right|now left].
Qed.
Lemma axis_eq (a b : axis) : {a = b} + {a <> b}. Proof. decide equality. Qed.
Lemma increasing_nodup axes : increasing_axes axes -> NoDup axes.
Proof.
  assert (K : forall axes a, increasing_axes (a :: axes) -> (forall b, In b axes -> (axis_number a < axis_number b)%nat) /\ increasing_axes axes).
  { induction axes0 as [|b axes0 IH]; intros a H; [split; [intros ? []|exact I]|]. destruct H as [H1 H2]. split; [|exact H2].
    intros c [<-|Hc]; [exact H1|]. destruct (IH _ H2) as [H3 _]. specialize (H3 _ Hc). lia. }
  induction axes as [|a axes IH]; intros H; [constructor|]. destruct (K _ _ H) as [H1 H2]. constructor; [|now apply IH].
  intros C. specialize (H1 _ C). lia.
Qed.
Lemma rsum_pick (a : axis) (y z : R) axes : NoDup axes -> In a axes ->
  rsum (map (fun b => if axis_eq a b then y else z) axes) = (y + (INR (length axes) - 1) * z)%R.
Proof.
  induction axes as [|b axes IH]; intros HN Ha; [destruct Ha|]. inversion HN as [|? ? N1 N2]; subst. cbn [map length]. rewrite rsum_cons, S_INR.
  destruct Ha as [->|Ha].
  - destruct (axis_eq a a) as [_|C]; [|congruence].
    rewrite (map_ext_in _ (fun _ => z)); [rewrite rsum_const; ring|]. intros b Hb. destruct (axis_eq a b); [subst; contradiction|reflexivity].
  - destruct (axis_eq a b) as [->|_]; [contradiction|]. rewrite IH by assumption. ring.
Qed.
Lemma gaussian_value axes l : NoDup axes -> axes <> [] -> gaussian_moments axes l ->
  non_gaussian (map (sqlen axes) l) = ((6 - 2 * INR (length axes)) / (5 * INR (length axes)))%R.
Proof.
  intros HN He (s & Hs & H2 & H4 & H22). set (D := INR (length axes)).
  assert (HD : (D <> 0)%R) by (unfold D; apply not_0_INR; destruct axes; cbn; [congruence|lia]).
  assert (A1 : average (map (sqlen axes) l) = (D * s)%R).
  { unfold sqlen. rewrite (average_sum (fun a v => coord v a * coord v a)%R l (fun _ => s) axes H2). now rewrite rsum_const. }
  assert (A2 : average (map (fun x => x * x)%R (map (sqlen axes) l)) = (D * (D + 2) * (s * s))%R).
  { rewrite map_map. rewrite (map_ext _ (fun v => rsum (map (fun a => coord v a * coord v a * sqlen axes v)%R axes))).
    2:{ intros v. unfold sqlen at 1. rewrite (map_ext (fun a => coord v a * coord v a * sqlen axes v)%R (fun a => sqlen axes v * (coord v a * coord v a))%R) by (intros; ring).
        rewrite rsum_map_scale. unfold sqlen. ring. }
    rewrite (average_sum (fun a v => coord v a * coord v a * sqlen axes v)%R l (fun _ => (D + 2) * (s * s))%R axes).
    - rewrite rsum_const. fold D. ring.
    - intros a Ha. rewrite (map_ext _ (fun v => rsum (map (fun b => coord v a * coord v a * (coord v b * coord v b))%R axes))).
      2:{ intros v. rewrite rsum_map_scale. reflexivity. }
      rewrite (average_sum (fun b v => coord v a * coord v a * (coord v b * coord v b))%R l (fun b => if axis_eq a b then (3 * (s * s))%R else (s * s)%R) axes).
      + rewrite rsum_pick by assumption. fold D. ring.
      + intros b Hb. destruct (axis_eq a b) as [<-|N]; [now apply H4|now apply H22]. }
  unfold non_gaussian. rewrite A1, A2. field. split; [exact HD|lra].
Qed.
Section Gaussian.
  Context {G Seed RS : Type} (X : Ext R G Seed RS).
  Lemma C96_axes_proof u dts disps n_o g b g' axes i x d :
    0 < u_sub_sample_dt u -> names (pystr_text (u_dimension u)) axes ->
    msd_bootstrap X u dts disps n_o g = Ok (b, g') -> nth_error (b_ngp b) i = Some x ->
    nth_error disps (i * Z.to_nat (u_sub_sample_dt u)) = Some d -> gaussian_moments axes (entries d) ->
    x = ((6 - 2 * INR (length axes)) / (5 * INR (length axes)))%R /\ (x = 0%R <-> axes = all_axes).
  Proof.
    intros Hk Hn H Hx Hd HG. destruct (C31_proof X _ _ _ _ _ _ _ _ _ _ Hk Hn H Hx) as (d' & Hd' & E & _).
    assert (d' = d) by congruence. subst d'. destruct Hn as (_ & He & Hi). assert (HN := increasing_nodup _ Hi).
    rewrite E, (gaussian_value _ _ HN He HG). split; [reflexivity|].
    split.
    - intros C. assert (P : (INR (length axes) <> 0)%R) by (apply not_0_INR; destruct axes; cbn; [congruence|lia]).
      assert (Q : INR (length axes) = INR 3).
      { apply (f_equal (fun y => y * (5 * INR (length axes)))%R) in C. unfold Rdiv in C. rewrite Rmult_assoc, Rinv_l in C by lra. cbn [INR]. lra. }
      apply INR_eq in Q. clear -Q Hi. destruct axes as [|[] [|[] [|[] [|? axes]]]]; cbn in Hi, Q; try lia. reflexivity.
    - intros ->. cbn [all_axes length INR]. field.
  Qed.

  (** ** Partly immobile atoms *)
  Lemma non_gaussian_sums l : (0 < length l)%nat -> rsum l <> 0%R ->
    (non_gaussian l + 1 = 3 * INR (length l) * rsum (map (fun x => x * x) l) / (5 * (rsum l * rsum l)))%R.
  Proof.
    intros HL H. unfold non_gaussian, average. rewrite map_length. field. split; [exact H|]. apply not_0_INR. lia.
  Qed.
  Lemma average_nonzero l : average l <> 0%R -> (0 < length l)%nat /\ rsum l <> 0%R.
  Proof.
    intros H. split.
    - destruct l; cbn; [|lia]. exfalso. apply H. unfold average. cbn. unfold Rdiv. ring.
    - intros C. apply H. unfold average. rewrite C. unfold Rdiv. ring.
  Qed.
  Lemma diluted_value l l' z : average l <> 0%R -> Permutation l' (l ++ repeat 0%R z) ->
    ((non_gaussian l' + 1) * INR (length l) = (non_gaussian l + 1) * INR (length l + z))%R.
  Proof.
    intros H P. apply average_nonzero in H as [H1 H2].
    assert (L : length l' = (length l + z)%nat) by (rewrite (Permutation_length P), app_length, repeat_length; reflexivity).
    assert (S1 : rsum l' = rsum l) by (rewrite (rsum_perm _ _ P), rsum_app, rsum_repeat; ring).
    assert (S2 : rsum (map (fun x => x * x)%R l') = rsum (map (fun x => x * x)%R l)).
    { rewrite (rsum_perm _ _ (Permutation_map _ P)), map_app, rsum_app.
      assert (Z : map (fun x => x * x)%R (repeat 0%R z) = repeat 0%R z) by (clear; induction z; cbn; [reflexivity|rewrite IHz; f_equal; ring]).
      rewrite Z, rsum_repeat. ring. }
    rewrite !non_gaussian_sums by (rewrite ?S1, ?L; (lia || assumption)). rewrite S1, S2, L. field. exact H2.
  Qed.
  Lemma C96_immobile_proof u dts disps n_o g b g' axes dts' disps' n_o' h b' h' i x x' d d' z :
    0 < u_sub_sample_dt u -> names (pystr_text (u_dimension u)) axes ->
    msd_bootstrap X u dts disps n_o g = Ok (b, g') -> msd_bootstrap X u dts' disps' n_o' h = Ok (b', h') ->
    nth_error (b_ngp b) i = Some x -> nth_error (b_ngp b') i = Some x' ->
    nth_error disps (i * Z.to_nat (u_sub_sample_dt u)) = Some d -> nth_error disps' (i * Z.to_nat (u_sub_sample_dt u)) = Some d' ->
    Permutation (entries d') (entries d ++ repeat zero3 z) -> msd_of axes d <> 0%R ->
    ((x' + 1) * INR (length (entries d)) = (x + 1) * INR (length (entries d) + z))%R.
  Proof.
    intros Hk Hn H H' Hx Hx' Hd Hd' P Hm.
    destruct (C31_proof X _ _ _ _ _ _ _ _ _ _ Hk Hn H Hx) as (e & He & E & _). assert (e = d) by congruence. subst e.
    destruct (C31_proof X _ _ _ _ _ _ _ _ _ _ Hk Hn H' Hx') as (e & He' & E' & _). assert (e = d') by congruence. subst e.
    rewrite E, E'. rewrite <- (map_length (sqlen axes) (entries d)). apply diluted_value; [exact Hm|].
    apply (Permutation_map (sqlen axes)) in P. rewrite map_app in P.
    replace (map (sqlen axes) (repeat zero3 z)) with (repeat 0%R z) in P; [exact P|].
    assert (Z : sqlen axes zero3 = 0%R).
    { clear. unfold sqlen. induction axes as [|a l IH]; [reflexivity|]. cbn [map]. rewrite rsum_cons, IH. destruct a; cbn; ring. }
    clear -Z. induction z; cbn; [reflexivity|]. now rewrite Z, IHz.
  Qed.
End Gaussian.

(** ** True trajectories *)
Lemma concat_reverse_perm {A} (l : list (list A)) a : Permutation (a ++ List.concat l) (List.concat l ++ a).
Proof. apply Permutation_app_comm. Qed.
Lemma rows_perm {A} (rows : list Z) n (f : Z -> nat -> A) :
  Permutation (List.concat (map (fun i => tab n (f i)) rows)) (List.concat (tab n (fun j => map (fun i => f i j) rows))).
Proof.
  revert f. induction n as [|n IH]; intros f.
  - unfold tab. cbn. induction rows; cbn; auto.
  - rewrite tab_S. cbn [List.concat]. rewrite <- (IH (fun i j => f i (S j))). clear IH.
    induction rows as [|i rows IH]; [reflexivity|]. cbn [map List.concat]. rewrite tab_S. cbn [app]. constructor.
    rewrite IH. rewrite !app_assoc. apply Permutation_app_tail. apply Permutation_app_comm.
Qed.
Section Reported.
  Context {G Seed RS : Type} (X : Ext R G Seed RS).
  Lemma windows_perm axes natoms k T (pos : nat -> nat -> V3 R) idx fw m : (0 < m <= T)%nat ->
    Permutation (map (sqlen axes) (entries (multi_window natoms T (corrected natoms (fun a t => minus3 (pos (t * k)%nat a) (pos 0%nat a)) fw) idx m)))
      (true_squares axes natoms k pos idx fw T m ++ squares_between axes natoms k pos idx fw 0 (m - 1)).
  Proof.
    intros Hm. unfold entries. cbn [multi_window a_rows]. set (y := corrected _ _ _). rewrite concat_map, map_map.
    rewrite (map_ext _ (fun i => tab (T - m + 1) (fun o => sqlen axes (window_obs (y (site natoms i)) m o)))) by (intros i; unfold tab; now rewrite map_map).
    rewrite rows_perm. rewrite Nat.add_1_r, tab_S. cbn [List.concat]. rewrite concat_reverse_perm. apply Permutation_app.
    - unfold true_squares. apply Permutation_refl'. f_equal. unfold tab. apply map_ext. intros j. unfold squares_between. apply map_ext. intros i. f_equal.
      cbn [window_obs]. unfold y. apply corrected_difference.
    - apply Permutation_refl'. unfold squares_between. apply map_ext. intros i. apply (f_equal (sqlen axes)). cbn [window_obs]. unfold y. rewrite corrected_start. reflexivity.
  Qed.
  Lemma non_gaussian_perm l l' : Permutation l l' -> non_gaussian l = non_gaussian l'.
  Proof.
    intros P. unfold non_gaussian, average. rewrite !map_length, (Permutation_length P), (rsum_perm _ _ P), (rsum_perm _ _ (Permutation_map _ P)). reflexivity.
  Qed.
  Lemma C96_reported_proof i circ cell types vol n natoms k x a p u axes g an g' :
    faithful_read i circ cell types vol n natoms k x a p -> 0 < u_sub_sample_dt u -> u_block u = false -> names (pystr_text (u_dimension u)) axes ->
    diffusion_analyzer X (of_parsed p) u g = Ok (an, g') -> forall j t, nth_error (b_dt (an_diff an)) j = Some t ->
    exists m, nth_error (p_intervals p) (j * Z.to_nat (u_sub_sample_dt u)) = Some (Z.of_nat m) /\ (0 < m <= kept n k)%nat
      /\ let T := kept n k in let pos f b := cart cell (x f b) in
         nth_error (b_ngp (an_diff an)) j = Some (non_gaussian (true_squares axes natoms k pos (p_indices p) (p_drift_indices p) T m
           ++ squares_between axes natoms k pos (p_indices p) (p_drift_indices p) 0 (m - 1))).
  Proof.
    intros F Hk Hb Hn H j t Ht. destruct (read_forms _ _ _ _ _ _ _ _ _ _ _ F) as (tis & RF).
    destruct (reported_entry X _ _ _ _ _ _ _ _ _ _ _ _ _ _ _ RF Hk Hb Hn H j t Ht) as (m & d & no & E1 & E2 & E3 & E4 & E5 & E6 & E7 & _).
    exists m. rewrite (rf_intervals _ _ _ _ _ _ _ _ _ _ RF), !nth_error_map, E1. split; [reflexivity|]. split; [exact E2|].
    cbv zeta. rewrite E7, E5. f_equal. apply non_gaussian_perm. exact (windows_perm axes natoms k (kept n k) (positions cell x) _ _ m E2).
  Qed.
  Lemma squares_length axes natoms k pos idx fw f g : length (squares_between axes natoms k pos idx fw f g) = length idx.
  Proof. unfold squares_between. apply map_length. Qed.
  Lemma true_squares_length axes natoms k pos idx fw T m : length (true_squares axes natoms k pos idx fw T m) = ((T - m) * length idx)%nat.
  Proof.
    unfold true_squares, tab. generalize 0%nat. generalize (T - m)%nat. induction n as [|n IH]; intros s; [reflexivity|].
    cbn [seq map List.concat]. rewrite app_length, squares_length, IH. cbn. lia.
  Qed.
  Lemma rest_squares axes natoms k pos idx fw f : squares_between axes natoms k pos idx fw f f = repeat 0%R (length idx).
  Proof.
    unfold squares_between. induction idx as [|i l IH]; [reflexivity|]. cbn [map length repeat]. rewrite IH. f_equal.
    assert (Z : relative_displacement natoms pos fw (site natoms i) (f * k) (f * k) = zero3).
    { assert (M : forall v, minus3 v v = zero3) by (intros v; unfold minus3, zero3; numR; f_equal; ring).
      unfold relative_displacement. destruct fw as [|w fw]; [apply M|]. rewrite M.
      rewrite (map_ext _ (fun _ => zero3)) by (intros; apply M).
      unfold average3. rewrite !map_map. cbn [zero3 vx vy vz]. rewrite !average_zero. apply M. }
    rewrite Z. unfold sqlen. clear. induction axes as [|a r IH]; [reflexivity|]. cbn [map]. rewrite rsum_cons, IH. destruct a; cbn; ring.
  Qed.
  Lemma true_rsum axes natoms k pos idx fw T m :
    rsum (true_squares axes natoms k pos idx fw T m) = (INR (length idx) * INR (T - m) * true_msd axes natoms k pos idx fw T m)%R.
  Proof.
    rewrite Rmult_assoc, true_total, <- rsum_map_scal. unfold true_squares, tab. generalize (seq 0 (T - m)). induction l as [|j l IH]; [reflexivity|].
    cbn [map List.concat]. rewrite rsum_app, rsum_cons, IH. f_equal. unfold square_between, squares_between, average. rewrite map_length.
    destruct idx as [|z idx]; [cbn; ring|]. field. apply not_0_INR. cbn. lia.
  Qed.
  Lemma C96_one_frame_proof i circ cell types vol n natoms k x a p u axes g an g' :
    faithful_read i circ cell types vol n natoms k x a p -> 0 < u_sub_sample_dt u -> u_block u = false -> names (pystr_text (u_dimension u)) axes ->
    diffusion_analyzer X (of_parsed p) u g = Ok (an, g') -> forall j t, nth_error (b_dt (an_diff an)) j = Some t ->
    nth_error (p_intervals p) (j * Z.to_nat (u_sub_sample_dt u)) = Some 1 ->
    let T := kept n k in let pos f b := cart cell (x f b) in
    true_msd axes natoms k pos (p_indices p) (p_drift_indices p) T 1 <> 0%R ->
    exists y, nth_error (b_ngp (an_diff an)) j = Some y
      /\ ((y + 1) * INR (T - 1) = (true_ngp axes natoms k pos (p_indices p) (p_drift_indices p) T 1 + 1) * INR T)%R.
  Proof.
    intros F Hk Hb Hn H j t Ht Hm T pos Hnz. destruct (C96_reported_proof _ _ _ _ _ _ _ _ _ _ _ _ _ _ _ _ F Hk Hb Hn H j t Ht) as (m & E1 & E2 & E3).
    rewrite Hm in E1. injection E1 as E1. assert (m = 1%nat) by lia. subst m. cbv zeta in E3. fold T pos in E3. eexists. split; [exact E3|].
    cbn [Nat.sub] in *. unfold true_ngp. set (l := true_squares _ _ _ _ _ _ _ _). rewrite rest_squares.
    assert (N : average l <> 0%R).
    { assert (Q := true_rsum axes natoms k pos (p_indices p) (p_drift_indices p) T 1). fold l in Q. intros C. apply Hnz.
      assert (L : length l = ((T - 1) * length (p_indices p))%nat) by apply true_squares_length.
      destruct (Nat.eq_dec (length (p_indices p)) 0) as [Z|Z].
      { destruct (p_indices p); [|discriminate]. unfold true_msd, square_between, tab. cbn [map].
        rewrite (map_ext _ (fun _ => 0%R)) by (intros; unfold average; cbn; unfold Rdiv; ring). apply average_zero. }
      destruct (Nat.eq_dec (T - 1) 0) as [Y|Y]; [unfold true_msd; rewrite Y; unfold average; cbn; unfold Rdiv; ring|].
      assert (S0 : rsum l = 0%R).
      { unfold average in C. assert (PL : (INR (length l) <> 0)%R) by (apply not_0_INR; rewrite L; nia).
        apply (f_equal (fun y => y * INR (length l))%R) in C. unfold Rdiv in C. rewrite Rmult_assoc, Rinv_l in C by exact PL. lra. }
      rewrite S0 in Q. assert (A : (INR (length (p_indices p)) <> 0)%R) by now apply not_0_INR. assert (B : (INR (T - 1) <> 0)%R) by now apply not_0_INR.
      symmetry in Q. apply Rmult_integral in Q as [Q|Q]; [|exact Q]. apply Rmult_integral in Q as [Q|Q]; contradiction. }
    assert (D := diluted_value l _ (length (p_indices p)) N (Permutation_refl _)).
    apply average_nonzero in N as [N _].
    assert (L : length l = ((T - 1) * length (p_indices p))%nat) by apply true_squares_length. rewrite L in D, N.
    replace ((T - 1) * length (p_indices p) + length (p_indices p))%nat with (T * length (p_indices p))%nat in D by nia.
    rewrite !mult_INR in D. apply (Rmult_eq_reg_r (INR (length (p_indices p)))); [|apply not_0_INR; nia]. rewrite !Rmult_assoc. exact D.
  Qed.
  Lemma div_nonneg a b : (0 <= a)%R -> (0 < b)%R -> (0 <= a / b)%R.
  Proof. intros Ha Hb. unfold Rdiv. apply Rmult_le_pos; [exact Ha|]. now apply Rlt_le, Rinv_0_lt_compat. Qed.
  Lemma between_nonneg axes natoms k pos idx fw f g : (0 <= square_between axes natoms k pos idx fw f g)%R.
  Proof.
    unfold square_between, average. rewrite map_length. destruct idx as [|i l]; [cbn; unfold Rdiv; lra|]. apply div_nonneg.
    - apply rsum_nonneg. rewrite Forall_map. apply Forall_forall. intros j _. unfold sqlen. apply rsum_nonneg. rewrite Forall_map.
      apply Forall_forall. intros ax _. apply Rle_0_sqr.
    - apply lt_0_INR. cbn. lia.
  Qed.
  Lemma average_between f n B : (0 < n)%nat -> (forall j, (j < n)%nat -> 0 <= f j <= B)%R -> (0 <= average (tab n f) <= B)%R.
  Proof.
    intros Hn H. unfold average. rewrite tab_length. assert (P : (0 < INR n)%R) by now apply lt_0_INR.
    assert (Q : (0 <= rsum (tab n f) <= INR n * B)%R).
    { unfold tab. split.
      - apply rsum_nonneg. rewrite Forall_map. apply Forall_forall. intros j Hj. apply in_seq in Hj. apply H. lia.
      - rewrite <- (seq_length n 0) at 2. rewrite <- rsum_const. apply rsum_map_le. intros j Hj. apply in_seq in Hj. apply H. lia. }
    split.
    - apply div_nonneg; lra.
    - apply (Rmult_le_reg_r (INR n)); [exact P|]. unfold Rdiv. rewrite Rmult_assoc, Rinv_l by lra. lra.
  Qed.
  Lemma C81_bias_proof i circ cell types vol n natoms k x a p u axes g an g' :
    faithful_read i circ cell types vol n natoms k x a p -> 0 < u_sub_sample_dt u -> u_block u = false -> names (pystr_text (u_dimension u)) axes ->
    diffusion_analyzer X (of_parsed p) u g = Ok (an, g') -> forall j t, nth_error (b_dt (an_diff an)) j = Some t ->
    exists m v, nth_error (p_intervals p) (j * Z.to_nat (u_sub_sample_dt u)) = Some (Z.of_nat m) /\ (0 < m <= kept n k)%nat
      /\ nth_error (b_n (an_diff an)) j = Some v
      /\ let T := kept n k in let pos f b := cart cell (x f b) in
         let between := square_between axes natoms k pos (p_indices p) (p_drift_indices p) in
         let exact := true_msd axes natoms k pos (p_indices p) (p_drift_indices p) T m in
         (v - exact = (between 0%nat (m - 1)%nat - exact) / INR (T - m + 1))%R
         /\ forall B, (m < T)%nat -> (forall f l, (f + l < T)%nat -> (l <= m)%nat -> (between f (f + l)%nat <= B)%R) ->
              (Rabs (v - exact) <= B / INR (T - m + 1))%R.
  Proof.
    intros F Hk Hb Hn H j t Ht. destruct (C81_reported_proof X _ _ _ _ _ _ _ _ _ _ _ _ _ _ _ _ F Hk Hb Hn H j t Ht) as (m & E1 & _ & E2 & E3).
    cbv zeta in E3. eexists m, _. split; [exact E1|]. split; [exact E2|]. split; [exact E3|]. cbv zeta. set (T := kept n k) in *.
    set (pos := fun f b => cart cell (x f b)) in *. set (tr := true_msd _ _ _ _ _ _ _ _). set (b0 := square_between _ _ _ _ _ _ 0 (m - 1)).
    assert (P : (0 < INR (T - m + 1))%R) by (apply lt_0_INR; lia).
    assert (V : ((INR (T - m) * tr + b0) / INR (T - m + 1) - tr = (b0 - tr) / INR (T - m + 1))%R).
    { rewrite plus_INR in *. cbn [INR] in *. field. lra. }
    split; [exact V|]. intros B HmT HB. rewrite V.
    assert (B0 : (0 <= b0 <= B)%R).
    { split; [apply between_nonneg|]. apply (HB 0%nat (m - 1)%nat); lia. }
    assert (BT : (0 <= tr <= B)%R).
    { apply average_between; [lia|]. intros q Hq. split; [apply between_nonneg|]. apply HB; lia. }
    unfold Rdiv. rewrite Rabs_mult, (Rabs_right (/ INR (T - m + 1))) by (apply Rle_ge, Rlt_le, Rinv_0_lt_compat, P).
    apply Rmult_le_compat_r; [apply Rlt_le, Rinv_0_lt_compat, P|]. unfold Rabs. destruct (Rcase_abs _); lra.
  Qed.
End Reported.

(** ** Examples *)
(** Of three displacements along an axis one is 1 and two are 0; of this all 27 combinations, and their opposites. *)
Definition third : list R := [0; 0; 1]%R.
Definition octants : list (V3 R) := List.concat (map (fun x => List.concat (map (fun y => map (fun z => mkV x y z) third) third)) third).
Definition gaussian_demo : Arr R := mkArr 54 [(octants ++ map (fun v => mkV (- vx v) (- vy v) (- vz v))%R octants)%list].
Lemma gaussian_demo_moments axes : gaussian_moments axes (entries gaussian_demo).
Proof.
  exists (1 / 3)%R. split; [lra|]. split; [|split].
  - intros a _. destruct a; unfold average; cbn; field.
  - intros a _. destruct a; unfold average; cbn; field.
  - intros a b _ _ N. destruct a, b; try congruence; unfold average; cbn; field.
Qed.
Lemma gaussian_demo_run G Seed RS (X : Ext R G Seed RS) (g : G) dim axes : names dim axes -> exists b x,
  msd_bootstrap X (demo_boot 1 dim) [1]%R [gaussian_demo] [54]%R g = Ok (b, g) /\ b_ngp b = [x].
Proof.
  intros Hn. destruct (msd_total X (demo_boot 1 dim) [1]%R [gaussian_demo] [54]%R axes g eq_refl eq_refl Hn) as (b & B);
    [discriminate|repeat constructor; cbn; lia|cbn; lia|cbn; lia|].
  destruct (msd_run_ngp X (demo_boot 1 dim) _ _ _ _ _ _ eq_refl B) as (axes' & used & shown & _ & H2 & H3 & E).
  change (Z.to_nat _) with 1%nat in H2. apply sub_sample_id in H2. subst used.
  assert (S : shown = [gaussian_demo]) by (eapply leading_all; [|exact H3]; repeat constructor; cbn; lia). subst shown.
  exists b. eexists. split; [exact B|exact E].
Qed.
Lemma C96_refuted_proof : forall G Seed RS (X : Ext R G Seed RS) (g : G), exists d b,
  gaussian_moments [AX] (entries d) /\ names "x" [AX] /\ msd_bootstrap X (demo_boot 1 "x") [1]%R [d] [54]%R g = Ok (b, g) /\ b_ngp b = [4 / 5]%R.
Proof.
  intros. exists gaussian_demo. destruct (gaussian_demo_run G Seed RS X g "x" _ names_x) as (b & x & B & E). exists b.
  split; [apply gaussian_demo_moments|]. split; [exact names_x|]. split; [exact B|].
  destruct (C96_axes_proof X (demo_boot 1 "x") _ _ _ _ _ _ [AX] 0%nat x gaussian_demo eq_refl names_x B) as [V _];
    [now rewrite E|reflexivity|apply gaussian_demo_moments|]. rewrite E, V. cbn [length INR]. f_equal. field.
Qed.
Lemma C96_example_proof : forall G Seed RS (X : Ext R G Seed RS) (g : G), exists d b,
  gaussian_moments all_axes (entries d) /\ msd_bootstrap X (demo_boot 1 "xyz") [1]%R [d] [54]%R g = Ok (b, g) /\ b_ngp b = [0]%R.
Proof.
  intros. exists gaussian_demo. destruct (gaussian_demo_run G Seed RS X g "xyz" _ names_xyz) as (b & x & B & E). exists b.
  split; [apply gaussian_demo_moments|]. split; [exact B|].
  destruct (C96_axes_proof X (demo_boot 1 "xyz") _ _ _ _ _ _ all_axes 0%nat x gaussian_demo eq_refl names_xyz B) as [_ V];
    [now rewrite E|reflexivity|apply gaussian_demo_moments|]. rewrite E. f_equal. now apply V.
Qed.
(** Half of the atoms at rest. *)
Definition half_demo : Arr R := mkArr 54 (a_rows gaussian_demo ++ [repeat zero3 54])%list.
Lemma C96_immobile_example_proof : forall G Seed RS (X : Ext R G Seed RS) (g : G), exists b b' d d',
  msd_bootstrap X (demo_boot 1 "xyz") [1]%R [d] [54]%R g = Ok (b, g) /\ msd_bootstrap X (demo_boot 1 "xyz") [1]%R [d'] [108]%R g = Ok (b', g)
  /\ Permutation (entries d') (entries d ++ repeat zero3 54) /\ length (entries d) = 54%nat /\ msd_of all_axes d <> 0%R /\ b_ngp b = [0]%R /\ b_ngp b' = [1]%R.
Proof.
  intros. destruct (gaussian_demo_run G Seed RS X g "xyz" _ names_xyz) as (b & x & B & E).
  destruct (msd_total X (demo_boot 1 "xyz") [1]%R [half_demo] [108]%R all_axes g eq_refl eq_refl names_xyz) as (b' & B');
    [discriminate|repeat constructor; cbn; lia|cbn; lia|cbn; lia|].
  assert (E' : exists x', b_ngp b' = [x']).
  { destruct (msd_run_ngp X (demo_boot 1 "xyz") _ _ _ _ _ _ eq_refl B') as (axes' & used & shown & _ & H2 & H3 & E').
    change (Z.to_nat _) with 1%nat in H2. apply sub_sample_id in H2. subst used.
    assert (S : shown = [half_demo]) by (eapply leading_all; [|exact H3]; repeat constructor; cbn; lia). subst shown. eexists. exact E'. }
  destruct E' as [x' E'].
  assert (P : Permutation (entries half_demo) (entries gaussian_demo ++ repeat zero3 54)).
  { unfold half_demo, entries. cbn [a_rows]. rewrite concat_app. cbn [List.concat]. rewrite app_nil_r. apply Permutation_refl. }
  assert (M : msd_of all_axes gaussian_demo <> 0%R).
  { destruct (gaussian_demo_moments all_axes) as (s & Hs & H2 & _). unfold msd_of, sqlen.
    rewrite (average_sum (fun a v => coord v a * coord v a)%R _ (fun _ => s) all_axes H2). rewrite rsum_const. cbn. lra. }
  assert (L : length (entries gaussian_demo) = 54%nat) by reflexivity.
  exists b, b', gaussian_demo, half_demo. split; [exact B|]. split; [exact B'|]. split; [exact P|]. split; [exact L|]. split; [exact M|].
  assert (V : x = 0%R).
  { destruct (C96_axes_proof X (demo_boot 1 "xyz") _ _ _ _ _ _ all_axes 0%nat x gaussian_demo eq_refl names_xyz B) as [_ V];
      [now rewrite E|reflexivity|apply gaussian_demo_moments|]. now apply V. }
  split; [now rewrite E, V|]. rewrite E'. f_equal.
  assert (Q := C96_immobile_proof X (demo_boot 1 "xyz") _ _ _ _ _ _ all_axes _ _ _ _ _ _ 0%nat x x' gaussian_demo half_demo 54 eq_refl names_xyz B B'
    ltac:(now rewrite E) ltac:(now rewrite E') eq_refl eq_refl P M). rewrite L, V, plus_INR in Q.
  assert (N : (0 < INR 54)%R) by (apply lt_0_INR; lia). revert Q N. generalize (INR 54). intros r Q N.
  assert (K : ((x' - 1) * r = 0)%R) by lra. apply Rmult_integral in K as [K|K]; lra.
Qed.
Lemma C96_walk_example_proof : forall G Seed RS (X : Ext R G Seed RS) circ (g : G), exists p an,
  faithful_read Ase circ unit_cell ["Li"; "O"]%string 1%R 4 2 1 (walk steady) walk_params p
  /\ diffusion_analyzer X (of_parsed p) (demo_boot 1 "xyz") g = Ok (an, g)
  /\ nth_error (p_intervals p) 0 = Some 1 /\ nth_error (b_dt (an_diff an)) 0 = Some 1%R
  /\ true_msd all_axes 2 1 (fun f b => cart unit_cell (walk steady f b)) (p_indices p) (p_drift_indices p) 4 1 <> 0%R
  /\ true_ngp all_axes 2 1 (fun f b => cart unit_cell (walk steady f b)) (p_indices p) (p_drift_indices p) 4 1 = (- (2 / 5))%R
  /\ nth_error (b_ngp (an_diff an)) 0 = Some (- (1 / 5))%R.
Proof.
  intros. destruct (walk_run G Seed RS X circ g steady steady_gentle) as (p & an & F & E1 & E2 & E3 & H & Ht). exists p, an.
  split; [exact F|]. split; [exact H|]. split; [now rewrite E1|]. split; [now rewrite Ht|].
  assert (S : forall f, squares_between all_axes 2 1 (fun f b => cart unit_cell (walk steady f b)) [0] [1] f (f + 1) = [1 / 100]%R).
  { intros f. assert (K := walk_square steady f (f + 1)%nat). unfold square_between, average in K. unfold squares_between. cbn [map length INR] in *.
    f_equal. cbn [rsum fold_right] in K. unfold Rdiv in K. rewrite Rinv_1, Rmult_1_r, Rplus_0_r in K. rewrite K. unfold steady. rewrite plus_INR. cbn [INR]. field. }
  assert (M : true_msd all_axes 2 1 (fun f b => cart unit_cell (walk steady f b)) [0] [1] 4 1 = (1 / 100)%R).
  { unfold true_msd, tab. cbn [Nat.sub seq map]. rewrite !walk_square. unfold steady, average. cbn [length rsum fold_right Nat.add]. rewrite ?plus_INR. cbn [INR]. field. }
  assert (N : true_ngp all_axes 2 1 (fun f b => cart unit_cell (walk steady f b)) [0] [1] 4 1 = (- (2 / 5))%R).
  { unfold true_ngp, true_squares, tab. cbn [Nat.sub seq map List.concat]. rewrite !S. unfold non_gaussian, average. cbn. field. }
  rewrite E2, E3, M, N. split; [lra|]. split; [reflexivity|].
  destruct (C96_one_frame_proof X _ _ _ _ _ _ _ _ _ _ _ (demo_boot 1 "xyz") _ _ _ _ F eq_refl eq_refl names_xyz H 0%nat 1%R ltac:(now rewrite Ht) ltac:(now rewrite E1)) as (y & Y1 & Y2).
  { rewrite kept_one, E2, E3, M. lra. }
  rewrite kept_one, E2, E3, N in Y2. rewrite Y1. f_equal. cbn [Nat.sub INR] in Y2. lra.
Qed.
