(** * Lemmas: facts about the primitives of [Base] *)
From Verif Require Import Base Spec.
From Coq Require Import Reals Lra Arith Permutation.
Open Scope Z_scope.

(** ** Real-number instance *)
Ltac numR := cbn [n0 n1 nadd nsub nmul ndiv nopp nofZ nltb nleb nfloor ntrunc NumR] in *.

Lemma Rleb_true x y : Rleb x y = true <-> (x <= y)%R.
Proof. unfold Rleb. destruct (Rle_dec x y); split; intros; try easy; lra. Qed.
Lemma Rleb_false x y : Rleb x y = false <-> (y < x)%R.
Proof. unfold Rleb. destruct (Rle_dec x y); split; intros; try easy; lra. Qed.
Lemma Rltb_true x y : Rltb x y = true <-> (x < y)%R.
Proof. unfold Rltb. destruct (Rlt_dec x y); split; intros; try easy; lra. Qed.
Lemma Rltb_false x y : Rltb x y = false <-> (y <= x)%R.
Proof. unfold Rltb. destruct (Rlt_dec x y); split; intros; try easy; lra. Qed.
Lemma neqb_R_true (x y : R) : neqb x y = true <-> x = y.
Proof.
  unfold neqb; cbn. rewrite andb_true_iff, !Rleb_true. split; intros; [lra | subst; lra].
Qed.
Lemma neqb_R_false (x y : R) : neqb x y = false <-> x <> y.
Proof.
  destruct (neqb x y) eqn:E; split; intros; try easy.
  - apply neqb_R_true in E; easy.
  - intros H1. apply neqb_R_true in H1. congruence.
Qed.
Lemma nofnat_R n : nofnat (A:=R) n = INR n.
Proof. unfold nofnat; cbn. symmetry; apply INR_IZR_INZ. Qed.
Lemma nhalf_R : nhalf (A:=R) = (/ 2)%R.
Proof. unfold nhalf; cbn. lra. Qed.

(** *** Floor *)
Lemma Rfloor_bounds x : (IZR (Rfloor x) <= x < IZR (Rfloor x) + 1)%R.
Proof. unfold Rfloor. pose proof (base_Int_part x). lra. Qed.
Lemma Rfloor_unique x z : (IZR z <= x < IZR z + 1)%R -> Rfloor x = z.
Proof.
  intros [H1 H2]. pose proof (Rfloor_bounds x) as [H3 H4].
  assert (Hlt : (IZR z < IZR (Rfloor x + 1))%R) by (rewrite plus_IZR; lra).
  assert (Hlt2 : (IZR (Rfloor x) < IZR (z + 1))%R) by (rewrite plus_IZR; lra).
  apply lt_IZR in Hlt. apply lt_IZR in Hlt2. lia.
Qed.
Lemma Rfloor_IZR z : Rfloor (IZR z) = z.
Proof. apply Rfloor_unique; lra. Qed.
Lemma Rfloor_plus_IZR x z : Rfloor (x + IZR z) = Rfloor x + z.
Proof.
  apply Rfloor_unique. pose proof (Rfloor_bounds x). rewrite plus_IZR. lra.
Qed.
Lemma Rfloor_mono x y : (x <= y)%R -> Rfloor x <= Rfloor y.
Proof.
  intros H. pose proof (Rfloor_bounds x); pose proof (Rfloor_bounds y).
  assert (Hlt : (IZR (Rfloor x) < IZR (Rfloor y + 1))%R) by (rewrite plus_IZR; lra).
  apply lt_IZR in Hlt. lia.
Qed.
Lemma Rfloor_le_iff z x : z <= Rfloor x <-> (IZR z <= x)%R.
Proof.
  pose proof (Rfloor_bounds x). split; intros H1.
  - apply IZR_le in H1. lra.
  - rewrite <- (Rfloor_IZR z). apply Rfloor_mono; lra.
Qed.
Lemma Rtrunc_IZR z : Rtrunc (IZR z) = z.
Proof.
  unfold Rtrunc. destruct (Rle_dec 0 (IZR z)).
  - apply Rfloor_IZR.
  - rewrite <- opp_IZR. fold (Rfloor (IZR (-z))). rewrite Rfloor_IZR. lia.
Qed.
Lemma Rtrunc_pos x : (0 <= x)%R -> Rtrunc x = Rfloor x.
Proof. intros. unfold Rtrunc. destruct (Rle_dec 0 x); [reflexivity | lra]. Qed.

(** *** Sums *)
Lemma fold_left_nadd_R l : forall a : R, fold_left nadd l a = (a + rsum l)%R.
Proof. induction l as [|x l IH]; intros a; cbn [fold_left rsum]; [lra|]. rewrite IH. numR. lra. Qed.
Lemma nsum_R (l : list R) : nsum l = rsum l.
Proof. unfold nsum. rewrite fold_left_nadd_R. numR. lra. Qed.
Lemma rsum_app a b : rsum (a ++ b) = (rsum a + rsum b)%R.
Proof. induction a as [|x a IH]; cbn; [lra|]. rewrite IH. lra. Qed.
Lemma rsum_cons x l : rsum (x :: l) = (x + rsum l)%R.
Proof. reflexivity. Qed.
Lemma rsum_scale c l : rsum (map (Rmult c) l) = (c * rsum l)%R.
Proof. induction l as [|x l IH]; cbn; [lra|]. rewrite IH; lra. Qed.
Lemma rsum_map_plus {T} (f g : T -> R) l :
  rsum (map (fun x => f x + g x)%R l) = (rsum (map f l) + rsum (map g l))%R.
Proof. induction l as [|x l IH]; cbn; [lra|]. rewrite IH. lra. Qed.
Lemma rsum_map_minus {T} (f g : T -> R) l :
  rsum (map (fun x => f x - g x)%R l) = (rsum (map f l) - rsum (map g l))%R.
Proof. induction l as [|x l IH]; cbn; [lra|]. rewrite IH. lra. Qed.
Lemma rsum_map_scale {T} c (f : T -> R) l :
  rsum (map (fun x => c * f x)%R l) = (c * rsum (map f l))%R.
Proof. induction l as [|x l IH]; cbn; [lra|]. rewrite IH. lra. Qed.
Lemma rsum_const {T} c (l : list T) : rsum (map (fun _ => c) l) = (INR (length l) * c)%R.
Proof.
  induction l as [|x l IH]; [cbn; lra|].
  cbn [map]. rewrite rsum_cons, IH. change (length (x :: l)) with (S (length l)). rewrite S_INR. lra.
Qed.
Lemma rsum_nonneg l : Forall (fun x => 0 <= x)%R l -> (0 <= rsum l)%R.
Proof. induction 1; cbn; lra. Qed.
Lemma rsum_perm a b : Permutation a b -> rsum a = rsum b.
Proof. induction 1; cbn; lra. Qed.
Lemma rsum_le a b : Forall2 Rle a b -> (rsum a <= rsum b)%R.
Proof. induction 1; cbn; lra. Qed.
Lemma rsum_zero_iff l : Forall (fun x => 0 <= x)%R l -> (rsum l = 0%R <-> Forall (fun x => x = 0%R) l).
Proof.
  induction 1 as [|x l Hx Hl IH]; [split; constructor|].
  pose proof (rsum_nonneg l Hl). cbn. split; intros H1.
  - constructor; [lra|]. apply IH. lra.
  - inversion H1; subst. apply IH in H4. lra.
Qed.
Lemma nmean_R (l : list R) : nmean l = (rsum l / INR (length l))%R.
Proof. unfold nmean. rewrite nsum_R, nofnat_R. reflexivity. Qed.

(** ** Lists *)
Lemma map_nth_seq {T} (d : T) l : map (fun i => nth i l d) (seq 0 (length l)) = l.
Proof.
  induction l as [|x l IH]; [reflexivity|].
  cbn [length seq map nth]. f_equal. rewrite <- seq_shift, map_map. exact IH.
Qed.
Lemma nth_error_map_seq {T} (f : nat -> T) n t :
  (t < n)%nat -> nth_error (map f (seq 0 n)) t = Some (f t).
Proof.
  intros H. rewrite nth_error_map.
  rewrite (nth_error_nth' (seq 0 n) 0%nat) by (rewrite seq_length; lia).
  rewrite seq_nth by lia. reflexivity.
Qed.
Lemma nth_map_seq {T} (d : T) (f : nat -> T) n t : (t < n)%nat -> nth t (map f (seq 0 n)) d = f t.
Proof. intros H. apply nth_error_nth. now apply nth_error_map_seq. Qed.
Lemma zip_with_map {X A B C} (f : A -> B -> C) (a : X -> A) (b : X -> B) s :
  zip_with f (map a s) (map b s) = map (fun i => f (a i) (b i)) s.
Proof. unfold zip_with. induction s; cbn; [reflexivity|]. f_equal. exact IHs. Qed.
Lemma zip_with_length {A B C} (f : A -> B -> C) a b :
  length (zip_with f a b) = Nat.min (length a) (length b).
Proof. unfold zip_with. rewrite map_length, combine_length. reflexivity. Qed.
Lemma nth_error_zip_with {A B C} (f : A -> B -> C) a b t x y :
  nth_error a t = Some x -> nth_error b t = Some y -> nth_error (zip_with f a b) t = Some (f x y).
Proof.
  unfold zip_with. revert b t. induction a as [|u a IH]; intros [|v b] [|t]; cbn; try easy.
  - intros [= ->] [= ->]. reflexivity.
  - apply IH.
Qed.
Lemma tl_map_seq {T} (f : nat -> T) n : tl (map f (seq 0 (S n))) = map (fun i => f (S i)) (seq 0 n).
Proof. cbn [seq map tl]. rewrite <- seq_shift, map_map. reflexivity. Qed.
Lemma combine_map {X A B} (a : X -> A) (b : X -> B) s :
  combine (map a s) (map b s) = map (fun i => (a i, b i)) s.
Proof. induction s; cbn; [reflexivity|]. f_equal. exact IHs. Qed.
Lemma combine_map_trunc {A B} (f : nat -> A) (g : nat -> B) n m :
  (n <= m)%nat -> combine (map f (seq 0 m)) (map g (seq 0 n)) = map (fun i => (f i, g i)) (seq 0 n).
Proof.
  intros H. replace m with (n + (m - n))%nat by lia.
  rewrite seq_app, map_app. cbn [plus].
  assert (E : forall (a c : list A) (b : list B), length a = length b -> combine (a ++ c) b = combine a b).
  { induction a as [|x a IH]; intros c [|y b]; cbn; try easy.
    - destruct c; reflexivity.
    - intros [= E]. f_equal. now apply IH. }
  rewrite E by now rewrite !map_length. apply combine_map.
Qed.
Lemma list_ext {T} (a b : list T) : (forall i, nth_error a i = nth_error b i) -> a = b.
Proof.
  revert b. induction a as [|x a IH]; intros [|y b] H.
  - reflexivity.
  - specialize (H 0%nat); discriminate.
  - specialize (H 0%nat); discriminate.
  - f_equal. + specialize (H 0%nat); now injection H. + apply IH. intros i. apply (H (S i)).
Qed.
Lemma map_seq_ext {T} (f g : nat -> T) n :
  (forall i, (i < n)%nat -> f i = g i) -> map f (seq 0 n) = map g (seq 0 n).
Proof. intros H. apply map_ext_in. intros i Hi. apply in_seq in Hi. apply H. lia. Qed.

(** ** The error monad *)
Lemma bind_ok {A B} (m : Res A) (k : A -> Res B) b :
  bind m k = Ok b <-> exists a, m = Ok a /\ k a = Ok b.
Proof.
  destruct m; cbn; split.
  - intros H; eauto. - intros (a' & [= <-] & H); exact H.
  - discriminate. - intros (a' & H & _); discriminate.
Qed.
Lemma guard_ok b e : guard b e = Ok tt <-> b = true.
Proof. destruct b; cbn; split; congruence. Qed.
Lemma mapM_ok {A B} (f : A -> Res B) l l' :
  mapM f l = Ok l' <-> Forall2 (fun x y => f x = Ok y) l l'.
Proof.
  revert l'. induction l as [|x l IH]; intros l'; cbn.
  - split. + intros [= <-]; constructor. + inversion 1; reflexivity.
  - split.
    + intros H. apply bind_ok in H as (y & Hy & H). apply bind_ok in H as (ys & Hys & [= <-]).
      constructor; [exact Hy|]. now apply IH.
    + inversion 1; subst. rewrite H2; cbn. apply IH in H4. rewrite H4. reflexivity.
Qed.
Lemma mapM_total {A B} (f : A -> Res B) (g : A -> B) l :
  (forall x, In x l -> f x = Ok (g x)) -> mapM f l = Ok (map g l).
Proof.
  induction l as [|x l IH]; intros H; cbn; [reflexivity|].
  rewrite H by now left. cbn. rewrite IH by (intros; apply H; now right). reflexivity.
Qed.
Lemma Forall2_length {A B} (P : A -> B -> Prop) l l' : Forall2 P l l' -> length l = length l'.
Proof. induction 1; cbn; congruence. Qed.
Lemma mapM_length {A B} (f : A -> Res B) l l' : mapM f l = Ok l' -> length l' = length l.
Proof. intros H. apply mapM_ok in H. symmetry. eapply Forall2_length; eauto. Qed.
Lemma mapM_map {A B C} (f : B -> Res C) (g : A -> B) l : mapM f (map g l) = mapM (fun x => f (g x)) l.
Proof. induction l; cbn; [reflexivity|]. now rewrite IHl. Qed.
Lemma mapM_ext {A B} (f g : A -> Res B) l : (forall x, In x l -> f x = g x) -> mapM f l = mapM g l.
Proof.
  induction l; intros H; cbn; [reflexivity|]. rewrite H by now left.
  rewrite IHl by (intros; apply H; now right). reflexivity.
Qed.
Lemma Forall2_nth_error {A B} (P : A -> B -> Prop) l l' i x :
  Forall2 P l l' -> nth_error l i = Some x -> exists y, nth_error l' i = Some y /\ P x y.
Proof.
  intros H. revert i. induction H; intros [|i]; cbn; try easy.
  - intros [= <-]. eauto. - apply IHForall2.
Qed.
Lemma Forall2_nth_error_r {A B} (P : A -> B -> Prop) l l' i y :
  Forall2 P l l' -> nth_error l' i = Some y -> exists x, nth_error l i = Some x /\ P x y.
Proof.
  intros H. revert i. induction H; intros [|i]; cbn; try easy.
  - intros [= <-]. eauto. - apply IHForall2.
Qed.

(** ** Indexing *)
Lemma py_index_nonneg {A} (l : list A) i : 0 <= i < Z.of_nat (length l) ->
  exists x, py_index l i = Ok x /\ nth_error l (Z.to_nat i) = Some x.
Proof.
  intros H. unfold py_index.
  destruct (i <? 0) eqn:E; [apply Z.ltb_lt in E; lia|].
  assert (E2 : (0 <=? i) && (i <? Z.of_nat (length l)) = true)
    by (rewrite andb_true_iff, Z.leb_le, Z.ltb_lt; lia).
  rewrite E2. destruct (nth_error l (Z.to_nat i)) as [x|] eqn:E3.
  - exists x. split; reflexivity.
  - apply nth_error_None in E3. lia.
Qed.
Lemma py_index_nat {A} (l : list A) i :
  py_index l (Z.of_nat i) = opt_res IndexError (nth_error l i).
Proof.
  unfold py_index. destruct (Z.of_nat i <? 0) eqn:E; [apply Z.ltb_lt in E; lia|].
  destruct ((0 <=? Z.of_nat i) && (Z.of_nat i <? Z.of_nat (length l))) eqn:E2.
  - now rewrite Nat2Z.id.
  - assert (nth_error l i = None).
    { apply nth_error_None. apply andb_false_iff in E2 as [E2|E2].
      + apply Z.leb_gt in E2; lia. + apply Z.ltb_ge in E2; lia. }
    rewrite H. reflexivity.
Qed.
Lemma py_index_ok_inv {A} (l : list A) i x : py_index l i = Ok x -> In x l.
Proof.
  unfold py_index. destruct (_ && _); [|discriminate].
  destruct (nth_error _ _) eqn:E; cbn; [|discriminate]. intros [= <-].
  eapply nth_error_In; eauto.
Qed.
Lemma py_index_map {A B} (f : A -> B) l i :
  py_index (map f l) i = match py_index l i with Ok x => Ok (f x) | Raise e => Raise e end.
Proof.
  unfold py_index. rewrite map_length.
  destruct (_ && _); [|reflexivity].
  rewrite nth_error_map. destruct (nth_error _ _); reflexivity.
Qed.
Lemma gather_map {A B} (f : A -> B) l idx :
  gather (map f l) idx = match gather l idx with Ok x => Ok (map f x) | Raise e => Raise e end.
Proof.
  unfold gather. induction idx as [|i idx IH]; cbn; [reflexivity|].
  rewrite py_index_map. destruct (py_index l i); cbn; [|reflexivity].
  rewrite IH. destruct (mapM (py_index l) idx); reflexivity.
Qed.
Lemma gather_length {A} (l : list A) idx r : gather l idx = Ok r -> length r = length idx.
Proof. apply mapM_length. Qed.
Lemma gather_In {A} (l : list A) idx r : gather l idx = Ok r -> Forall (fun x => In x l) r.
Proof.
  unfold gather. intros H. apply mapM_ok in H. induction H; constructor; auto.
  eapply py_index_ok_inv; eauto.
Qed.
Lemma gather_nat {A} (l : list A) (d : A) idx :
  Forall (fun i => (i < length l)%nat) idx -> gather l (map Z.of_nat idx) = Ok (map (fun i => nth i l d) idx).
Proof.
  intros H. unfold gather. rewrite mapM_map. apply mapM_total.
  intros i Hi. rewrite Forall_forall in H. specialize (H i Hi).
  rewrite py_index_nat. rewrite (nth_error_nth' l d H). reflexivity.
Qed.

(** ** Slices *)
Lemma py_bound_nonneg n i : 0 <= i -> py_bound n i = Nat.min n (Z.to_nat i).
Proof.
  intros H. unfold py_bound. destruct (i <? 0) eqn:E; [apply Z.ltb_lt in E; lia|]. lia.
Qed.
Lemma py_bound_neg n i : i < 0 -> py_bound n i = (n - Z.to_nat (- i))%nat.
Proof.
  intros H. unfold py_bound. destruct (i <? 0) eqn:E; [|apply Z.ltb_ge in E; lia]. lia.
Qed.
Lemma py_from_nat {A} n (l : list A) : py_from (Z.of_nat n) l = skipn n l.
Proof.
  unfold py_from. rewrite py_bound_nonneg by lia. rewrite Nat2Z.id.
  destruct (Nat.le_ge_cases (length l) n).
  - rewrite Nat.min_l by lia. rewrite !skipn_all2 by lia. reflexivity.
  - rewrite Nat.min_r by lia. reflexivity.
Qed.
Lemma py_to_nat {A} n (l : list A) : py_to (Z.of_nat n) l = firstn n l.
Proof.
  unfold py_to. rewrite py_bound_nonneg by lia. rewrite Nat2Z.id.
  destruct (Nat.le_ge_cases (length l) n).
  - rewrite Nat.min_l by lia. rewrite !firstn_all2 by lia. reflexivity.
  - rewrite Nat.min_r by lia. reflexivity.
Qed.
Lemma py_to_opp_nat {A} n (l : list A) : (0 < n)%nat -> py_to (- Z.of_nat n) l = firstn (length l - n) l.
Proof.
  intros H. unfold py_to. rewrite py_bound_neg by lia. repeat f_equal. lia.
Qed.
Lemma firstn_map_seq {T} (f : nat -> T) k n :
  (k <= n)%nat -> firstn k (map f (seq 0 n)) = map f (seq 0 k).
Proof.
  intros H. replace n with (k + (n - k))%nat by lia. rewrite seq_app, map_app.
  rewrite firstn_app, map_length, seq_length. replace (k - k)%nat with 0%nat by lia.
  cbn [firstn]. rewrite app_nil_r. rewrite firstn_all2 by (rewrite map_length, seq_length; lia).
  reflexivity.
Qed.
Lemma skipn_map_seq {T} (f : nat -> T) k n :
  (k <= n)%nat -> skipn k (map f (seq 0 n)) = map (fun i => f (k + i)%nat) (seq 0 (n - k)).
Proof.
  intros H. replace n with (k + (n - k))%nat at 1 by lia. rewrite seq_app, map_app.
  rewrite skipn_app, map_length, seq_length. replace (k - k)%nat with 0%nat by lia.
  rewrite skipn_all2 by (rewrite map_length, seq_length; lia). cbn [skipn app].
  assert (E : forall a m, map f (seq a m) = map (fun i => f (a + i)%nat) (seq 0 m)).
  { intros a m. revert a. induction m; intros a; cbn; [reflexivity|].
    rewrite Nat.add_0_r. f_equal. rewrite (IHm (S a)). rewrite <- seq_shift, map_map.
    apply map_ext. intros; f_equal; lia. }
  rewrite E. apply map_ext; intros; f_equal; lia.
Qed.

(** ** Strides *)
Lemma every_one {A} (l : list A) : every 1 0 l = l.
Proof. induction l; cbn; [reflexivity|]. now rewrite IHl. Qed.
Lemma every_nil {A} k c : every k c (@nil A) = [].
Proof. reflexivity. Qed.
Lemma every_skip {A} k c (l : list A) : every k c l = every k 0 (skipn c l).
Proof.
  revert c. induction l as [|x l IH]; intros [|c]; cbn [every skipn]; auto.
Qed.
Lemma nth_error_skipn {A} n (l : list A) i : nth_error (skipn n l) i = nth_error l (n + i).
Proof.
  revert l. induction n; intros l; [reflexivity|].
  destruct l; cbn; [destruct i; reflexivity|]. apply IHn.
Qed.
Lemma nth_error_every {A} k (l : list A) i : (0 < k)%nat -> nth_error (every k 0 l) i = nth_error l (i * k).
Proof.
  intros Hk. revert l. induction i as [|i IH]; intros l.
  - destruct l; reflexivity.
  - destruct l as [|x l].
    + cbn. now destruct (k + i * k)%nat.
    + cbn [every]. rewrite every_skip. cbn [nth_error]. rewrite IH, nth_error_skipn.
      replace (S i * k)%nat with (S (k - 1 + i * k)) by lia. reflexivity.
Qed.
Lemma every_map {A B} (f : A -> B) k c l : every k c (map f l) = map f (every k c l).
Proof.
  revert c. induction l as [|x l IH]; intros [|c]; cbn; auto. now rewrite IH.
Qed.
Lemma py_stride_one {A} (l : list A) : py_stride 1 l = Ok l.
Proof. unfold py_stride. cbn. now rewrite every_one. Qed.
Lemma py_stride_map {A B} (f : A -> B) k l :
  py_stride k (map f l) = match py_stride k l with Ok x => Ok (map f x) | Raise e => Raise e end.
Proof.
  unfold py_stride. destruct (k =? 0); [reflexivity|].
  destruct (0 <? k); rewrite <- ?map_rev, every_map; reflexivity.
Qed.
Lemma every_length_pos {A} k (x : A) l : (0 < length (every k 0 (x :: l)))%nat.
Proof. cbn. lia. Qed.

(** ** Vectors *)
Lemma V3_eq {A} (u v : V3 A) : vx u = vx v -> vy u = vy v -> vz u = vz v -> u = v.
Proof. destruct u, v; cbn; intros; subst; reflexivity. Qed.
