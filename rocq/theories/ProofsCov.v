(** * ProofsCov: covariance matrix, reconditioning, likelihood (C33, C34, C35, C54) *)
From Verif Require Import Base Spec ModelParser ModelDiffusion SpecFit Lemmas SpecRun.
From Coq Require Import Reals Lra Lia.
Open Scope nat_scope.

(** ** Sums *)
Lemma sumto_ext n f g : (forall i, i < n -> f i = g i) -> sumto n f = sumto n g.
Proof. induction n; intros H; cbn; [reflexivity|]. rewrite IHn, (H n) by (intros; apply H || idtac; lia). reflexivity. Qed.
Lemma sumto_plus n f g : sumto n (fun i => f i + g i)%R = (sumto n f + sumto n g)%R.
Proof. induction n; cbn; [ring|]. rewrite IHn. ring. Qed.
Lemma sumto_scale n c f : sumto n (fun i => c * f i)%R = (c * sumto n f)%R.
Proof. induction n; cbn; [ring|]. rewrite IHn. ring. Qed.
Lemma sumto_scale_r n c f : sumto n (fun i => f i * c)%R = (sumto n f * c)%R.
Proof. induction n; cbn; [ring|]. rewrite IHn. ring. Qed.
Lemma sumto_minus n f g : sumto n (fun i => f i - g i)%R = (sumto n f - sumto n g)%R.
Proof. induction n; cbn; [ring|]. rewrite IHn. ring. Qed.
Lemma sumto_zero n f : (forall i, i < n -> f i = 0%R) -> sumto n f = 0%R.
Proof. intros H. rewrite (sumto_ext n f (fun _ => 0%R)) by exact H. induction n; cbn; [reflexivity|]. rewrite IHn by (intros; apply H; lia). ring. Qed.
Lemma sumto_swap n m (f : nat -> nat -> R) :
  sumto n (fun i => sumto m (fun j => f i j)) = sumto m (fun j => sumto n (fun i => f i j)).
Proof.
  induction n; cbn.
  - symmetry. apply sumto_zero. reflexivity.
  - rewrite IHn, <- sumto_plus. reflexivity.
Qed.
Lemma sumto_one n k f : k < n -> (forall i, i < n -> i <> k -> f i = 0%R) -> sumto n f = f k.
Proof.
  induction n; intros Hk H; [lia|]. cbn. destruct (Nat.eq_dec k n) as [->|Hn].
  - rewrite sumto_zero by (intros; apply H; lia). ring.
  - rewrite IHn by (intros; try apply H; lia). rewrite (H n) by lia. ring.
Qed.
Lemma sumto_two n k f : S k < n -> (forall i, i < n -> i <> k -> i <> S k -> f i = 0%R) ->
  sumto n f = (f k + f (S k))%R.
Proof.
  induction n; intros Hk H; [lia|]. cbn. destruct (Nat.eq_dec (S k) n) as [<-|Hn].
  - rewrite (sumto_one (S k) k) by (intros; try apply H; lia). reflexivity.
  - rewrite IHn by (intros; try apply H; lia). rewrite (H n) by lia. ring.
Qed.
Lemma sumto_nonneg n f : (forall i, (i < n)%nat -> 0 <= f i)%R -> (0 <= sumto n f)%R.
Proof. induction n; intros H; cbn; [lra|]. assert (0 <= sumto n f)%R by (apply IHn; intros; apply H; lia). assert (0 <= f n)%R by (apply H; lia). lra. Qed.
Lemma sumto_le n f g : (forall i, (i < n)%nat -> f i <= g i)%R -> (sumto n f <= sumto n g)%R.
Proof. induction n; intros H; cbn; [lra|]. assert (sumto n f <= sumto n g)%R by (apply IHn; intros; apply H; lia). assert (f n <= g n)%R by (apply H; lia). lra. Qed.
Lemma sumto_first n f : sumto (S n) f = (f O + sumto n (fun i => f (S i)))%R.
Proof. induction n; cbn in *; [ring|]. rewrite IHn. ring. Qed.
Lemma sumto_mult n m f g : (sumto n f * sumto m g)%R = sumto n (fun i => sumto m (fun j => f i * g j)%R).
Proof.
  rewrite <- sumto_scale_r. apply sumto_ext. intros i _. now rewrite sumto_scale.
Qed.

(** ** C33 *)
Section Fill.
  Context (v n : list R).
  Definition cov_value (i j : nat) : R := (nth i n 0 / nth j n 0 * nth i v 0)%R.
  Lemma fill_entry_spec i m j a b : fill_entry v n i m j a b =
    if (a =? i) && (b =? j) || (b =? i) && (a =? j) then cov_value i j else m a b.
  Proof.
    unfold fill_entry, mat_set, cov_value. rewrite !Nat.eqb_refl. cbn [andb].
    destruct (Nat.eqb_spec a j), (Nat.eqb_spec b i), (Nat.eqb_spec a i), (Nat.eqb_spec b j); cbn; try reflexivity.
  Qed.
  Definition memb (x : nat) (l : list nat) : bool := existsb (Nat.eqb x) l.
  Lemma memb_In x l : memb x l = true <-> In x l.
  Proof.
    unfold memb. rewrite existsb_exists. split.
    - intros (y & H & E). apply Nat.eqb_eq in E. now subst.
    - intros H. exists x. split; [exact H|apply Nat.eqb_refl].
  Qed.
  Lemma fill_entries_spec i js m a b : fold_left (fill_entry v n i) js m a b =
    if (a =? i) && memb b js then cov_value i b
    else if (b =? i) && memb a js then cov_value i a else m a b.
  Proof.
    revert m. induction js as [|j js IH]; intros m; cbn [fold_left].
    - cbn. rewrite !andb_false_r. reflexivity.
    - rewrite IH, fill_entry_spec. unfold memb. cbn [existsb]. fold (memb b js). fold (memb a js).
      destruct (memb a js) eqn:Ea, (memb b js) eqn:Eb;
        destruct (Nat.eqb_spec a i), (Nat.eqb_spec b j), (Nat.eqb_spec b i), (Nat.eqb_spec a j); subst; cbn; congruence.
  Qed.
  Lemma fill_rows_spec k a b : k <= length v -> a < length v -> b < length v ->
    fold_left (fill_row v n) (seq 0 k) (fun _ _ => 0%R) a b =
    if Nat.min a b <? k then cov_value (Nat.min a b) (Nat.max a b) else 0%R.
  Proof.
    intros Hk Ha Hb. induction k as [|k IH]; [reflexivity|].
    rewrite seq_S, fold_left_app. cbn [fold_left Nat.add]. unfold fill_row at 1. rewrite fill_entries_spec.
    rewrite IH by lia.
    assert (M : forall x, memb x (seq k (length v - k)) = (k <=? x) && (x <? length v)).
    { intros x. destruct (memb x _) eqn:E.
      - apply memb_In, in_seq in E. symmetry. apply andb_true_intro. rewrite Nat.leb_le, Nat.ltb_lt. lia.
      - symmetry. apply not_true_iff_false. intros H. apply andb_prop in H as [H1 H2].
        apply Nat.leb_le in H1. apply Nat.ltb_lt in H2.
        assert (memb x (seq k (length v - k)) = true) by (apply memb_In, in_seq; lia). congruence. }
    rewrite !M.
    destruct (Nat.eqb_spec a k), (Nat.leb_spec k b), (Nat.ltb_spec b (length v)), (Nat.eqb_spec b k), (Nat.leb_spec k a),
      (Nat.ltb_spec a (length v)), (Nat.ltb_spec (Nat.min a b) k), (Nat.ltb_spec (Nat.min a b) (S k)); cbn; try lia; subst;
      try reflexivity; try (f_equal; lia).
  Qed.
End Fill.
Lemma nth_tab {T} n (f : nat -> T) i d : i < n -> nth i (map f (seq 0 n)) d = f i.
Proof. intros H. rewrite (nth_indep _ d (f 0)) by (rewrite map_length, seq_length; lia). rewrite map_nth, seq_nth by lia. reflexivity. Qed.
Lemma mat_of_entry n m i j : i < n -> j < n -> matrix_entry (mat_of n m) i j = m i j.
Proof. intros Hi Hj. unfold matrix_entry, mat_of. rewrite nth_tab by exact Hi. now rewrite nth_tab by exact Hj. Qed.
Lemma mat_of_square {T} n (m : nat -> nat -> T) : square (mat_of n m) n.
Proof.
  unfold square, shape, mat_of. rewrite map_length, seq_length. split; [reflexivity|].
  apply Forall_forall. intros r Hr. apply in_map_iff in Hr as (i & <- & _). now rewrite map_length, seq_length.
Qed.
Lemma populate_ok (v n : list R) : length v <= length n ->
  populate_covariance_matrix v n = Ok (mat_of (length v) (fill v n)).
Proof. intros H. unfold populate_covariance_matrix. apply Nat.leb_le in H. now rewrite H. Qed.
Lemma populate_inv (v n : list R) m : populate_covariance_matrix v n = Ok m ->
  length v <= length n /\ m = mat_of (length v) (fill v n).
Proof.
  unfold populate_covariance_matrix. destruct (Nat.leb_spec (length v) (length n)); cbn; [|discriminate].
  intros [= <-]. auto.
Qed.
Lemma fill_value (v n : list R) i j : i < length v -> j < length v ->
  fill v n i j = cov_value v n (Nat.min i j) (Nat.max i j).
Proof.
  intros Hi Hj. unfold fill. change n0 with 0%R. rewrite fill_rows_spec by lia.
  assert (Nat.min i j <? length v = true) as -> by (apply Nat.ltb_lt; lia). reflexivity.
Qed.
Lemma C33_proof (v n : list R) m : populate_covariance_matrix v n = Ok m ->
  square m (length v) /\ symmetric m
  /\ (forall i j, (i <= j < length v)%nat -> vec_entry n j <> 0%R ->
        matrix_entry m i j = (vec_entry v i * vec_entry n i / vec_entry n j)%R)
  /\ (forall i, i < length v -> vec_entry n i <> 0%R -> matrix_entry m i i = vec_entry v i).
Proof.
  intros H. apply populate_inv in H as [HL ->]. split; [apply mat_of_square|].
  assert (E : forall i j, i < length v -> j < length v -> matrix_entry (mat_of (length v) (fill v n)) i j = cov_value v n (Nat.min i j) (Nat.max i j)).
  { intros i j Hi Hj. rewrite mat_of_entry by assumption. now apply fill_value. }
  split.
  { intros i j Hi Hj. rewrite (proj1 (mat_of_square (length v) (fill v n))) in Hi, Hj.
    rewrite !E by assumption. now rewrite Nat.min_comm, Nat.max_comm. }
  assert (F : forall i j, (i <= j < length v)%nat -> vec_entry n j <> 0%R ->
        matrix_entry (mat_of (length v) (fill v n)) i j = (vec_entry v i * vec_entry n i / vec_entry n j)%R).
  { intros i j Hij Hn. rewrite E by lia. rewrite Nat.min_l, Nat.max_r by lia. unfold cov_value. unfold vec_entry in *. field. exact Hn. }
  split; [exact F|]. intros i Hi Hn. rewrite F by (auto; lia). unfold vec_entry in *. field. exact Hn.
Qed.
Lemma C33_error_proof (v n : list R) : length n < length v -> populate_covariance_matrix v n = Raise IndexError.
Proof.
  intros H. unfold populate_covariance_matrix. destruct (Nat.leb_spec (length v) (length n)); [lia|]. reflexivity.
Qed.

(** ** C34 *)
Lemma min_form_head n (r y : nat -> R) :
  sumto (S n) (fun i => sumto (S n) (fun j => y i * r (Nat.min i j) * y j))%R
  = (r O * (sumto (S n) y * sumto (S n) y)
     + sumto n (fun i => sumto n (fun j => y (S i) * (r (S (Nat.min i j)) - r O) * y (S j))))%R.
Proof.
  rewrite sumto_mult, <- sumto_scale.
  rewrite (sumto_ext (S n) (fun i => r O * sumto (S n) (fun j => y i * y j))%R (fun i => sumto (S n) (fun j => r O * (y i * y j))%R))
    by (intros; symmetry; apply sumto_scale).
  assert (E : sumto (S n) (fun i => sumto (S n) (fun j => y i * (r (Nat.min i j) - r O) * y j))%R
    = sumto n (fun i => sumto n (fun j => y (S i) * (r (S (Nat.min i j)) - r O) * y (S j)))%R).
  { rewrite sumto_first. rewrite (sumto_zero (S n) (fun j => y O * (r (Nat.min O j) - r O) * y j)%R) by (intros; cbn; ring).
    rewrite Rplus_0_l. apply sumto_ext. intros i _. rewrite sumto_first. cbn [Nat.min]. ring. }
  rewrite <- E, <- sumto_plus. apply sumto_ext. intros i _. rewrite <- sumto_plus. apply sumto_ext. intros j _. ring.
Qed.
Lemma min_form_nonneg n : forall (r y : nat -> R), (0 <= r O)%R -> (forall i, (S i < n)%nat -> r i <= r (S i))%R ->
  (0 <= sumto n (fun i => sumto n (fun j => y i * r (Nat.min i j) * y j)))%R.
Proof.
  induction n as [|n IH]; intros r y H0 H1; [cbn; lra|]. rewrite min_form_head.
  assert (0 <= sumto (S n) y * sumto (S n) y)%R by nra.
  assert (0 <= sumto n (fun i => sumto n (fun j => y (S i) * (r (S (Nat.min i j)) - r O) * y (S j))))%R.
  { destruct n as [|n']; [cbn; lra|].
    apply (IH (fun i => r (S i) - r O)%R (fun i => y (S i))).
    - specialize (H1 0 ltac:(lia)). lra.
    - intros i Hi. specialize (H1 (S i) ltac:(lia)). lra. }
  nra.
Qed.
(** [square_counts v n]: v_i n_i^2 *)
Definition square_counts (v n : list R) : list R :=
  tab (length v) (fun i => vec_entry v i * (vec_entry n i * vec_entry n i))%R.
Lemma square_counts_nth v n i : i < length v -> vec_entry (square_counts v n) i = (vec_entry v i * (vec_entry n i * vec_entry n i))%R.
Proof. intros H. unfold square_counts, tab. unfold vec_entry at 1. now rewrite nth_tab. Qed.
Lemma square_counts_length v n : length (square_counts v n) = length v.
Proof. unfold square_counts, tab. now rewrite map_length, seq_length. Qed.
Lemma cov_min_form (v n : list R) m x : populate_covariance_matrix v n = Ok m -> Forall (fun c => 0 < c)%R n ->
  length x = length v ->
  quadratic m x = sumto (length v) (fun i => sumto (length v) (fun j =>
     (vec_entry x i / vec_entry n i) * vec_entry (square_counts v n) (Nat.min i j) * (vec_entry x j / vec_entry n j)))%R.
Proof.
  intros H Hn Hx. destruct (C33_proof _ _ _ H) as (S1 & S2 & S3 & _). apply populate_inv in H as [HL _].
  assert (P : forall i, i < length v -> (0 < vec_entry n i)%R).
  { intros i Hi. rewrite Forall_forall in Hn. apply Hn, nth_In. lia. }
  unfold quadratic, bilinear. rewrite Hx. apply sumto_ext. intros i Hi. apply sumto_ext. intros j Hj.
  assert (Pi := P i Hi). assert (Pj := P j Hj).
  rewrite square_counts_nth by lia.
  destruct (Nat.le_ge_cases i j).
  - rewrite S3 by (try lia; lra). rewrite Nat.min_l by lia. field. lra.
  - rewrite S2 by (rewrite (proj1 S1); lia). rewrite S3 by (try lia; lra). rewrite Nat.min_r by lia. field. lra.
Qed.
Lemma C34_proof (v n : list R) m : populate_covariance_matrix v n = Ok m -> Forall (fun c => 0 < c)%R n ->
  (positive_semidefinite m <->
   (forall i, i < length v -> (0 <= vec_entry (square_counts v n) i)%R) /\ nondecreasing (square_counts v n)).
Proof.
  intros H Hn. assert (HL := proj1 (populate_inv _ _ _ H)). assert (Hsq := proj1 (C33_proof _ _ _ H)).
  assert (P : forall i, i < length v -> (0 < vec_entry n i)%R).
  { intros i Hi. rewrite Forall_forall in Hn. apply Hn, nth_In. lia. }
  split.
  - intros HP.
    assert (Hx : forall f : nat -> R, (0 <= sumto (length v) (fun i => sumto (length v) (fun j =>
        f i * vec_entry (square_counts v n) (Nat.min i j) * f j)))%R).
    { intros f. set (x := tab (length v) (fun i => f i * vec_entry n i)%R).
      assert (Lx : length x = length v) by (unfold x, tab; now rewrite map_length, seq_length).
      specialize (HP x). rewrite (cov_min_form v n m x H Hn Lx) in HP.
      rewrite (proj1 Hsq) in HP. specialize (HP Lx).
      rewrite (sumto_ext _ _ (fun i => sumto (length v) (fun j => (vec_entry x i / vec_entry n i) * vec_entry (square_counts v n) (Nat.min i j) * (vec_entry x j / vec_entry n j))%R)); [exact HP|].
      intros i Hi. apply sumto_ext. intros j Hj.
      assert (Pi := P i Hi). assert (Pj := P j Hj).
      assert (Xi : vec_entry x i = (f i * vec_entry n i)%R) by (unfold x, tab; unfold vec_entry at 1; now rewrite nth_tab).
      assert (Xj : vec_entry x j = (f j * vec_entry n j)%R) by (unfold x, tab; unfold vec_entry at 1; now rewrite nth_tab).
      rewrite Xi, Xj. field. lra. }
    assert (D : forall i, i < length v -> (0 <= vec_entry (square_counts v n) i)%R).
    { intros i Hi. specialize (Hx (fun k => if k =? i then 1 else 0)%R).
      rewrite (sumto_one _ i) in Hx; [|exact Hi|].
      - rewrite (sumto_one _ i) in Hx; [|exact Hi|].
        + rewrite Nat.eqb_refl, Nat.min_id in Hx. lra.
        + intros j _ Hj. apply Nat.eqb_neq in Hj. rewrite Hj. ring.
      - intros j _ Hj. apply sumto_zero. intros k _. apply Nat.eqb_neq in Hj. rewrite Hj. ring. }
    split; [exact D|].
    assert (Stp : forall i, S i < length v -> (vec_entry (square_counts v n) i <= vec_entry (square_counts v n) (S i))%R).
    { intros i Hi. specialize (Hx (fun k => if k =? i then -1 else if k =? S i then 1 else 0)%R). cbn beta in Hx.
      assert (Z : forall k, k <> i -> k <> S i -> (if k =? i then -1 else if k =? S i then 1 else 0)%R = 0%R).
      { intros k H1 H2. apply Nat.eqb_neq in H1, H2. now rewrite H1, H2. }
      rewrite (sumto_two _ i) in Hx; [|exact Hi|].
      - rewrite !(sumto_two _ i) in Hx; try exact Hi.
        + rewrite !Nat.eqb_refl in Hx. assert (S i =? i = false) as E by (apply Nat.eqb_neq; lia). rewrite E in Hx.
          rewrite !Nat.min_id, (Nat.min_l i (S i)), (Nat.min_r (S i) i) in Hx by lia. lra.
        + intros k _ H1 H2. rewrite (Z k) by assumption. ring.
        + intros k _ H1 H2. rewrite (Z k) by assumption. ring.
      - intros k _ H1 H2. apply sumto_zero. intros j _. rewrite (Z k) by assumption. ring. }
    intros i j [Hij Hj]. rewrite square_counts_length in Hj. induction Hij as [|j Hij IH]; [lra|].
    apply Rle_trans with (vec_entry (square_counts v n) j); [apply IH; lia|now apply Stp].
  - intros [H0 H1] x Lx. rewrite (proj1 Hsq) in Lx. rewrite (cov_min_form v n m x H Hn Lx).
    destruct (Nat.eq_dec (length v) 0) as [E|E]; [rewrite E; cbn; lra|].
    apply (min_form_nonneg (length v) (fun k => vec_entry (square_counts v n) k) (fun k => vec_entry x k / vec_entry n k)%R).
    + apply H0. lia.
    + intros i Hi. apply H1. rewrite square_counts_length. lia.
Qed.

(** ** C34 with the random-walk model and the counts of the parser *)
Definition walk_counts (K c : R) (ms : list nat) (dt n_o : list R) : Prop :=
  dt = map (fun m => INR m * c)%R ms /\ n_o = map (fun m => K / INR m)%R ms.
Lemma nth_map_nat {T} (f : nat -> T) ms i d : (i < length ms)%nat -> nth i (map f ms) d = f (nth i ms 0%nat).
Proof. intros H. rewrite (nth_indep _ d (f 0%nat)) by (rewrite map_length; exact H). apply map_nth. Qed.
Lemma walk_model_psd (K c a : R) ms dt n_o m : (0 < K)%R -> (0 <= a)%R -> Forall (fun m => 0 < m)%nat ms ->
  (forall i j, (i <= j < length ms)%nat -> (nth i ms 0 <= nth j ms 0)%nat) ->
  walk_counts K c ms dt n_o ->
  populate_covariance_matrix (model_variance n_o dt a) n_o = Ok m -> positive_semidefinite m.
Proof.
  intros HK Ha Hms Hs [-> ->] H.
  set (v := model_variance (map (fun m => K / INR m)%R ms) (map (fun m => INR m * c)%R ms) a) in *.
  assert (Lv : length v = length ms) by (unfold v, model_variance; rewrite zip_with_length, !map_length; lia).
  assert (Hn : Forall (fun x => 0 < x)%R (map (fun m => K / INR m)%R ms)).
  { apply Forall_forall. intros x Hx. apply in_map_iff in Hx as (k & <- & Hk). rewrite Forall_forall in Hms.
    apply Rdiv_lt_0_compat; [exact HK|]. apply lt_0_INR. now apply Hms. }
  assert (E : forall i, (i < length ms)%nat ->
    vec_entry (square_counts v (map (fun m => K / INR m)%R ms)) i = (a * K * (c * c) * INR (nth i ms 0%nat))%R).
  { intros i Hi. rewrite square_counts_nth by lia.
    assert (P : (0 < INR (nth i ms 0%nat))%R) by (apply lt_0_INR; rewrite Forall_forall in Hms; apply Hms, nth_In, Hi).
    unfold vec_entry, v, model_variance. rewrite zip_with_map.
    rewrite !nth_map_nat by exact Hi.
    unfold nsq. numR. field. lra. }
  apply (C34_proof v _ m H Hn). rewrite Lv. assert (0 <= a * K * (c * c))%R.
  { apply Rmult_le_pos; [|nra]. apply Rmult_le_pos; lra. }
  split.
  - intros i Hi. rewrite E by exact Hi. apply Rmult_le_pos; [assumption|apply pos_INR].
  - intros i j Hij. rewrite square_counts_length, Lv in Hij. rewrite !E by lia.
    apply Rmult_le_compat_l; [assumption|]. apply le_INR. now apply Hs.
Qed.
Lemma walk_counts_skipn K c ms dt n_o k : walk_counts K c ms dt n_o ->
  walk_counts K c (skipn k ms) (skipn k dt) (skipn k n_o).
Proof. intros [-> ->]. unfold walk_counts. now rewrite !skipn_map. Qed.
Lemma nth_skipn' {T} k (l : list T) i d : nth i (skipn k l) d = nth (k + i) l d.
Proof. revert l. induction k; intros [|x l]; cbn; try reflexivity; [now destruct i|]. apply IHk. Qed.
Lemma C34_walk_proof {G Seed RS} (X : Ext R G Seed RS) (b : Boot R) (p : GLSParams R RS) dr raw r K c ms :
  (0 < K)%R -> Forall (fun m => 0 < m)%nat ms ->
  (forall i j, (i <= j < length ms)%nat -> (nth i ms 0 <= nth j ms 0)%nat) ->
  walk_counts K c ms (b_dt b) (b_n_o b) ->
  l_model p = true -> (forall x y z a, x_curve_fit X x y z = Ok a -> (0 <= a)%R) ->
  generate_covariance_matrix X b p dr = (Some raw, r) -> positive_semidefinite raw.
Proof.
  intros HK Hms Hs Hw Hm Hc H. unfold generate_covariance_matrix in H. rewrite Hm in H.
  destruct (x_curve_fit X (skipn dr (b_dt b)) (skipn dr (b_v b)) (skipn dr (b_n_o b))) as [a|e] eqn:Ea; cbn [bind] in H; [|discriminate].
  destruct (populate_covariance_matrix _ _) as [m|e] eqn:Em; [|discriminate]. injection H as -> _.
  eapply (walk_model_psd K c a (skipn dr ms)); [exact HK|eapply Hc; exact Ea| | |apply walk_counts_skipn; exact Hw|exact Em].
  - apply Forall_forall. intros x Hx. rewrite Forall_forall in Hms. apply Hms.
    rewrite <- (firstn_skipn dr ms). apply in_or_app. now right.
  - intros i j Hij. rewrite !nth_skipn'. apply Hs. rewrite skipn_length in Hij. lia.
Qed.

(** ** C35 *)
Lemma rsum_sumto l : rsum l = sumto (length l) (fun i => nth i l 0%R).
Proof.
  induction l as [|x l IH]; [reflexivity|]. cbn [length]. rewrite sumto_first, rsum_cons, IH. reflexivity.
Qed.
Lemma nsum_sumto (l : list R) : nsum l = sumto (length l) (fun i => nth i l 0%R).
Proof. rewrite nsum_R. apply rsum_sumto. Qed.
Lemma nth_map_lt {S T} (f : S -> T) (l : list S) i d d' : (i < length l)%nat -> nth i (map f l) d' = f (nth i l d).
Proof. intros H. rewrite (nth_indep _ d' (f d)) by (rewrite map_length; exact H). apply map_nth. Qed.
Lemma vdiagvt_entry (v : list (list R)) (l : list R) n i j : square v n -> length l = n -> (i < n)%nat -> (j < n)%nat ->
  matrix_entry (vdiagvt v l) i j = sumto n (fun k => matrix_entry v i k * vec_entry l k * matrix_entry v j k)%R.
Proof.
  intros [S1 S2] Hl Hi Hj. unfold matrix_entry at 1, vdiagvt.
  rewrite (nth_map_lt _ v i []) by lia. rewrite (nth_map_lt _ v j []) by lia.
  assert (Li : length (nth i v []) = n) by (rewrite Forall_forall in S2; apply S2, nth_In; lia).
  assert (Lj : length (nth j v []) = n) by (rewrite Forall_forall in S2; apply S2, nth_In; lia).
  rewrite nsum_sumto. rewrite map_length, !combine_length, Li, Lj, Hl, !Nat.min_id.
  apply sumto_ext. intros k Hk.
  rewrite (nth_map_lt _ _ k (0, 0, 0)%R) by (rewrite !combine_length; lia).
  rewrite combine_nth by (rewrite combine_length; lia). rewrite combine_nth by lia. cbn [fst snd]. reflexivity.
Qed.
Lemma vdiagvt_square (v : list (list R)) (l : list R) n : square v n -> square (vdiagvt v l) n.
Proof.
  intros [S1 S2]. unfold vdiagvt. split; [now rewrite map_length|]. apply Forall_forall. intros r Hr.
  apply in_map_iff in Hr as (ri & <- & _). now rewrite map_length.
Qed.
Lemma vdvt_quadratic m v l x : is_vdvt m v l -> length x = length v ->
  quadratic m x = sumto (length v) (fun k => vec_entry l k *
     (sumto (length v) (fun i => matrix_entry v i k * vec_entry x i) * sumto (length v) (fun i => matrix_entry v i k * vec_entry x i)))%R.
Proof.
  intros [_ H] Hx. unfold quadratic, bilinear. rewrite Hx. set (n := length v) in *.
  rewrite (sumto_ext n _ (fun i => sumto n (fun j => sumto n (fun k => vec_entry l k * ((matrix_entry v i k * vec_entry x i) * (matrix_entry v j k * vec_entry x j))))))%R.
  2:{ intros i Hi. apply sumto_ext. intros j Hj. rewrite H by assumption. rewrite <- sumto_scale, <- sumto_scale_r.
      apply sumto_ext. intros k _. ring. }
  rewrite (sumto_ext n _ (fun i => sumto n (fun k => sumto n (fun j => vec_entry l k * ((matrix_entry v i k * vec_entry x i) * (matrix_entry v j k * vec_entry x j))))))%R
    by (intros; apply sumto_swap).
  rewrite sumto_swap. apply sumto_ext. intros k _. rewrite sumto_mult, <- sumto_scale.
  apply sumto_ext. intros i _. rewrite <- sumto_scale. reflexivity.
Qed.
Lemma orthogonal_norm v x : orthogonal v -> length x = length v ->
  sumto (length v) (fun k =>
     (sumto (length v) (fun i => matrix_entry v i k * vec_entry x i) * sumto (length v) (fun i => matrix_entry v i k * vec_entry x i)))%R
  = norm2 x.
Proof.
  intros H Hx. unfold norm2. rewrite Hx. set (n := length v) in *.
  rewrite (sumto_ext n _ (fun k => sumto n (fun i => sumto n (fun j => (matrix_entry v i k * vec_entry x i) * (matrix_entry v j k * vec_entry x j)))))%R
    by (intros; apply sumto_mult).
  rewrite sumto_swap. apply sumto_ext. intros i Hi.
  rewrite sumto_swap.
  rewrite (sumto_ext n _ (fun j => (if Nat.eqb i j then 1 else 0) * (vec_entry x i * vec_entry x j)))%R.
  2:{ intros j Hj. rewrite <- (H i j Hi Hj). rewrite <- sumto_scale_r. apply sumto_ext. intros k _. ring. }
  rewrite (sumto_one n i) by (try exact Hi; intros j _ Hj; apply not_eq_sym, Nat.eqb_neq in Hj; rewrite Hj; ring).
  rewrite Nat.eqb_refl. ring.
Qed.
Lemma C35_proof {G Seed RS} (X : Ext R G Seed RS) m c v l e0 top :
  x_eig X m = Ok (l, v) -> eigendecomposition m v l -> (1 <= c)%R ->
  nth_error l 0 = Some e0 -> (0 < e0)%R -> (forall x, In x l -> x <= top)%R ->
  exists r, minimum_eigenvalue_method X m c = Ok r /\ square r (length m)
    /\ condition_at_most r (c * (top / e0))%R.
Proof.
  intros He (D1 & D2 & D3 & D4) Hc H0 Hp Ht. unfold minimum_eigenvalue_method, recondition_eigenvalues. rewrite He. cbn [bind].
  change 0%Z with (Z.of_nat 0). rewrite py_index_nat, H0. cbn [opt_res bind].
  eexists. split; [reflexivity|].
  set (l' := map _ l). set (t := ndiv e0 c) in *.
  assert (Lv : length v = length m) by exact (proj1 D1).
  assert (Sq := vdiagvt_square v l' (length m) D1). split; [exact Sq|].
  assert (Ll' : length l' = length m) by (unfold l'; now rewrite map_length).
  assert (Htop : (e0 <= top)%R) by (apply Ht; eapply nth_error_In; eauto).
  assert (Pt : (0 < t)%R) by (unfold t; numR; apply Rdiv_lt_0_compat; lra).
  assert (Tle : (t <= e0)%R).
  { unfold t. numR. apply (Rmult_le_reg_r c); [lra|]. unfold Rdiv. rewrite Rmult_assoc, Rinv_l by lra. nra. }
  assert (B : forall k, (k < length m)%nat -> (t <= vec_entry l' k <= top)%R).
  { intros k Hk. unfold vec_entry, l'. rewrite (nth_map_lt _ l k 0%R) by lia. numR.
    destruct (Rltb (nth k l 0%R) t) eqn:E; [apply Rltb_true in E|apply Rltb_false in E]; [lra|].
    split; [lra|]. apply Ht, nth_In. lia. }
  exists t, top. split; [exact Pt|]. split.
  { unfold t. numR. right. field. lra. }
  intros x Hx. rewrite (proj1 Sq) in Hx.
  assert (V : is_vdvt (vdiagvt v l') v l').
  { split; [now rewrite Lv|]. intros i j Hi Hj. rewrite Lv in *. now apply vdiagvt_entry. }
  rewrite (vdvt_quadratic _ v l' x V) by lia. rewrite <- (orthogonal_norm v x D3) by lia. rewrite Lv.
  rewrite <- !sumto_scale. split; apply sumto_le; intros k Hk; destruct (B k Hk);
    apply Rmult_le_compat_r; try assumption; nra.
Qed.
Definition eig_ext (f : list (list R) -> Res (list R * list (list R))) : Ext R unit unit unit :=
  mkExt sqrt (fun g _ _ => ([], g)) (fun _ => 0%R) (fun _ => (0%R, 0%R)) (fun _ => tt) (fun _ => tt) (fun _ _ _ => Ok 0%R)
    f (fun m => Ok m) (fun _ => Ok 0%R) 0%R (fun m => Ok m) (fun _ _ => Ok 0%R) (fun _ x => Ok x)
    (fun g _ _ => ([], g)) (fun _ => true) (fun g _ => ([], g)) (fun g _ _ _ => ([], g)).
Definition diag14 : list (list R) := [[1;0];[0;4]]%R.
Definition id2 : list (list R) := [[1;0];[0;1]]%R.
Lemma diag14_eigen : eigendecomposition diag14 id2 [1;4]%R.
Proof.
  split; [repeat constructor|]. split; [reflexivity|]. split.
  - intros i j Hi Hj. cbn in Hi, Hj. destruct i as [|[|]], j as [|[|]]; try lia; cbn; ring.
  - split; [repeat constructor|]. intros i j Hi Hj. cbn in Hi, Hj. destruct i as [|[|]], j as [|[|]]; try lia; cbn; ring.
Qed.
Lemma C35_refuted_proof : exists (X : Ext R unit unit unit) m v l c r,
  symmetric m /\ x_eig X m = Ok (l, v) /\ eigendecomposition m v l /\ (1 <= c)%R
  /\ minimum_eigenvalue_method X m c = Ok r /\ ~ condition_at_most r c.
Proof.
  exists (eig_ext (fun _ => Ok ([1;4]%R, id2))), diag14, id2, [1;4]%R, 2%R, diag14.
  split. { intros i j Hi Hj. cbn in Hi, Hj. destruct i as [|[|]], j as [|[|]]; try lia; reflexivity. }
  split; [reflexivity|]. split; [exact diag14_eigen|]. split; [lra|]. split.
  - unfold minimum_eigenvalue_method, recondition_eigenvalues. cbn [eig_ext x_eig bind].
    change (py_index [1;4]%R 0) with (py_index [1;4]%R (Z.of_nat 0)). rewrite py_index_nat. cbn [nth_error opt_res bind map].
    numR. assert (Rltb 1 (1 / 2) = false) as -> by (apply Rltb_false; lra).
    assert (Rltb 4 (1 / 2) = false) as -> by (apply Rltb_false; lra).
    f_equal. unfold vdiagvt, id2, diag14. cbn [map combine fst snd]. rewrite !nsum_R. unfold rsum. cbn. numR.
    repeat f_equal; ring.
  - intros (lo & hi & H1 & H2 & H3). assert (A1 := H3 [1;0]%R eq_refl). assert (A2 := H3 [0;1]%R eq_refl).
    unfold norm2, quadratic, bilinear, vec_entry, matrix_entry in A1, A2. cbn in A1, A2. lra.
Qed.

(** ** C54 *)
Lemma bilinear_add_l w a b y : length a = length b ->
  bilinear w (zip_with Rplus a b) y = (bilinear w a y + bilinear w b y)%R.
Proof.
  intros H. unfold bilinear. rewrite zip_with_length, <- H, Nat.min_id. rewrite <- sumto_plus.
  apply sumto_ext. intros i Hi. rewrite <- sumto_plus. apply sumto_ext. intros j _.
  assert (E : vec_entry (zip_with Rplus a b) i = (vec_entry a i + vec_entry b i)%R).
  { unfold vec_entry, zip_with. rewrite (nth_map_lt _ _ i (0,0)%R) by (rewrite combine_length; lia).
    rewrite combine_nth by exact H. reflexivity. }
  rewrite E. ring.
Qed.
Lemma bilinear_sym w n x y : square w n -> symmetric w -> length x = n -> length y = n -> bilinear w x y = bilinear w y x.
Proof.
  intros [S1 _] Hs Hx Hy. unfold bilinear. rewrite Hx, Hy. rewrite sumto_swap. apply sumto_ext. intros i Hi.
  apply sumto_ext. intros j Hj. rewrite (Hs j i) by lia. ring.
Qed.
Lemma bilinear_scale_l w c x y : bilinear w (map (Rmult c) x) y = (c * bilinear w x y)%R.
Proof.
  unfold bilinear. rewrite map_length, <- sumto_scale. apply sumto_ext. intros i Hi. rewrite <- sumto_scale.
  apply sumto_ext. intros j _. unfold vec_entry. rewrite (nth_map_lt _ x i 0%R) by exact Hi. ring.
Qed.
Lemma quadratic_add w n a b : square w n -> symmetric w -> length a = n -> length b = n ->
  quadratic w (zip_with Rplus a b) = (quadratic w a + 2 * bilinear w a b + quadratic w b)%R.
Proof.
  intros Hw Hs Ha Hb. unfold quadratic. rewrite bilinear_add_l by lia.
  assert (L : length (zip_with Rplus a b) = n) by (rewrite zip_with_length; lia).
  rewrite !(bilinear_sym w n _ (zip_with Rplus a b)) by assumption.
  rewrite !bilinear_add_l by lia. rewrite (bilinear_sym w n b a) by assumption. ring.
Qed.
Lemma dot_quadratic w x : square w (length x) -> dot x (mat_vec_mul w x) = quadratic w x.
Proof.
  intros [S1 S2]. unfold dot, mat_vec_mul, quadratic, bilinear. rewrite nsum_sumto, zip_with_length, map_length, S1, Nat.min_id.
  apply sumto_ext. intros i Hi. unfold zip_with at 1.
  rewrite (nth_map_lt _ _ i (0, 0)%R) by (rewrite combine_length, map_length; lia).
  rewrite combine_nth by (now rewrite map_length). cbn [fst snd].
  rewrite (nth_map_lt _ w i []) by lia. rewrite nsum_sumto.
  assert (Li : length (nth i w []) = length x) by (rewrite Forall_forall in S2; apply S2, nth_In; lia).
  rewrite zip_with_length, Li, Nat.min_id. numR. rewrite <- sumto_scale. apply sumto_ext. intros j Hj.
  unfold zip_with. rewrite (nth_map_lt _ _ j (0, 0)%R) by (rewrite combine_length; lia).
  rewrite combine_nth by exact Li. cbn [fst snd]. unfold vec_entry, matrix_entry. numR. ring.
Qed.
Lemma residuals_length dt n g c : length dt = length n -> length (residuals dt n g c) = length n.
Proof. intros H. unfold residuals. rewrite map_length, combine_length. lia. Qed.
Lemma model_residuals dt n g c : zip_with (@nsub R _) (map (fun x => nadd (nmul g x) c) dt) n = residuals dt n g c.
Proof.
  unfold zip_with, residuals. revert n. induction dt as [|x dt IH]; intros [|y n]; cbn; try reflexivity.
  rewrite IH. reflexivity.
Qed.
Lemma nhalf_val : @nhalf R _ = (1/2)%R.
Proof. unfold nhalf. numR. reflexivity. Qed.
Lemma ll_two dt n (ld : R) w g c : length dt = length n -> square w (length n) -> (0 <= g)%R ->
  log_likelihood dt n ld w [g; c] = Ok (Some (- (1/2) * (ld + quadratic w (residuals dt n g c)))%R).
Proof.
  intros HL Hw Hg. unfold log_likelihood.
  change (py_index [g; c] 0) with (py_index [g; c] (Z.of_nat 0)). rewrite py_index_nat. cbn [nth_error opt_res bind straight_line].
  rewrite model_residuals. rewrite dot_quadratic by (now rewrite residuals_length).
  rewrite nhalf_val. numR. assert (Rltb g 0 = false) as -> by (apply Rltb_false; lra). reflexivity.
Qed.
Lemma ll_one dt n (ld : R) w g : length dt = length n -> square w (length n) -> (0 <= g)%R ->
  log_likelihood dt n ld w [g] = Ok (Some (- (1/2) * (ld + quadratic w (residuals dt n g 0)))%R).
Proof.
  intros HL Hw Hg. unfold log_likelihood.
  change (py_index [g] 0) with (py_index [g] (Z.of_nat 0)). rewrite py_index_nat. cbn [nth_error opt_res bind straight_line].
  rewrite model_residuals. rewrite dot_quadratic by (now rewrite residuals_length).
  rewrite nhalf_val. numR. assert (Rltb g 0 = false) as -> by (apply Rltb_false; lra). reflexivity.
Qed.
Lemma ll_negative dt n (ld : R) w g rest : (g < 0)%R -> log_likelihood dt n ld w (g :: rest) = Ok None.
Proof.
  intros Hg. unfold log_likelihood.
  change (py_index (g :: rest) 0) with (py_index (g :: rest) (Z.of_nat 0)). rewrite py_index_nat. cbn [nth_error opt_res bind].
  numR. now assert (Rltb g 0 = true) as -> by (apply Rltb_true; lra).
Qed.
Lemma residuals_shift dt n g c g' c' : length dt = length n ->
  residuals dt n g' c' = zip_with Rplus (residuals dt n g c)
     (zip_with Rplus (map (Rmult (g' - g)) dt) (map (Rmult (c' - c)) (ones (length dt)))).
Proof.
  unfold residuals, zip_with, ones. revert n. induction dt as [|x dt IH]; intros [|y n] H; cbn in *; try discriminate; [reflexivity|].
  f_equal; [ring|]. apply IH. lia.
Qed.
Lemma gls_completes w dt n g c g' c' : length dt = length n -> square w (length n) -> symmetric w ->
  gls_solution w dt n g c ->
  quadratic w (residuals dt n g' c') = (quadratic w (residuals dt n g c)
    + quadratic w (zip_with Rplus (map (Rmult (g' - g)) dt) (map (Rmult (c' - c)) (ones (length dt)))))%R.
Proof.
  intros HL Hw Hs [H1 H2]. rewrite (residuals_shift dt n g c g' c' HL).
  assert (Lr := residuals_length dt n g c HL).
  set (del := zip_with Rplus (map (Rmult (g' - g)) dt) (map (Rmult (c' - c)) (ones (length dt)))).
  assert (Ld : length del = length n).
  { unfold del, ones. rewrite zip_with_length, !map_length, repeat_length. lia. }
  rewrite (quadratic_add w (length n)) by assumption.
  assert (Z : bilinear w (residuals dt n g c) del = 0%R).
  { rewrite (bilinear_sym w (length n)) by assumption. unfold del.
    rewrite bilinear_add_l by (unfold ones; rewrite !map_length, repeat_length; reflexivity).
    rewrite !bilinear_scale_l, H1, H2. ring. }
  rewrite Z. ring.
Qed.
Lemma C54_max_proof dt n (ld : R) w g c g' c' l l' : length dt = length n -> square w (length n) -> symmetric w ->
  positive_semidefinite w -> (0 <= g)%R -> (0 <= g')%R -> gls_solution w dt n g c ->
  log_likelihood dt n ld w [g; c] = Ok (Some l) -> log_likelihood dt n ld w [g'; c'] = Ok (Some l') -> (l' <= l)%R.
Proof.
  intros HL Hw Hs Hp Hg Hg' HS E E'. rewrite ll_two in E, E' by assumption. injection E as <-. injection E' as <-.
  rewrite (gls_completes w dt n g c g' c') by assumption.
  assert (0 <= quadratic w (zip_with Rplus (map (Rmult (g' - g)) dt) (map (Rmult (c' - c)) (ones (length dt)))))%R.
  { apply Hp. unfold ones. rewrite zip_with_length, !map_length, repeat_length, (proj1 Hw). lia. }
  lra.
Qed.
Lemma C54_unique_proof dt n (ld : R) w g c g' c' l : length dt = length n -> square w (length n) -> symmetric w ->
  positive_definite w -> (exists s t, In s dt /\ In t dt /\ s <> t) ->
  (0 <= g)%R -> (0 <= g')%R -> gls_solution w dt n g c ->
  log_likelihood dt n ld w [g; c] = Ok (Some l) -> log_likelihood dt n ld w [g'; c'] = Ok (Some l) -> g' = g /\ c' = c.
Proof.
  intros HL Hw Hs Hp (s & t & Is & It & Hst) Hg Hg' HS E E'. rewrite ll_two in E, E' by assumption. injection E as <-. injection E' as E'.
  rewrite (gls_completes w dt n g c g' c') in E' by assumption.
  set (del := zip_with Rplus (map (Rmult (g' - g)) dt) (map (Rmult (c' - c)) (ones (length dt)))) in *.
  assert (Ld : length del = length dt).
  { unfold del, ones. rewrite zip_with_length, !map_length, repeat_length. lia. }
  assert (De : forall i, (i < length dt)%nat -> vec_entry del i = ((g' - g) * vec_entry dt i + (c' - c))%R).
  { intros i Hi. unfold vec_entry, del, zip_with, ones.
    rewrite (nth_map_lt _ _ i (0,0)%R) by (rewrite combine_length, !map_length, repeat_length; lia).
    rewrite combine_nth by (now rewrite !map_length, repeat_length). cbn [fst snd].
    rewrite (nth_map_lt _ dt i 0%R) by exact Hi. rewrite (nth_map_lt _ (repeat 1%R _) i 1%R) by (now rewrite repeat_length).
    rewrite nth_repeat. ring. }
  assert (Zd : forall i, (i < length dt)%nat -> vec_entry del i = 0%R).
  { intros i Hi. destruct (Req_dec (vec_entry del i) 0) as [Z|Z]; [exact Z|]. exfalso.
    assert (0 < quadratic w del)%R by (apply Hp; [rewrite (proj1 Hw); lia|exists i; split; [lia|exact Z]]). lra. }
  apply (In_nth _ _ 0%R) in Is as (i & Hi & <-). apply (In_nth _ _ 0%R) in It as (j & Hj & <-).
  assert (A1 := Zd i Hi). assert (A2 := Zd j Hj). rewrite De in A1, A2 by assumption. unfold vec_entry in A1, A2.
  assert (G : ((g' - g) * (nth i dt 0 - nth j dt 0) = 0)%R) by lra.
  apply Rmult_integral in G as [G|G]; [|lra]. rewrite G in A1. lra.
Qed.
Lemma residuals_shift1 dt n g g' : length dt = length n ->
  residuals dt n g' 0 = zip_with Rplus (residuals dt n g 0) (map (Rmult (g' - g)) dt).
Proof.
  unfold residuals, zip_with. revert n. induction dt as [|x dt IH]; intros [|y n] H; cbn in *; try discriminate; [reflexivity|].
  f_equal; [ring|]. apply IH. lia.
Qed.
Lemma C54_max1_proof dt n (ld : R) w g g' l l' : length dt = length n -> square w (length n) -> symmetric w ->
  positive_semidefinite w -> (0 <= g)%R -> (0 <= g')%R -> gls_solution_no_intercept w dt n g ->
  log_likelihood dt n ld w [g] = Ok (Some l) -> log_likelihood dt n ld w [g'] = Ok (Some l') -> (l' <= l)%R.
Proof.
  intros HL Hw Hs Hp Hg Hg' HS E E'. rewrite ll_one in E, E' by assumption. injection E as <-. injection E' as <-.
  rewrite (residuals_shift1 dt n g g' HL). assert (Lr := residuals_length dt n g 0 HL).
  rewrite (quadratic_add w (length n)) by (try assumption; rewrite map_length; lia).
  rewrite (bilinear_sym w (length n)) by (try assumption; rewrite map_length; lia). rewrite bilinear_scale_l. unfold gls_solution_no_intercept in HS. rewrite HS.
  assert (0 <= quadratic w (map (Rmult (g' - g)) dt))%R by (apply Hp; rewrite map_length, (proj1 Hw); lia).
  lra.
Qed.
Lemma C54_density_proof dt n (det : R) w g c ld : length dt = length n -> square w (length n) -> (0 <= g)%R -> (0 < det)%R ->
  ld = (ln det + ln (2 * PI) * INR (length n))%R ->
  exists l, log_likelihood dt n ld w [g; c] = Ok (Some l) /\ exp l = normal_density det w (residuals dt n g c).
Proof.
  intros HL Hw Hg Hd ->. rewrite ll_two by assumption. eexists. split; [reflexivity|].
  unfold normal_density. rewrite residuals_length by exact HL.
  assert (P2 : (0 < 2 * PI)%R) by (pose proof PI_RGT_0; lra).
  assert (Pp : (0 < (2 * PI) ^ length n)%R) by (now apply pow_lt).
  assert (Pq : (0 < (2 * PI) ^ length n * det)%R) by (now apply Rmult_lt_0_compat).
  replace (- (1/2) * (ln det + ln (2 * PI) * INR (length n) + quadratic w (residuals dt n g c)))%R
    with (- (1/2) * quadratic w (residuals dt n g c) + - (/ 2 * ln ((2 * PI) ^ length n * det)))%R.
  2:{ rewrite ln_mult by assumption. rewrite ln_pow by exact P2. field. }
  rewrite exp_plus, exp_Ropp. unfold Rdiv. f_equal. f_equal.
  rewrite <- Rpower_sqrt by exact Pq. reflexivity.
Qed.
