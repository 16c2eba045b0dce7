(** * ProofsCovRound: the covariance matrix and the numbers of independent observations in double precision (C111) *)
From Verif Require Import Base ModelParser ModelDiffusion Spec SpecStats SpecFit SpecDouble SpecUnwrap SpecRun SpecRound SpecClock SpecCovRound
  Lemmas ProofsDisp ProofsParser ProofsTraj ProofsFloat ProofsUnwrap ProofsBoot ProofsStats ProofsCov ProofsFit2 ProofsCollective ProofsRound ProofsClock ProofsCoeff.
From Coq Require Import Reals Lra Lia Psatz.
From Coq.Floats Require Import SpecFloat.
From Flocq Require Import Core BinarySingleNaN.
Open Scope nat_scope.

#[local] Instance prec_pos : Prec_gt_0 fprec := eq_refl.
#[local] Instance prec_emax : Prec_lt_emax fprec femax := eq_refl.

Section Any.
  Context {A : Type} {NA : Num A} (v n : list A).
  Definition entry_of (i j : nat) : A := nmul (ndiv (nth i n n0) (nth j n n0)) (nth i v n0).
  Lemma any_entry_spec i m j a b : fill_entry v n i m j a b =
    if (a =? i) && (b =? j) || (b =? i) && (a =? j) then entry_of i j else m a b.
  Proof.
    unfold fill_entry, mat_set, entry_of. rewrite !Nat.eqb_refl. cbn [andb].
    destruct (Nat.eqb_spec a j), (Nat.eqb_spec b i), (Nat.eqb_spec a i), (Nat.eqb_spec b j); cbn; try reflexivity.
  Qed.
  Lemma any_entries_spec i js m a b : fold_left (fill_entry v n i) js m a b =
    if (a =? i) && memb b js then entry_of i b
    else if (b =? i) && memb a js then entry_of i a else m a b.
  Proof.
    revert m. induction js as [|j js IH]; intros m; cbn [fold_left].
    - cbn. rewrite !andb_false_r. reflexivity.
    - rewrite IH, any_entry_spec. unfold memb. cbn [existsb]. fold (memb b js). fold (memb a js).
      destruct (memb a js) eqn:Ea, (memb b js) eqn:Eb;
        destruct (Nat.eqb_spec a i), (Nat.eqb_spec b j), (Nat.eqb_spec b i), (Nat.eqb_spec a j); subst; cbn; congruence.
  Qed.
  Lemma any_rows_spec k a b : k <= length v -> a < length v -> b < length v ->
    fold_left (fill_row v n) (seq 0 k) (fun _ _ => n0) a b =
    if Nat.min a b <? k then entry_of (Nat.min a b) (Nat.max a b) else n0.
  Proof.
    intros Hk Ha Hb. induction k as [|k IH]; [reflexivity|].
    rewrite seq_S, fold_left_app. cbn [fold_left Nat.add]. unfold fill_row at 1. rewrite any_entries_spec.
    rewrite IH by lia.
    assert (M : forall x, memb x (seq k (length v - k)) = (k <=? x) && (x <? length v)).
    { intros x. destruct (memb x _) eqn:E.
      - apply memb_In, in_seq in E. symmetry. apply andb_true_intro. rewrite Nat.leb_le, Nat.ltb_lt. lia.
      - symmetry. apply not_true_iff_false. intros H. apply andb_prop in H as [H1 H2].
        apply Nat.leb_le in H1. apply Nat.ltb_lt in H2.
        assert (memb x (seq k (length v - k)) = true) by (apply memb_In, in_seq; lia). congruence. }
    rewrite !M.
    destruct (Nat.eqb_spec a k), (Nat.leb_spec k b), (Nat.ltb_spec b (length v)), (Nat.eqb_spec b k), (Nat.leb_spec k a),
      (Nat.ltb_spec a (length v)), (Nat.ltb_spec (Nat.min a b) k), (Nat.ltb_spec (Nat.min a b) (S k)); cbn; try lia; subst;
      try reflexivity; try (f_equal; lia).
  Qed.
  Lemma populate_any m : populate_covariance_matrix v n = Ok m -> length v <= length n /\
    m = map (fun i => map (fun j => entry_of (Nat.min i j) (Nat.max i j)) (seq 0 (length v))) (seq 0 (length v)).
  Proof.
    unfold populate_covariance_matrix. destruct (Nat.leb_spec (length v) (length n)) as [H|H]; cbn; [|discriminate]. intros [= <-]. split; [exact H|].
    unfold mat_of. apply map_ext_in. intros i Hi. apply map_ext_in. intros j Hj. apply in_seq in Hi, Hj. unfold fill. rewrite any_rows_spec by lia.
    assert (Nat.min i j <? length v = true) as -> by (apply Nat.ltb_lt; lia). reflexivity.
  Qed.
  Lemma populate_any_ok : length v <= length n -> exists m, populate_covariance_matrix v n = Ok m.
  Proof. intros H. unfold populate_covariance_matrix. apply Nat.leb_le in H. rewrite H. cbn. eexists. reflexivity. Qed.
End Any.
Lemma nth_error_tab {T} (f : nat -> T) k i : i < k -> nth_error (map f (seq 0 k)) i = Some (f i).
Proof.
  intros H. rewrite nth_error_map. assert (E : nth_error (seq 0 k) i = Some i); [|now rewrite E].
  rewrite (nth_error_nth' _ 0) by (rewrite seq_length; exact H). now rewrite seq_nth.
Qed.
Lemma cell_tab {T} (f : nat -> nat -> T) k i j x : cell (map (fun i => map (f i) (seq 0 k)) (seq 0 k)) i j x -> i < k /\ j < k /\ x = f i j.
Proof.
  intros (row & H1 & H2). assert (Hi : i < k). { assert (i < length (map (fun i => map (f i) (seq 0 k)) (seq 0 k))) by (apply nth_error_Some; congruence). now rewrite map_length, seq_length in H. }
  rewrite nth_error_tab in H1 by exact Hi. injection H1 as <-. assert (Hj : j < k). { assert (j < length (map (f i) (seq 0 k))) by (apply nth_error_Some; congruence). now rewrite map_length, seq_length in H. }
  rewrite nth_error_tab in H2 by exact Hj. injection H2 as <-. auto.
Qed.
Lemma tab_cell {T} (f : nat -> nat -> T) k i j : i < k -> j < k -> cell (map (fun i => map (f i) (seq 0 k)) (seq 0 k)) i j (f i j).
Proof. intros Hi Hj. eexists. split; [now apply nth_error_tab|now apply nth_error_tab]. Qed.

(** Exactly symmetric, whatever the doubles. *)
Lemma C111_symmetric_proof (v n : list spec_float) m i j x : populate_covariance_matrix v n = Ok m -> cell m i j x -> cell m j i x.
Proof.
  intros H C. apply populate_any in H as [_ ->]. apply cell_tab in C as (Hi & Hj & ->). rewrite Nat.min_comm, Nat.max_comm.
  exact (tab_cell (fun i j => entry_of v n (Nat.min i j) (Nat.max i j)) _ _ _ Hj Hi).
Qed.
Lemma everyday_finite x : everyday x -> finite_double x /\ (0 < value x)%R.
Proof. intros [F [B _]]. split; [exact F|]. rewrite <- bpow_R in B. eapply Rlt_le_trans; [apply bpow_gt_0|exact B]. Qed.
Lemma nth_everyday n i : Forall everyday n -> i < length n -> everyday (nth i n n0).
Proof. intros F H. rewrite Forall_forall in F. apply F, nth_In, H. Qed.
Lemma one_rep : rep 1.
Proof. rewrite <- one_bpow. apply rep_bpow. lia. Qed.
(** The variances are copied to the diagonal. *)
Lemma self_ratio x : finite_double x -> value x <> 0%R -> finite_double (SFdiv fprec femax x x) /\ value (SFdiv fprec femax x x) = 1%R.
Proof.
  intros F N. assert (R := div_rounds x x F F N). replace (value x / value x)%R with 1%R in R by (field; exact N).
  destruct (bounded_finite _ _ R) as [F1 E1]; [rewrite Rabs_R1, <- one_bpow; apply bpow_le; lia|]. split; [exact F1|]. rewrite E1. apply rnd_rep, one_rep.
Qed.
Lemma value_rep x : finite_double x -> rep (value x).
Proof.
  intros F. destruct (of_double x (proj1 F)) as [a ->]. rewrite value_B. apply generic_format_B2R.
Qed.
Lemma C111_diagonal_proof (v n : list spec_float) m i x y : populate_covariance_matrix v n = Ok m -> Forall everyday n ->
  cell m i i x -> nth_error v i = Some y -> bounded_sample y -> finite_double x /\ value x = value y.
Proof.
  intros H Fn C Hy [Fy By]. apply populate_any in H as [HL ->]. apply cell_tab in C as (Hi & _ & ->). rewrite Nat.min_id, Nat.max_id. unfold entry_of.
  rewrite (nth_error_nth _ _ n0 Hy). destruct (everyday_finite _ (nth_everyday n i Fn ltac:(lia))) as [F1 P1]. destruct (self_ratio _ F1 ltac:(lra)) as [F2 E2].
  assert (R := mul_rounds _ _ F2 Fy). rewrite E2, Rmult_1_l in R. destruct (bounded_finite _ _ R) as [F3 E3]; [rewrite bpow_R; exact By|]. split; [exact F3|].
  cbn [nmul ndiv NumSF]. rewrite E3. apply rnd_rep, value_rep, Fy.
Qed.
(** Every entry, to two roundings. *)
Lemma variance_nonneg x : variance_double x -> (0 <= value x)%R.
Proof. intros [_ [->|[B _]]]; [lra|]. rewrite <- bpow_R in B. pose proof (bpow_gt_0 radix2 (-300)). lra. Qed.
Lemma entry_accurate a b y : everyday a -> everyday b -> variance_double y ->
  accurate 2 (SFmul fprec femax (SFdiv fprec femax a b) y) (value a / value b * value y).
Proof.
  intros Ha Hb [Fy Vy]. assert (T := tracked_div _ _ _ _ _ _ _ _ _ _ (tracked_everyday _ Ha) (tracked_everyday _ Hb) ltac:(lia) ltac:(lia) ltac:(lia) ltac:(lia)).
  cbn [Nat.mul Nat.add] in T. change (-90 - 90)%Z with (-180)%Z in T. change (90 - -90)%Z with 180%Z in T. destruct Vy as [V0|By].
  - destruct T as [F _]. assert (R := mul_rounds _ _ F Fy). rewrite V0, Rmult_0_r in R. destruct (bounded_finite _ _ R) as [F1 E1]; [rewrite Rabs_R0; apply bpow_ge_0|].
    split; [exact F1|]. rewrite E1, rnd_0, V0, Rmult_0_r. rewrite Rminus_0_r, Rabs_R0. lra.
  - rewrite <- !bpow_R in By. assert (P : (0 < value y)%R) by (eapply Rlt_le_trans; [apply bpow_gt_0|exact (proj1 By)]).
    assert (Ty : tracked 0 (-300) 300 y (value y)) by (split; [exact Fy|]; split; [now apply near_exact|]; now split).
    destruct (tracked_mul _ _ _ _ _ _ _ _ _ _ T Ty ltac:(lia) ltac:(lia) ltac:(lia) ltac:(lia)) as (F & N & Q & _).
    replace 2%R with (INR 2) by (cbn; lra). apply near_accurate; [lia|lra|exact F|exact N].
Qed.
Lemma Forall2_tab {S T} (Q : S -> T -> Prop) f g k : (forall i, i < k -> Q (f i) (g i)) -> Forall2 Q (map f (seq 0 k)) (map g (seq 0 k)).
Proof.
  intros H. assert (K : forall l, (forall i, In i l -> i < k) -> Forall2 Q (map f l) (map g l)).
  { induction l as [|i l IH]; intros Hl; cbn; constructor; [apply H, Hl; now left|apply IH; intros; apply Hl; now right]. }
  apply K. intros i Hi. apply in_seq in Hi. lia.
Qed.
Lemma entries_populated (v n : list spec_float) m : populate_covariance_matrix v n = Ok m -> Forall everyday n -> Forall variance_double v ->
  exists r, populate_covariance_matrix (map value v) (map value n) = Ok r /\ matrix_accurate 2 m r.
Proof.
  intros H Fn Fv. apply populate_any in H as [HL ->]. destruct (populate_any_ok (map value v) (map value n)) as [r Hr]; [now rewrite !map_length|].
  exists r. split; [exact Hr|]. apply populate_any in Hr as [_ ->]. rewrite !map_length. apply Forall2_tab. intros i Hi. apply Forall2_tab. intros j Hj. unfold entry_of.
  set (a := Nat.min i j). set (b := Nat.max i j). assert (a < length v) by (unfold a; lia). assert (b < length v) by (unfold b; lia).
  assert (E : forall (l : list spec_float) k, nth k (map value l) n0 = value (nth k l n0)) by (intros; exact (map_nth value l n0 k)).
  rewrite !E. cbn [nmul ndiv NumSF NumR]. apply entry_accurate; [apply nth_everyday; [assumption|lia]..|].
  rewrite Forall_forall in Fv. apply Fv, nth_In. lia.
Qed.

(** Semidefinite up to rounding. *)
Lemma sumto_cauchy k (f g : nat -> R) : (sumto k (fun i => f i * g i) * sumto k (fun i => f i * g i) <= sumto k (fun i => f i * f i) * sumto k (fun i => g i * g i))%R.
Proof.
  induction k as [|k IH]; cbn [sumto]; [lra|].
  assert (N : forall h : nat -> R, (0 <= sumto k (fun i => h i * h i))%R) by (intros; apply sumto_nonneg; intros; nra).
  pose proof (cs_step (f k) (g k) _ _ _ IH (N f) (N g)) as C. rewrite !(Rplus_comm (sumto k _)). exact C.
Qed.
Lemma entry_below v n m i j : populate_covariance_matrix v n = Ok m -> Forall (fun c => 0 < c)%R n -> positive_semidefinite m ->
  i < length v -> j < length v -> (0 <= matrix_entry m i j <= sqrt (vec_entry v i) * sqrt (vec_entry v j))%R.
Proof.
  intros H Fn PSD. assert (K : forall i j, i <= j < length v -> (0 <= matrix_entry m i j <= sqrt (vec_entry v i) * sqrt (vec_entry v j))%R).
  { clear i j. intros i j Hij. apply (C34_iff_proof _ _ _ H Fn) in PSD as [P1 P2]. destruct (C33_proof _ _ _ H) as (_ & _ & S & _). apply populate_inv in H as [HL _].
    assert (N : forall k, k < length v -> (0 < vec_entry n k)%R) by (intros k Hk; rewrite Forall_forall in Fn; apply Fn, nth_In; lia).
    assert (Ni := N i ltac:(lia)). assert (Nj := N j ltac:(lia)). rewrite S by (try lia; lra). specialize (P2 i j Hij).
    assert (Vi : (0 <= vec_entry v i)%R). { specialize (P1 i ltac:(lia)). assert (0 < vec_entry n i * vec_entry n i)%R by nra. nra. }
    assert (Vj : (0 <= vec_entry v j)%R). { specialize (P1 j ltac:(lia)). assert (0 < vec_entry n j * vec_entry n j)%R by nra. nra. }
    revert Ni Nj Vi Vj P2. generalize (vec_entry v i) (vec_entry v j) (vec_entry n i) (vec_entry n j). intros a b p q Hp Hq Ha Hb L.
    split; [apply Rmult_le_pos; [nra|apply Rlt_le, Rinv_0_lt_compat, Hq]|].
    apply (Rmult_le_reg_r q); [exact Hq|]. unfold Rdiv. rewrite Rmult_assoc, Rinv_l, Rmult_1_r by lra.
    assert (Ea := sqrt_sqrt a Ha). assert (Eb := sqrt_sqrt b Hb). assert (Sa := sqrt_pos a). assert (Sb := sqrt_pos b).
    revert Ea Eb Sa Sb. generalize (sqrt a) (sqrt b). intros s t Ea Eb Sa Sb. subst a b.
    assert (s * p <= t * q)%R. { apply Rsqr_incr_0; [unfold Rsqr; nra|nra|nra]. } nra. }
  intros Hi Hj. destruct (Nat.le_ge_cases i j) as [L|L]; [apply K; lia|].
  destruct (C33_proof _ _ _ H) as (Sq & Sy & _). rewrite Sy by (rewrite (proj1 Sq); lia). rewrite Rmult_comm. apply K. lia.
Qed.
Lemma stored_entry k m r i j : (0 <= k)%R -> matrix_accurate k m r -> i < length m -> j < length m -> square r (length m) ->
  (Rabs (matrix_entry (stored m) i j - matrix_entry r i j) <= k * / 2 ^ 52 * matrix_entry r i j)%R.
Proof.
  intros Hk H Hi Hj Sq. unfold matrix_entry, stored.
  assert (L : length m = length r) by (eapply Forall2_length; exact H).
  destruct (nth_error m i) as [row|] eqn:E1; [|apply nth_error_None in E1; lia]. destruct (nth_error r i) as [row'|] eqn:E2; [|apply nth_error_None in E2; lia].
  assert (F : Forall2 (accurate k) row row').
  { revert i Hi E1 E2. clear -H. induction H as [|a b l l' HF _ IH]; intros i Hi E1 E2; [cbn in Hi; lia|]. destruct i; cbn in E1, E2; [congruence|]. apply (IH i); [cbn in Hi; lia|exact E1|exact E2]. }
  rewrite (nth_error_nth (map (map value) m) i [] (map_nth_error (map value) _ _ E1)), (nth_error_nth r i [] E2).
  assert (L2 : length row = length row') by (eapply Forall2_length; exact F).
  assert (L3 : length row' = length m). { destruct Sq as [_ Sq]. rewrite Forall_forall in Sq. apply Sq. eapply nth_error_In; exact E2. }
  destruct (nth_error row j) as [x|] eqn:E3; [|apply nth_error_None in E3; lia]. destruct (nth_error row' j) as [y|] eqn:E4; [|apply nth_error_None in E4; lia].
  rewrite (nth_error_nth (map value row) j 0%R (map_nth_error value _ _ E3)), (nth_error_nth row' j 0%R E4).
  assert (Ac : accurate k x y). { clear -F E3 E4. revert j E3 E4. induction F as [|a b l l' HF _ IH]; intros j E3 E4; destruct j; cbn in E3, E4; try discriminate; [congruence|now apply (IH j)]. }
  exact (proj2 Ac).
Qed.
Lemma semidefinite_populated (v n : list spec_float) m r x : populate_covariance_matrix v n = Ok m -> Forall everyday n -> Forall variance_double v ->
  populate_covariance_matrix (map value v) (map value n) = Ok r -> positive_semidefinite r -> length x = length v ->
  (- (/ 2 ^ 51 * total (map value v)) * norm2 x <= quadratic (stored m) x)%R.
Proof.
  intros H Fn Fv Hr PSD Hx. destruct (entries_populated v n m H Fn Fv) as (r' & Hr' & Ac). assert (r' = r) by congruence. subst r'.
  assert (Fn' : Forall (fun c => 0 < c)%R (map value n)). { apply Forall_map. eapply Forall_impl; [|exact Fn]. intros a Ha. cbv beta. exact (proj2 (everyday_finite a Ha)). }
  assert (Lm : length m = length v). { apply populate_any in H as [_ ->]. now rewrite map_length, seq_length. }
  assert (Sq : square r (length v)). { destruct (C33_proof _ _ _ Hr) as (Sq & _). now rewrite map_length in Sq. }
  set (k := length v) in *. set (s := fun i => sqrt (vec_entry (map value v) i)). set (d := (/ 2 ^ 51)%R). assert (D0 : (0 < d)%R) by (unfold d; apply Rinv_0_lt_compat; lra).
  assert (Q0 : (0 <= quadratic r x)%R). { apply PSD. rewrite (proj1 Sq). exact Hx. }
  assert (B : (quadratic r x - d * (sumto k (fun i => Rabs (vec_entry x i) * s i) * sumto k (fun i => Rabs (vec_entry x i) * s i)) <= quadratic (stored m) x)%R).
  { unfold quadratic, bilinear. rewrite Hx. rewrite sumto_mult, <- sumto_scale. unfold Rminus. rewrite <- Ropp_mult_distr_l_reverse || idtac.
    assert (G : forall f g h : nat -> R, (forall i, (i < k)%nat -> (f i <= g i + h i)%R) -> (sumto k f - sumto k h <= sumto k g)%R).
    { intros f g h Hfg. pose proof (ProofsCov.sumto_le k f (fun i => g i + h i)%R Hfg) as E. rewrite sumto_plus in E. lra. }
    apply G. intros i Hi. rewrite <- sumto_scale, <- sumto_plus. apply ProofsCov.sumto_le. intros j Hj.
    pose proof (stored_entry 2 m r i j ltac:(lra) Ac ltac:(lia) ltac:(lia) ltac:(now rewrite Lm)) as E.
    pose proof (entry_below _ _ r i j Hr Fn' PSD ltac:(now rewrite map_length) ltac:(now rewrite map_length)) as [E1 E2]. fold (s i) in E2. fold (s j) in E2.
    set (a := vec_entry x i). set (b := vec_entry x j). set (e := matrix_entry (stored m) i j) in *. set (w := matrix_entry r i j) in *.
    assert (T : (a * w * b - a * e * b <= Rabs a * Rabs b * Rabs (e - w))%R).
    { replace (a * w * b - a * e * b)%R with (a * b * - (e - w))%R by ring. eapply Rle_trans; [apply Rle_abs|]. rewrite !Rabs_mult, Rabs_Ropp. apply Rle_refl. }
    assert (P : (0 <= Rabs a * Rabs b)%R) by (apply Rmult_le_pos; apply Rabs_pos).
    assert (U : (Rabs (e - w) <= d * (s i * s j))%R).
    { eapply Rle_trans; [exact E|]. replace (2 * / 2 ^ 52)%R with d by (unfold d; cbn [pow]; field). apply Rmult_le_compat_l; lra. }
    assert (Rabs a * Rabs b * Rabs (e - w) <= Rabs a * Rabs b * (d * (s i * s j)))%R by (apply Rmult_le_compat_l; assumption). nra. }
  assert (C := sumto_cauchy k (fun i => Rabs (vec_entry x i)) s).
  assert (E1 : sumto k (fun i => Rabs (vec_entry x i) * Rabs (vec_entry x i))%R = norm2 x).
  { unfold norm2. rewrite Hx. apply sumto_ext. intros i _. rewrite <- Rabs_mult. apply Rabs_pos_eq. nra. }
  assert (E2 : sumto k (fun i => s i * s i)%R = total (map value v)).
  { unfold total. rewrite map_length. apply sumto_ext. intros i Hi. unfold s. apply sqrt_sqrt. unfold vec_entry.
    rewrite (nth_indep _ 0%R (value n0)) by (rewrite map_length; exact Hi). rewrite (map_nth value). apply variance_nonneg. rewrite Forall_forall in Fv. apply Fv, nth_In. exact Hi. }
  cbv beta in C. rewrite E1, E2 in C. apply (Rmult_le_compat_l d) in C; [|lra]. nra.
Qed.

(** The same without the model's function over the real numbers. *)
Lemma positive_values n : Forall everyday n -> Forall (fun c => 0 < c)%R (map value n).
Proof. intros Fn. apply Forall_map. eapply Forall_impl; [|exact Fn]. intros a Ha. cbv beta. exact (proj2 (everyday_finite a Ha)). Qed.
Lemma populated_exact v n r : populate_covariance_matrix v n = Ok r -> Forall (fun c => 0 < c)%R n -> exact_covariance v n r.
Proof.
  intros H Fn. destruct (C33_proof _ _ _ H) as (Sq & Sy & E & _). apply populate_inv in H as [HL _]. split; [exact Sq|]. intros i j Hij.
  assert (N : (0 < vec_entry n j)%R) by (rewrite Forall_forall in Fn; apply Fn, nth_In; lia). split; [apply E; [lia|lra]|]. apply Sy; rewrite (proj1 Sq); lia.
Qed.
Lemma C111_entries_proof (v n : list spec_float) m : populate_covariance_matrix v n = Ok m -> Forall everyday n -> Forall variance_double v ->
  exists r, exact_covariance (map value v) (map value n) r /\ matrix_accurate 2 m r.
Proof.
  intros H Fn Fv. destruct (entries_populated _ _ _ H Fn Fv) as (r & Hr & Ac). exists r. split; [|exact Ac]. apply populated_exact; [exact Hr|now apply positive_values].
Qed.
Lemma exact_same v n r r' i j : exact_covariance v n r -> exact_covariance v n r' -> i < length v -> j < length v -> matrix_entry r i j = matrix_entry r' i j.
Proof.
  intros [_ H] [_ H'] Hi Hj. destruct (Nat.le_ge_cases i j) as [L|L].
  - rewrite (proj1 (H i j ltac:(lia))), (proj1 (H' i j ltac:(lia))). reflexivity.
  - rewrite (proj2 (H j i ltac:(lia))), (proj2 (H' j i ltac:(lia))), (proj1 (H j i ltac:(lia))), (proj1 (H' j i ltac:(lia))). reflexivity.
Qed.
Lemma exact_semidefinite v n r r' : exact_covariance v n r -> exact_covariance v n r' -> positive_semidefinite r -> positive_semidefinite r'.
Proof.
  intros H H' P x Hx. rewrite (proj1 (proj1 H')) in Hx. assert (Q := P x ltac:(rewrite (proj1 (proj1 H)); exact Hx)). unfold quadratic, bilinear in *. rewrite Hx in *.
  erewrite sumto_ext; [exact Q|]. intros i Hi. apply sumto_ext. intros j Hj. cbv beta. now rewrite (exact_same v n r' r i j H' H Hi Hj).
Qed.
Lemma C111_semidefinite_proof (v n : list spec_float) m r x : populate_covariance_matrix v n = Ok m -> Forall everyday n -> Forall variance_double v ->
  exact_covariance (map value v) (map value n) r -> positive_semidefinite r -> length x = length v ->
  (- (/ 2 ^ 51 * total (map value v)) * norm2 x <= quadratic (stored m) x)%R.
Proof.
  intros H Fn Fv Hr PSD Hx. destruct (entries_populated _ _ _ H Fn Fv) as (r' & Hr' & _). apply (semidefinite_populated v n m r' x); try assumption.
  apply (exact_semidefinite (map value v) (map value n) r); [exact Hr| |exact PSD]. apply populated_exact; [exact Hr'|now apply positive_values].
Qed.

(** ** The numbers of independent observations *)
Section Loop.
  Context {A : Type} {NA : Num A}.
  Definition count_of (lst : Z) (m : Z) (d : Arr A) : A := ndiv (nmul (nofnat (length (a_rows d))) (nofZ lst)) (nofZ m).
  Lemma loop_length samp (sel : list (list (V3 A))) T lst tis : forall i r, disps_loop samp sel T lst i tis = Ok r -> length (snd r) <= length tis /\ length (fst r) = length (snd r).
  Proof.
    induction tis as [|t tis IH]; intros i r H; cbn [disps_loop] in H; [injection H as <-; cbn; lia|].
    inv_bind H d E1. inv_bind H c E2. inv_bind H tl E3. destruct (IH _ _ E3). destruct (_ <=? 1)%Z; injection H as <-; cbn; lia.
  Qed.
  Lemma loop_counts samp (sel : list (list (V3 A))) T lst tis : forall i r, disps_loop samp sel T lst i tis = Ok r -> length (snd r) = length tis ->
    forall k m d x, nth_error tis k = Some m -> nth_error (fst r) k = Some d -> nth_error (snd r) k = Some x -> x = count_of lst m d.
  Proof.
    induction tis as [|t tis IH]; intros i r H HL k m d x H1 H2 H3; cbn [disps_loop] in H; [injection H as <-; cbn in *; destruct k; discriminate|].
    inv_bind H w E1. inv_bind H c E2. inv_bind H tl E3. destruct (_ <=? 1)%Z; injection H as <-.
    - pose proof (loop_length _ _ _ _ _ _ _ E3). cbn [length] in HL. lia.
    - cbn [fst snd length] in *. destruct k; cbn [nth_error] in *; [injection H1 as <-; injection H2 as <-; injection H3 as <-; reflexivity|]. apply (IH _ _ E3 ltac:(lia) k m d x H1 H2 H3).
  Qed.
End Loop.
Lemma C111_counts_proof geo disp idx didx (ts : spec_float) ss o p : parser_init geo disp idx didx ts ss o = Ok p -> counted (p_intervals p) ->
  length (p_n_o p) = length (p_intervals p) ->
  forall k m d x, nth_error (p_intervals p) k = Some m -> nth_error (p_disp_3d p) k = Some d -> nth_error (p_n_o p) k = Some x ->
    (Z.of_nat (length (a_rows d)) * last (p_intervals p) 0 < 2 ^ 53)%Z -> (Z.of_nat (length (a_rows d)) < 2 ^ 53)%Z ->
    nearest_double x (INR (length (a_rows d)) * IZR (last (p_intervals p) 0%Z) / IZR m).
Proof.
  unfold parser_init. intros H. inv_bind H dc E. inv_bind H q E0. inv_bind H mi E1. destruct (_ <=? _)%Z; [discriminate|]. inv_bind H tis E2. inv_bind H r E3. injection H as <-.
  cbn [p_intervals p_n_o p_disp_3d]. intros C HL k m d x H1 H2 H3 B1 B2. unfold get_disps in E3. destruct tis as [|t0 tis]; [destruct k; discriminate|].
  inv_bind E3 sel E4. destruct (nltb _ _) in E3; [discriminate|]. inv_bind E3 r1 E5. injection E3 as <-. cbn [fst snd] in *.
  rewrite (loop_counts _ _ _ _ _ _ _ E5 HL k m d x H1 H2 H3). unfold count_of, nofnat. cbn [nmul ndiv nofZ NumSF].
  set (lst := last (t0 :: tis) 0%Z) in *. assert (Cl : (1 <= lst < 2 ^ 48)%Z).
  { unfold counted in C. rewrite Forall_forall in C. apply C. unfold lst. destruct (@exists_last _ (t0 :: tis) ltac:(discriminate)) as (l & a & ->). rewrite last_last. apply in_or_app. right. now left. }
  assert (Cm : (1 <= m < 2 ^ 48)%Z). { unfold counted in C. rewrite Forall_forall in C. apply C. eapply nth_error_In; exact H1. }
  destruct (mul_exact (Z.of_nat (length (a_rows d))) lst) as [F V]; [lia|lia|lia|]. destruct (ofZ_small m) as [Fm Vm]; [lia|].
  rewrite INR_IZR_INZ, <- mult_IZR, <- V. apply div_nearest; try assumption; [|lia].
  rewrite V, <- bpow_R. apply small_bound. rewrite <- abs_IZR. apply IZR_le. lia.
Qed.

(** ** From the statistics to the matrix of a fit *)
Lemma C111_fit_proof {G Seed RS} (X : Ext spec_float G Seed RS) b (p : GLSParams spec_float RS) r m res : generate_covariance_matrix X b p r = (Some m, res) -> l_model p = false ->
  Forall everyday (b_n_o b) -> Forall variance_double (b_v b) ->
  exists e, exact_covariance (map value (skipn r (b_v b))) (map value (skipn r (b_n_o b))) e /\ matrix_accurate 2 m e /\ (forall i j x, cell m i j x -> cell m j i x)
    /\ (positive_semidefinite e -> forall x, length x = length (skipn r (b_v b)) -> (- (/ 2 ^ 51 * total (map value (skipn r (b_v b)))) * norm2 x <= quadratic (stored m) x)%R).
Proof.
  unfold generate_covariance_matrix. intros H M Fn Fv. rewrite M in H. cbn [bind] in H. destruct (populate_covariance_matrix _ _) as [m'|] eqn:E; [|discriminate]. injection H as -> _.
  assert (Fn' : Forall everyday (skipn r (b_n_o b))) by (rewrite <- (firstn_skipn r (b_n_o b)) in Fn; apply Forall_app in Fn; tauto).
  assert (Fv' : Forall variance_double (skipn r (b_v b))) by (rewrite <- (firstn_skipn r (b_v b)) in Fv; apply Forall_app in Fv; tauto).
  destruct (C111_entries_proof _ _ _ E Fn' Fv') as (e & He & Ac). exists e. split; [exact He|]. split; [exact Ac|]. split; [intros i j x; exact (C111_symmetric_proof _ _ _ i j x E)|].
  intros PSD x Hx. exact (C111_semidefinite_proof _ _ _ _ x E Fn' Fv' He PSD Hx).
Qed.
(** Variances 1 and 6, with 7 and 3 independent observations: n_0/n_1 is not a double. *)
Definition pair_v : list spec_float := [SFofZ 1; SFofZ 6].
Definition pair_n : list spec_float := [SFofZ 7; SFofZ 3].
Lemma C111_example_proof : Forall everyday pair_n /\ Forall variance_double pair_v
  /\ (exists m x, populate_covariance_matrix pair_v pair_n = Ok m /\ cell m 0 1 x /\ x = decimal 7 3 /\ value x <> (7 / 3)%R)
  /\ exists r, exact_covariance (map value pair_v) (map value pair_n) r /\ positive_semidefinite r.
Proof.
  assert (V : forall z, (1 <= z < 2 ^ 53)%Z -> everyday (SFofZ z)) by exact everyday_int.
  assert (W : forall z, (1 <= z < 2 ^ 53)%Z -> variance_double (SFofZ z)).
  { intros z Hz. destruct (V z Hz) as [F [B1 B2]]. split; [exact F|]. right. rewrite <- !bpow_R in *. split; [eapply Rle_trans; [|exact B1]|eapply Rle_trans; [exact B2|]]; apply bpow_le; lia. }
  split; [do 2 (constructor; [apply V; lia|]); constructor|]. split; [do 2 (constructor; [apply W; lia|]); constructor|]. split.
  - do 2 eexists. split; [vm_compute; reflexivity|]. split; [do 2 eexists; split; reflexivity|]. split; [vm_compute; reflexivity|].
    cbn [value]. rewrite <- bpow_R. intros E. change (bpow radix2 (-51)) with (/ IZR 2251799813685248)%R in E.
    assert (E2 : (3 * 5254199565265579 = 7 * 2251799813685248)%R) by (apply (f_equal (fun y => y * 2251799813685248 * 3)%R) in E; lra).
    lra.
  - assert (Ev : map value pair_v = [1; 6]%R /\ map value pair_n = [7; 3]%R).
    { unfold pair_v, pair_n. cbn [map]. rewrite !(fun z H => proj2 (ofZ_small z H)) by reflexivity. split; reflexivity. }
    destruct Ev as [-> ->]. destruct (populate_any_ok [1; 6]%R [7; 3]%R) as [r Hr]; [cbn; lia|]. exists r. split; [apply populated_exact; [exact Hr|repeat constructor; lra]|].
    apply (C34_iff_proof _ _ _ Hr); [repeat constructor; lra|]. split.
    + intros [|[|i]] Hi; cbn in Hi; [unfold vec_entry; cbn; lra|unfold vec_entry; cbn; lra|lia].
    + intros [|[|i]] [|[|j]] Hij; cbn in Hij; unfold vec_entry; cbn; try lia; lra.
Qed.
