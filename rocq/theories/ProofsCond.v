(** * ProofsCond: what reconditioning the covariance matrix does to a fit (C109) *)
From Verif Require Import Base Spec SpecFit SpecGls SpecMarkov SpecCond ModelParser ModelDiffusion Lemmas ProofsCov ProofsFit2 ProofsGls ProofsMarkov.
From Coq Require Import Reals Lra Lia Psatz.
Open Scope nat_scope.

(** ** The reconditioned matrix *)
Section Recondition.
  Context {G Seed RS : Type} (X : Ext R G Seed RS) (m v : list (list R)) (l : list R) (c e0 : R).
  Hypothesis (He : x_eig X m = Ok (l, v)) (D : eigendecomposition m v l) (Hc : (0 < c)%R) (H0 : nth_error l 0 = Some e0).
  Let l' : list R := map (fun x => if Rltb x (e0 / c) then (e0 / c)%R else x) l.
  Lemma recondition_value : minimum_eigenvalue_method X m c = Ok (vdiagvt v l').
  Proof using He H0.
    unfold minimum_eigenvalue_method, recondition_eigenvalues. rewrite He. cbn [bind].
    change 0%Z with (Z.of_nat 0). rewrite py_index_nat, H0. cbn [opt_res bind]. reflexivity.
  Qed.
  Let Lv : length v = length m. Proof. exact (proj1 (proj1 D)). Qed.
  Let Ll : length l = length m. Proof. exact (proj1 (proj2 D)). Qed.
  Let Ll' : length l' = length m. Proof. unfold l'. now rewrite map_length. Qed.
  Let V : is_vdvt (vdiagvt v l') v l'.
  Proof.
    destruct D as (D1 & _). split; [rewrite Lv; now apply vdiagvt_square|].
    intros i j Hi Hj. rewrite Lv in *. now apply vdiagvt_entry.
  Qed.
  Lemma recondition_square : square (vdiagvt v l') (length m).
  Proof using D. apply vdiagvt_square. exact (proj1 D). Qed.
  Lemma recondition_symmetric : symmetric (vdiagvt v l').
  Proof using D.
    intros i j Hi Hj. rewrite (proj1 recondition_square) in Hi, Hj. destruct V as [_ E]. rewrite Lv in E.
    rewrite !E by assumption. apply sumto_ext. intros; ring.
  Qed.
  Let entry k : k < length m -> vec_entry l' k = (if Rltb (vec_entry l k) (e0 / c) then (e0 / c)%R else vec_entry l k).
  Proof. intros Hk. unfold vec_entry, l'. rewrite (nth_map_lt _ l k 0%R) by lia. reflexivity. Qed.
  Lemma recondition_wider : at_least_as_wide (vdiagvt v l') m.
  Proof using D.
    intros x Hx. destruct D as (D1 & D2 & D3 & D4).
    rewrite (vdvt_quadratic m v l x D4) by lia. rewrite (vdvt_quadratic _ v l' x V) by lia. rewrite Lv. apply sumto_le. intros k Hk.
    apply Rmult_le_compat_r; [apply Rle_0_sqr|]. rewrite entry by exact Hk. destruct (Rltb _ _) eqn:E; [apply Rltb_true in E; lra|lra].
  Qed.
  Lemma recondition_little x : (forall y, In y l -> (0 <= y)%R) -> length x = length m ->
    (quadratic (vdiagvt v l') x <= quadratic m x + e0 / c * norm2 x)%R.
  Proof using D Hc H0.
    intros P Hx. destruct D as (D1 & D2 & D3 & D4). rewrite <- (orthogonal_norm v x D3) by lia.
    rewrite (vdvt_quadratic m v l x D4) by lia. rewrite (vdvt_quadratic _ v l' x V) by lia. rewrite Lv.
    rewrite <- sumto_scale, <- sumto_plus. apply sumto_le. intros k Hk. rewrite <- Rmult_plus_distr_r.
    apply Rmult_le_compat_r; [apply Rle_0_sqr|]. rewrite entry by exact Hk.
    assert (0 <= vec_entry l k)%R by (apply P, nth_In; lia).
    assert (0 <= e0 / c)%R. { apply Rmult_le_pos; [apply P; eapply nth_error_In; eauto|]. left. now apply Rinv_0_lt_compat. }
    destruct (Rltb _ _); lra.
  Qed.
  Lemma recondition_untouched : (forall y, In y l -> (e0 / c <= y)%R) -> vdiagvt v l' = m.
  Proof using D.
    intros P. assert (E : l' = l).
    { unfold l'. rewrite <- (map_id l) at 2. apply map_ext_in. intros y Hy. destruct (Rltb y (e0 / c)) eqn:Q; [apply Rltb_true in Q; specialize (P y Hy); lra|reflexivity]. }
    rewrite E in *. destruct D as (D1 & D2 & D3 & D4 & D5). pose proof (vdiagvt_square v l (length m) D1) as [S1 S2]. rewrite Lv in *. destruct D4 as [M1 M2].
    apply (nth_ext _ _ [] []); [congruence|]. rewrite S1. intros i Hi. rewrite Forall_forall in S2, M2.
    assert (R1 : length (nth i (vdiagvt v l) []) = length m) by (apply S2, nth_In; lia).
    assert (R2 : length (nth i m []) = length m) by (apply M2, nth_In; lia).
    apply (nth_ext _ _ 0%R 0%R); [congruence|]. rewrite R1. intros j Hj.
    pose proof (vdiagvt_entry v l (length m) i j D1 D2 Hi Hj) as E1. pose proof (D5 i j Hi Hj) as E2. unfold matrix_entry in E1, E2 at 1. rewrite E1, E2. reflexivity.
  Qed.
End Recondition.
Lemma C109_wider_proof {G Seed RS} (X : Ext R G Seed RS) m v l (c : R) e0 : x_eig X m = Ok (l, v) -> eigendecomposition m v l -> nth_error l 0 = Some e0 ->
  exists r, minimum_eigenvalue_method X m c = Ok r /\ square r (length m) /\ symmetric r /\ at_least_as_wide r m.
Proof.
  intros He D H0. eexists. split; [exact (recondition_value X m v l c e0 He H0)|].
  split; [exact (recondition_square m v l c e0 D)|]. split; [exact (recondition_symmetric m v l c e0 D)|exact (recondition_wider m v l c e0 D)].
Qed.
Lemma C109_little_proof {G Seed RS} (X : Ext R G Seed RS) m v l (c : R) e0 : x_eig X m = Ok (l, v) -> eigendecomposition m v l -> nth_error l 0 = Some e0 ->
  (0 < c)%R -> (forall y, In y l -> (0 <= y)%R) ->
  exists r, minimum_eigenvalue_method X m c = Ok r /\ forall x, length x = length m -> (quadratic r x <= quadratic m x + e0 / c * norm2 x)%R.
Proof.
  intros He D H0 Hc P. eexists. split; [exact (recondition_value X m v l c e0 He H0)|]. intros x Hx. exact (recondition_little m v l c e0 D Hc H0 x P Hx).
Qed.
Lemma C109_untouched_proof {G Seed RS} (X : Ext R G Seed RS) m v l (c : R) e0 : x_eig X m = Ok (l, v) -> eigendecomposition m v l -> nth_error l 0 = Some e0 ->
  (forall y, In y l -> (e0 / c <= y)%R) -> minimum_eigenvalue_method X m c = Ok m.
Proof.
  intros He D H0 P. rewrite (recondition_value X m v l c e0 He H0). f_equal. exact (recondition_untouched m v l c e0 D P).
Qed.

(** ** The inverse of a wider matrix *)
Definition image (w : list (list R)) (n : nat) (x : list R) : list R := map (fun i => sumto n (fun j => matrix_entry w i j * vec_entry x j)%R) (seq 0 n).
Section Inverse.
  Context (w S : list (list R)) (n : nat).
  Hypothesis (Hw : square w n) (Sw : symmetric w) (HS : square S n) (SS : symmetric S) (HI : inverse_of w S).
  Context (x : list R).
  Hypothesis Lx : length x = n.
  Let z := image w n x.
  Lemma image_length : length z = n.
  Proof using. unfold z, image. now rewrite map_length, seq_length. Qed.
  Let Ez i : i < n -> vec_entry z i = sumto n (fun j => matrix_entry w i j * vec_entry x j)%R.
  Proof. intros Hi. unfold z, image, vec_entry at 1. rewrite (nth_map_lt _ _ i 0) by (now rewrite seq_length). now rewrite seq_nth. Qed.
  Let Sz i : i < n -> sumto n (fun j => matrix_entry S i j * vec_entry z j)%R = vec_entry x i.
  Proof.
    intros Hi. rewrite (sumto_ext n _ (fun j => sumto n (fun l => vec_entry x l * (matrix_entry w l j * matrix_entry S j i))%R)).
    - rewrite sumto_swap. rewrite (sumto_ext n _ (fun l => if Nat.eqb l i then vec_entry x l else 0)%R).
      + rewrite (sumto_one n i) by (try assumption; intros l _ D; apply Nat.eqb_neq in D; now rewrite D). now rewrite Nat.eqb_refl.
      + intros l Hl. rewrite sumto_scale. rewrite <- (proj1 HS) at 1. rewrite HI by (rewrite (proj1 HS); assumption). destruct (Nat.eqb l i); ring.
    - intros j Hj. rewrite Ez by exact Hj. rewrite <- sumto_scale. apply sumto_ext. intros l Hl.
      rewrite (Sw j l) by (rewrite (proj1 Hw); assumption). rewrite (SS i j) by (rewrite (proj1 HS); assumption). ring.
  Qed.
  Lemma image_dot v : length v = n -> bilinear S v z = sumto n (fun i => vec_entry v i * vec_entry x i)%R.
  Proof using Hw Sw HS SS HI Lx.
    intros Lv. unfold bilinear. rewrite Lv, image_length. apply sumto_ext. intros i Hi. rewrite <- (Sz i Hi), <- sumto_scale. apply sumto_ext. intros; ring.
  Qed.
  Lemma image_quadratic : quadratic w x = quadratic S z.
  Proof using Hw Sw HS SS HI Lx.
    unfold quadratic at 2. rewrite image_dot by exact image_length. unfold quadratic, bilinear. rewrite Lx. apply sumto_ext. intros i Hi. rewrite Ez by exact Hi.
    rewrite (Rmult_comm (sumto _ _)), <- sumto_scale. apply sumto_ext. intros; ring.
  Qed.
  Lemma image_zero : (forall i, i < n -> vec_entry z i = 0%R) -> forall i, i < n -> vec_entry x i = 0%R.
  Proof using Hw Sw HS SS HI Lx. intros Z i Hi. rewrite <- (Sz i Hi). apply sumto_zero. intros j Hj. rewrite (Z j Hj). ring. Qed.
End Inverse.
Lemma some_nonzero (x : list R) k : (exists i, i < k /\ vec_entry x i <> 0%R) \/ forall i, i < k -> vec_entry x i = 0%R.
Proof.
  induction k as [|k IH]; [right; intros; lia|]. destruct IH as [(i & Hi & N)|Z]; [left; exists i; split; [lia|exact N]|].
  destruct (Req_dec (vec_entry x k) 0) as [E|E]; [right|left; exists k; split; [lia|exact E]].
  intros i Hi. destruct (Nat.eq_dec i k) as [->|]; [exact E|apply Z; lia].
Qed.
Lemma inverse_definite w S n : square w n -> symmetric w -> square S n -> symmetric S -> inverse_of w S -> positive_definite S -> positive_definite w.
Proof.
  intros Hw Sw HS SS HI P x Lx (i & Hi & N). rewrite (proj1 Hw) in Lx. rewrite (image_quadratic w S n) by assumption.
  assert (L : length (image w n x) = n) by apply image_length. apply P; [now rewrite (proj1 HS)|]. rewrite L.
  destruct (some_nonzero (image w n x) n) as [E|Z]; [exact E|]. exfalso. apply N. rewrite Lx in Hi. exact (image_zero w S n Hw Sw HS SS HI x Lx Z i Hi).
Qed.
Lemma wider_definite m r : length r = length m -> at_least_as_wide r m -> positive_definite m -> positive_definite r.
Proof. intros L H P x Lx N. rewrite L in Lx. apply Rlt_le_trans with (2 := H x Lx). now apply P. Qed.
Lemma C109_weights_proof n m r w w' : square m n -> symmetric m -> positive_semidefinite m -> square r n -> symmetric r -> at_least_as_wide r m ->
  square w n -> symmetric w -> inverse_of w m -> square w' n -> symmetric w' -> inverse_of w' r -> at_least_as_wide w w'.
Proof.
  intros Hm Sm Pm Hr Sr W Hw Sw Iw Hw' Sw' Iw' x Lx. rewrite (proj1 Hw') in Lx.
  set (u := image w n x). set (u' := image w' n x).
  assert (Lu : length u = n) by apply image_length. assert (Lu' : length u' = n) by apply image_length.
  assert (Q : quadratic w x = quadratic m u) by (apply image_quadratic; assumption).
  assert (Q' : quadratic w' x = quadratic r u') by (apply image_quadratic; assumption).
  assert (B : bilinear m u' u = quadratic r u').
  { unfold u at 1. rewrite (image_dot w m n) by assumption. unfold quadratic. unfold u' at 3. rewrite (image_dot w' r n) by assumption. reflexivity. }
  assert (Bs : bilinear m u u' = bilinear m u' u) by (now apply (bilinear_sym m n)).
  assert (L1 : length (map (Rmult (-1)) u') = n) by (now rewrite map_length).
  assert (P : (0 <= quadratic m (zip_with Rplus u (map (Rmult (-1)) u')))%R).
  { apply Pm. rewrite zip_with_length, Lu, L1, (proj1 Hm). apply Nat.min_id. }
  rewrite (quadratic_add m n) in P by assumption. rewrite (bilinear_scale_r m n) in P by assumption.
  unfold quadratic at 2 in P. rewrite bilinear_scale_l, (bilinear_scale_r m n) in P by assumption. fold (quadratic m u') in P.
  rewrite Bs, B in P. pose proof (W u' ltac:(rewrite (proj1 Hm); exact Lu')) as L. rewrite Q, Q'. lra.
Qed.
Lemma definite_semi w : positive_definite w -> positive_semidefinite w.
Proof.
  intros P x Lx.
  destruct (some_nonzero x (length x)) as [E|Z]; [left; now apply P|]. right. symmetry. unfold quadratic, bilinear. apply sumto_zero. intros i Hi.
  apply sumto_zero. intros j Hj. rewrite (Z i Hi). ring.
Qed.
(** ** The distribution of slope and intercept *)
Lemma two_rows (a b c d : R) : square [[a;b];[c;d]] 2.
Proof. split; [reflexivity|]. repeat constructor. Qed.
Lemma two_symmetric (a b d : R) : symmetric [[a;b];[b;d]].
Proof. intros i j Hi Hj. cbn [length] in *. destruct i as [|[|i]]; [| |lia]; (destruct j as [|[|j]]; [| |lia]); reflexivity. Qed.
Lemma two_quadratic (a b d x y : R) : quadratic [[a;b];[b;d]] [x;y] = (x * x * a + 2 * (x * y) * b + y * y * d)%R.
Proof. unfold quadratic, bilinear, vec_entry, matrix_entry. cbn. ring. Qed.
Section Posterior.
  Context (dt : list R) (w : list (list R)).
  Hypothesis (Hw : square w (length dt)) (Sw : symmetric w) (Pw : positive_definite w) (Ht : two_times dt).
  Let A := bilinear w dt dt. Let B := bilinear w dt (ones (length dt)). Let C := bilinear w (ones (length dt)) (ones (length dt)).
  Lemma gram_det : (0 < A /\ 0 < C /\ 0 < A * C - B * B)%R.
  Proof using Hw Sw Pw Ht.
    assert (HA : (0 < A)%R).
    { pose proof (information_positive w dt 1 0 Hw Sw Pw Ht ltac:(left; lra)) as H. unfold information in H. fold A B C in H. lra. }
    assert (HC0 : (0 < C)%R).
    { pose proof (information_positive w dt 0 1 Hw Sw Pw Ht ltac:(right; lra)) as H. unfold information in H. fold A B C in H. lra. }
    split; [exact HA|]. split; [exact HC0|].
    pose proof (information_positive w dt C (- B) Hw Sw Pw Ht ltac:(left; lra)) as H. unfold information in H. fold A B C in H.
    assert (EQ : (C * C * A + 2 * (C * - B) * B + - B * - B * C = C * (A * C - B * B))%R) by ring. rewrite EQ in H.
    destruct (Rlt_or_le 0 (A * C - B * B)) as [Q|Q]; [exact Q|]. exfalso. nra.
  Qed.
  Definition posterior_cov : list (list R) := [[C / (A * C - B * B); - B / (A * C - B * B)]; [- B / (A * C - B * B); A / (A * C - B * B)]]%R.
  Lemma cov_inverse : inverse_of [[A; B]; [B; C]] posterior_cov /\ inverse_of posterior_cov [[A; B]; [B; C]].
  Proof using Hw Sw Pw Ht.
    destruct gram_det as (_ & _ & P). split; intros i j Hi Hj; cbn [length posterior_cov] in *; (destruct i as [|[|i]]; [| |lia]); (destruct j as [|[|j]]; [| |lia]); unfold posterior_cov, matrix_entry; cbn; field; lra.
  Qed.
  Lemma cov_definite : positive_definite posterior_cov.
  Proof using Hw Sw Pw Ht.
    destruct gram_det as (PA & PC & P). intros x Lx (i & Hi & Nz). cbn [length posterior_cov] in Lx. destruct x as [|x [|y [|? ?]]]; try discriminate Lx.
    unfold posterior_cov. rewrite two_quadratic.
    assert (N : (x <> 0 \/ y <> 0)%R). { cbn [length] in Hi. destruct i as [|[|i]]; [left|right|lia]; exact Nz. }
    set (d := (A * C - B * B)%R) in *. replace (x * x * (C / d) + 2 * (x * y) * (- B / d) + y * y * (A / d))%R with ((x * x * C - 2 * (x * y) * B + y * y * A) / d)%R by (field; lra).
    apply Rdiv_lt_0_compat; [|exact P].
    assert (E : (C * (x * x * C - 2 * (x * y) * B + y * y * A) = (x * C - y * B) * (x * C - y * B) + y * y * d)%R) by (unfold d; ring).
    assert (T : (0 < C * (x * x * C - 2 * (x * y) * B + y * y * A))%R).
    { rewrite E. destruct (Req_dec y 0) as [Y|Y].
      - destruct N as [N|N]; [|now destruct N]. subst y. assert (0 < (x * C) * (x * C))%R by (apply Rsqr_pos_lt; apply Rmult_integral_contrapositive_currified; lra). nra.
      - assert (0 < y * y)%R by (now apply Rsqr_pos_lt). pose proof (Rmult_lt_0_compat _ _ H P). pose proof (Rle_0_sqr (x * C - y * B)) as Q. unfold Rsqr in Q. lra. }
    destruct (Rlt_or_le 0 (x * x * C - 2 * (x * y) * B + y * y * A)) as [Q|Q]; [exact Q|exfalso; nra].
  Qed.
  Lemma posterior_normal y (ld : R) g c : length dt = length y -> (0 < g)%R -> most_likely (log_likelihood dt y ld w) [g; c] ->
    normal_around (log_likelihood dt y ld w) g c posterior_cov.
  Proof using Hw Sw Pw Ht.
    intros HL Hg HM. assert (Hw' : square w (length y)) by (now rewrite <- HL).
    apply (most_likely_gls dt y ld w g c HL Hw' Sw Pw Ht Hg) in HM.
    destruct (C67_gaussian_proof dt y ld w g c HL Hw' Sw HM) as (k & HK).
    split; [apply two_rows|]. split; [apply two_symmetric|]. split; [exact cov_definite|].
    exists k, A, B, C. split; [exact (proj1 cov_inverse)|]. intros a b Ha. rewrite HK. destruct (Rlt_dec (g + a) 0); [lra|]. do 3 f_equal. unfold information.
    replace (g + a - g)%R with a by ring. replace (c + b - c)%R with b by ring. reflexivity.
  Qed.
End Posterior.
Lemma information_wider w w' dt a b : square w (length dt) -> symmetric w -> square w' (length dt) -> symmetric w' -> at_least_as_wide w w' ->
  (information w' dt a b <= information w dt a b)%R.
Proof.
  intros Hw Sw Hw' Sw' H. rewrite <- !line_information by assumption. apply H. rewrite zip_with_length, !map_length, ones_length, (proj1 Hw'). apply Nat.min_id.
Qed.
Lemma C109_fit_proof dt y (ld ld' : R) w w' g c g' c' : length dt = length y -> two_times dt ->
  square w (length dt) -> symmetric w -> positive_definite w -> square w' (length dt) -> symmetric w' -> positive_definite w' -> at_least_as_wide w w' ->
  (0 < g)%R -> most_likely (log_likelihood dt y ld w) [g; c] -> (0 < g')%R -> most_likely (log_likelihood dt y ld' w') [g'; c'] ->
  exists v v', normal_around (log_likelihood dt y ld w) g c v /\ normal_around (log_likelihood dt y ld' w') g' c' v'
    /\ (slope_variance v <= slope_variance v')%R /\ forall t, (line_variance v t <= line_variance v' t)%R.
Proof.
  intros HL Ht Hw Sw Pw Hw' Sw' Pw' H Hg HM Hg' HM'. exists (posterior_cov dt w), (posterior_cov dt w').
  split; [now apply posterior_normal|]. split; [now apply posterior_normal|].
  assert (W : at_least_as_wide (posterior_cov dt w') (posterior_cov dt w)).
  { eapply (C109_weights_proof 2); [apply two_rows|apply two_symmetric| |apply two_rows|apply two_symmetric| |apply two_rows|apply two_symmetric|exact (proj2 (cov_inverse dt w' Hw' Sw' Pw' Ht))|apply two_rows|apply two_symmetric|exact (proj2 (cov_inverse dt w Hw Sw Pw Ht))].
    - intros x Lx. destruct x as [|a [|b [|? ?]]]; try discriminate Lx. rewrite two_quadratic.
      pose proof (information_nonneg w' dt a b Hw' Sw' (definite_semi w' Pw')) as Q. unfold information in Q. lra.
    - intros x Lx. destruct x as [|a [|b [|? ?]]]; try discriminate Lx. rewrite !two_quadratic.
      pose proof (information_wider w w' dt a b Hw Sw Hw' Sw' H) as Q. unfold information in Q. lra. }
  split.
  - pose proof (W [1;0]%R eq_refl) as Q. unfold posterior_cov in *. rewrite !two_quadratic in Q. unfold slope_variance, matrix_entry. cbn [nth]. lra.
  - intros t. exact (W [t; 1]%R eq_refl).
Qed.

Lemma origin_normal dt y (ld : R) w g : length dt = length y -> some_time dt -> square w (length dt) -> symmetric w -> positive_definite w ->
  (0 < g)%R -> most_likely (log_likelihood dt y ld w) [g] -> (0 < bilinear w dt dt)%R /\ normal_around_origin (log_likelihood dt y ld w) g (/ bilinear w dt dt).
Proof.
  intros HL Ht Hw Sw Pw Hg HM. assert (Hw' : square w (length y)) by (now rewrite <- HL).
  apply (most_likely_gls1 dt y ld w g HL Hw' Sw Pw Ht Hg) in HM.
  destruct (C67_gaussian1_proof dt y ld w g HL Hw' Sw HM) as (k & HK).
  assert (P : (0 < bilinear w dt dt)%R).
  { apply Pw; [now rewrite (proj1 Hw)|]. destruct Ht as (t & It & Nt). apply (In_nth _ _ 0%R) in It as (i & Hi & Ei). exists i. split; [exact Hi|]. unfold vec_entry. now rewrite Ei. }
  split; [exact P|]. split; [now apply Rinv_0_lt_compat|]. exists k. intros a Ha. rewrite HK. destruct (Rlt_dec (g + a) 0); [lra|]. do 2 f_equal. unfold information.
  replace (g + a - g)%R with a by ring. field. lra.
Qed.
Lemma C109_fit_origin_proof dt y (ld ld' : R) w w' g g' : length dt = length y -> some_time dt ->
  square w (length dt) -> symmetric w -> positive_definite w -> square w' (length dt) -> symmetric w' -> positive_definite w' -> at_least_as_wide w w' ->
  (0 < g)%R -> most_likely (log_likelihood dt y ld w) [g] -> (0 < g')%R -> most_likely (log_likelihood dt y ld' w') [g'] ->
  exists v v', normal_around_origin (log_likelihood dt y ld w) g v /\ normal_around_origin (log_likelihood dt y ld' w') g' v' /\ (v <= v')%R.
Proof.
  intros HL Ht Hw Sw Pw Hw' Sw' Pw' H Hg HM Hg' HM'. exists (/ bilinear w dt dt)%R, (/ bilinear w' dt dt)%R.
  destruct (origin_normal dt y ld w g) as [P1 N1]; try assumption. destruct (origin_normal dt y ld' w' g') as [P2 N2]; try assumption.
  split; [exact N1|]. split; [exact N2|]. apply Rinv_le_contravar; [exact P2|]. apply H. now rewrite (proj1 Hw').
Qed.
Lemma C109_not_smaller_proof {G Seed RS} (X : Ext R G Seed RS) m v l (cond : R) e0 r w w' dt y (ld ld' : R) g c g' c' :
  x_eig X m = Ok (l, v) -> eigendecomposition m v l -> nth_error l 0 = Some e0 -> symmetric m -> positive_definite m ->
  minimum_eigenvalue_method X m cond = Ok r -> length dt = length m -> length dt = length y -> two_times dt ->
  square w (length dt) -> symmetric w -> inverse_of w m -> square w' (length dt) -> symmetric w' -> inverse_of w' r ->
  (0 < g)%R -> most_likely (log_likelihood dt y ld w) [g; c] -> (0 < g')%R -> most_likely (log_likelihood dt y ld' w') [g'; c'] ->
  exists v v', normal_around (log_likelihood dt y ld w) g c v /\ normal_around (log_likelihood dt y ld' w') g' c' v'
    /\ (slope_variance v <= slope_variance v')%R /\ forall t, (line_variance v t <= line_variance v' t)%R.
Proof.
  intros He D H0 Sm Pm E Lm HL Ht Hw Sw Iw Hw' Sw' Iw' Hg HM Hg' HM'.
  destruct (C109_wider_proof X m v l cond e0 He D H0) as (r' & E' & Hr & Sr & W). rewrite E in E'. injection E' as <-. rewrite <- Lm in Hr.
  assert (Hm : square m (length dt)). { destruct D as ((Lv & _) & _ & _ & (Q & _)). rewrite Lv, <- Lm in Q. exact Q. }
  apply C109_fit_proof; try assumption.
  - exact (inverse_definite w m (length dt) Hw Sw Hm Sm Iw Pm).
  - apply (inverse_definite w' r (length dt) Hw' Sw' Hr Sr Iw'). apply (wider_definite m); [now rewrite (proj1 Hr)|exact W|exact Pm].
  - exact (C109_weights_proof (length dt) m r w w' Hm Sm (definite_semi m Pm) Hr Sr W Hw Sw Iw Hw' Sw' Iw').
Qed.
Lemma C109_not_smaller_origin_proof {G Seed RS} (X : Ext R G Seed RS) m v l (cond : R) e0 r w w' dt y (ld ld' : R) g g' :
  x_eig X m = Ok (l, v) -> eigendecomposition m v l -> nth_error l 0 = Some e0 -> symmetric m -> positive_definite m ->
  minimum_eigenvalue_method X m cond = Ok r -> length dt = length m -> length dt = length y -> some_time dt ->
  square w (length dt) -> symmetric w -> inverse_of w m -> square w' (length dt) -> symmetric w' -> inverse_of w' r ->
  (0 < g)%R -> most_likely (log_likelihood dt y ld w) [g] -> (0 < g')%R -> most_likely (log_likelihood dt y ld' w') [g'] ->
  exists v v', normal_around_origin (log_likelihood dt y ld w) g v /\ normal_around_origin (log_likelihood dt y ld' w') g' v' /\ (v <= v')%R.
Proof.
  intros He D H0 Sm Pm E Lm HL Ht Hw Sw Iw Hw' Sw' Iw' Hg HM Hg' HM'.
  destruct (C109_wider_proof X m v l cond e0 He D H0) as (r' & E' & Hr & Sr & W). rewrite E in E'. injection E' as <-. rewrite <- Lm in Hr.
  assert (Hm : square m (length dt)). { destruct D as ((Lv & _) & _ & _ & (Q & _)). rewrite Lv, <- Lm in Q. exact Q. }
  apply C109_fit_origin_proof; try assumption.
  - exact (inverse_definite w m (length dt) Hw Sw Hm Sm Iw Pm).
  - apply (inverse_definite w' r (length dt) Hw' Sw' Hr Sr Iw'). apply (wider_definite m); [now rewrite (proj1 Hr)|exact W|exact Pm].
  - exact (C109_weights_proof (length dt) m r w w' Hm Sm (definite_semi m Pm) Hr Sr W Hw Sw Iw Hw' Sw' Iw').
Qed.

(** ** Example: the variances 1 and 4, cond_max 2 *)
Definition weights14 : list (list R) := [[1;0];[0;1/4]]%R.
Definition weights24 : list (list R) := [[1/2;0];[0;1/4]]%R.
Definition cov24 : list (list R) := [[2;0];[0;4]]%R.
Lemma diagonal_definite (a d : R) : (0 < a)%R -> (0 < d)%R -> positive_definite [[a;0];[0;d]]%R.
Proof.
  intros Ha Hd x Lx (i & Hi & N). destruct x as [|x [|y [|? ?]]]; try discriminate Lx. rewrite two_quadratic.
  pose proof (Rle_0_sqr x) as Qx. pose proof (Rle_0_sqr y) as Qy. unfold Rsqr in Qx, Qy. cbn [length] in Hi.
  destruct i as [|[|i]]; [| |lia]; cbn in N.
  - assert (0 < x * x)%R by (now apply Rsqr_pos_lt). nra.
  - assert (0 < y * y)%R by (now apply Rsqr_pos_lt). nra.
Qed.
Lemma exact_line (w : list (list R)) (ld : R) : square w 2 -> symmetric w -> positive_definite w -> most_likely (log_likelihood [1;2]%R [3;5]%R ld w) [2;1]%R.
Proof.
  intros Hw Sw Pw. apply most_likely_gls; try assumption; try reflexivity; try lra.
  - exists 1%R, 2%R. cbn. split; [tauto|]. split; [tauto|lra].
  - apply C67_linear_proof. repeat constructor; lra.
Qed.
Lemma C109_example_proof : eigendecomposition diag14 [[0;1];[1;0]]%R [4;1]%R
  /\ minimum_eigenvalue_method (eig_ext (fun _ => Ok ([4;1]%R, [[0;1];[1;0]]%R))) diag14 2%R = Ok cov24
  /\ inverse_of weights14 diag14 /\ inverse_of weights24 cov24 /\ positive_definite weights14 /\ positive_definite weights24
  /\ at_least_as_wide weights14 weights24 /\ two_times [1;2]%R
  /\ most_likely (log_likelihood [1;2]%R [3;5]%R 0%R weights14) [2;1]%R /\ most_likely (log_likelihood [1;2]%R [3;5]%R 0%R weights24) [2;1]%R
  /\ normal_around (log_likelihood [1;2]%R [3;5]%R 0%R weights14) 2 1 [[5;-6];[-6;8]]%R
  /\ normal_around (log_likelihood [1;2]%R [3;5]%R 0%R weights24) 2 1 [[6;-8];[-8;12]]%R.
Proof.
  assert (P14 : positive_definite weights14) by (apply diagonal_definite; lra).
  assert (P24 : positive_definite weights24) by (apply diagonal_definite; lra).
  assert (T : two_times [1;2]%R) by (exists 1%R, 2%R; cbn; split; [tauto|]; split; [tauto|lra]).
  assert (M14 : most_likely (log_likelihood [1;2]%R [3;5]%R 0%R weights14) [2;1]%R) by (apply exact_line; [apply two_rows|apply two_symmetric|exact P14]).
  assert (M24 : most_likely (log_likelihood [1;2]%R [3;5]%R 0%R weights24) [2;1]%R) by (apply exact_line; [apply two_rows|apply two_symmetric|exact P24]).
  split; [exact C35_example_eigen_proof|]. split.
  { destruct C35_example_proof as (r & E & ->). exact E. }
  split; [intros i j Hi Hj; cbn [length diag14] in *; (destruct i as [|[|i]]; [| |lia]); (destruct j as [|[|j]]; [| |lia]); unfold matrix_entry; cbn; lra|].
  split; [intros i j Hi Hj; cbn [length cov24] in *; (destruct i as [|[|i]]; [| |lia]); (destruct j as [|[|j]]; [| |lia]); unfold matrix_entry; cbn; lra|].
  split; [exact P14|]. split; [exact P24|]. split.
  { intros x Lx. destruct x as [|x [|y [|? ?]]]; try discriminate Lx. unfold weights14, weights24. rewrite !two_quadratic. pose proof (Rle_0_sqr x) as Q. unfold Rsqr in Q. lra. }
  split; [exact T|]. split; [exact M14|]. split; [exact M24|]. split.
  - replace [[5;-6];[-6;8]]%R with (posterior_cov [1;2]%R weights14).
    + apply posterior_normal; try assumption; [apply two_rows|apply two_symmetric|reflexivity|lra].
    + unfold posterior_cov, bilinear, weights14, matrix_entry, vec_entry, ones. cbn. repeat f_equal; field; lra.
  - replace [[6;-8];[-8;12]]%R with (posterior_cov [1;2]%R weights24).
    + apply posterior_normal; try assumption; [apply two_rows|apply two_symmetric|reflexivity|lra].
    + unfold posterior_cov, bilinear, weights24, matrix_entry, vec_entry, ones. cbn. repeat f_equal; field; lra.
Qed.
