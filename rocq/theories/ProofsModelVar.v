(** * ProofsModelVar: the random-walk model of the variances (C108) *)
From Verif Require Import Base Lemmas Spec SpecFit SpecGls SpecModelVar ModelDiffusion ProofsCov ProofsGls.
From Coq Require Import Reals Lra Lia.
Open Scope R_scope.

Lemma misfit_expand w v a : length w = length v -> misfit w v a = a * a * products w w - 2 * a * products w v + products v v.
Proof.
  unfold misfit, products. revert v. induction w as [|x w IH]; intros [|y v] H; try discriminate; [cbn; ring|].
  injection H as H. cbn [combine map rsum fst snd]. rewrite (IH v H). ring.
Qed.
Lemma products_square w : 0 <= products w w.
Proof. unfold products. induction w as [|x w IH]; cbn; [lra|]. pose proof (Rle_0_sqr x). unfold Rsqr in *. lra. Qed.
Lemma products_square_pos w : (exists x, In x w /\ x <> 0) -> 0 < products w w.
Proof.
  unfold products. induction w as [|y w IH]; intros (x & Hx & Hn); [destruct Hx|]. pose proof (products_square w) as P. unfold products in P.
  cbn [combine map rsum fst snd]. destruct Hx as [->|Hx].
  - assert (0 < x * x) by (destruct (Rtotal_order x 0) as [?|[?|?]]; nra). lra.
  - pose proof (IH (ex_intro _ x (conj Hx Hn))). pose proof (Rle_0_sqr y). unfold Rsqr in *. lra.
Qed.
Lemma products_nonneg w v : Forall (fun x => 0 <= x) w -> Forall (fun x => 0 <= x) v -> 0 <= products w v.
Proof.
  unfold products. intros H. revert v. induction H as [|x w Hx _ IH]; intros v Hv; [cbn; lra|]. destruct Hv as [|y v Hy Hv]; [cbn; lra|].
  cbn [combine map rsum fst snd]. pose proof (IH v Hv). pose proof (Rmult_le_pos _ _ Hx Hy). lra.
Qed.
Lemma C108_closed_proof w v a : length w = length v -> (exists x, In x w /\ x <> 0) -> Forall (fun x => 0 <= x) w -> Forall (fun x => 0 <= x) v ->
  (best_factor w v a <-> a = products w v / products w w).
Proof.
  intros HL HN Hw Hv. pose proof (products_square_pos w HN) as P. pose proof (products_nonneg w v Hw Hv) as Q.
  set (b := products w v / products w w). assert (B : 0 <= b) by (unfold b; apply Rmult_le_pos; [exact Q|left; now apply Rinv_0_lt_compat]).
  assert (E : forall x, misfit w v x - misfit w v b = products w w * ((x - b) * (x - b))).
  { intros x. rewrite !misfit_expand by exact HL. assert (K : products w v = b * products w w) by (unfold b; field; lra). rewrite K. ring. }
  split.
  - intros [Ha H]. specialize (H b B). pose proof (E a) as Ea. assert (S : products w w * ((a - b) * (a - b)) <= 0) by lra.
    assert (Z : (a - b) * (a - b) = 0).
    { pose proof (Rle_0_sqr (a - b)) as G. unfold Rsqr in G. destruct (Rle_lt_or_eq_dec _ _ G) as [L|L]; [|now symmetry].
      pose proof (Rmult_lt_0_compat _ _ P L). lra. }
    apply Rmult_integral in Z as [Z|Z]; lra.
  - intros ->. split; [exact B|]. intros x _. pose proof (E x). pose proof (Rle_0_sqr (x - b)) as G. unfold Rsqr in G. pose proof (Rmult_le_pos _ _ (Rlt_le _ _ P) G). lra.
Qed.
(** *** Between the smallest and the largest ratio *)
Lemma products_le w v c : Forall2 (fun x y => 0 <= x /\ y <= c * x) w v -> products w v <= c * products w w.
Proof.
  unfold products. induction 1 as [|x y w v [Hx Hy] _ IH]; cbn; [lra|]. pose proof (Rmult_le_compat_l x _ _ Hx Hy). lra.
Qed.
Lemma products_ge w v c : Forall2 (fun x y => 0 <= x /\ c * x <= y) w v -> c * products w w <= products w v.
Proof.
  unfold products. induction 1 as [|x y w v [Hx Hy] _ IH]; cbn; [lra|]. pose proof (Rmult_le_compat_l x _ _ Hx Hy). lra.
Qed.
Lemma C108_between_proof w v a lo hi : (exists x, In x w /\ x <> 0) -> 0 <= lo -> Forall2 (fun x y => 0 <= x /\ lo * x <= y <= hi * x) w v ->
  best_factor w v a -> lo <= a <= hi.
Proof.
  intros HN Hlo F HB. assert (HL : length w = length v) by (clear -F; induction F; cbn; congruence).
  assert (Hw : Forall (fun x => 0 <= x) w) by (clear -F; induction F as [|? ? ? ? [? _]]; constructor; auto).
  assert (Hv : Forall (fun x => 0 <= x) v) by (clear -F Hlo; induction F as [|x y ? ? [? [? _]]]; constructor; auto; pose proof (Rmult_le_pos lo x); lra).
  apply (C108_closed_proof w v a HL HN Hw Hv) in HB. subst a. pose proof (products_square_pos w HN) as P.
  assert (A : lo * products w w <= products w v) by (apply products_ge; clear -F; induction F as [|? ? ? ? [? [? ?]]]; constructor; auto).
  assert (B : products w v <= hi * products w w) by (apply products_le; clear -F; induction F as [|? ? ? ? [? [? ?]]]; constructor; auto).
  split; apply Rmult_le_reg_r with (products w w); try exact P; unfold Rdiv; rewrite Rmult_assoc, Rinv_l by lra; lra.
Qed.
Lemma C108_exact_proof w a0 a : (exists x, In x w /\ x <> 0) -> Forall (fun x => 0 <= x) w -> 0 <= a0 -> best_factor w (map (Rmult a0) w) a -> a = a0.
Proof.
  intros HN Hw Ha HB. assert (R : a0 <= a <= a0); [|lra]. eapply C108_between_proof; [exact HN|exact Ha| |exact HB].
  clear -Hw. induction Hw; constructor; auto. lra.
Qed.
(** *** The matrix *)
Lemma shape_length n_o dt : length (shape_of n_o dt) = Nat.min (length n_o) (length dt).
Proof. unfold shape_of. now rewrite map_length, combine_length. Qed.
Lemma model_variance_shape (n_o dt : list R) a : Forall (fun x => x <> 0) n_o -> model_variance n_o dt a = map (Rmult a) (shape_of n_o dt).
Proof.
  unfold model_variance, shape_of, zip_with. intros H. rewrite map_map. apply map_ext_in. intros [x y] Hp. cbn [fst snd].
  apply in_combine_l in Hp. rewrite Forall_forall in H. specialize (H x Hp). unfold nsq. numR. field. exact H.
Qed.
Lemma shape_nth n_o dt i : length n_o = length dt -> (i < length dt)%nat -> vec_entry (shape_of n_o dt) i = vec_entry dt i * vec_entry dt i / vec_entry n_o i.
Proof.
  intros HL Hi. unfold vec_entry, shape_of. rewrite (nth_map_lt _ _ i (0,0)) by (rewrite combine_length; lia).
  now rewrite combine_nth by assumption.
Qed.
Lemma entry_pos (l : list R) i : Forall (fun x => 0 < x) l -> (i < length l)%nat -> 0 < vec_entry l i.
Proof. intros H Hi. rewrite Forall_forall in H. apply H. now apply nth_In. Qed.
Section Generate.
  Context {G Seed RS : Type} (X : Ext R G Seed RS).
  Lemma C108_entries_proof (b : Boot R) (p : GLSParams R RS) r m res : l_model p = true ->
    length (b_n_o b) = length (b_dt b) -> Forall (fun x => 0 < x) (b_n_o b) -> generate_covariance_matrix X b p r = (Some m, res) ->
    exists a, x_curve_fit X (skipn r (b_dt b)) (skipn r (b_v b)) (skipn r (b_n_o b)) = Ok a /\ square m (length (skipn r (b_dt b))) /\ symmetric m
    /\ forall i j, (i <= j < length (skipn r (b_dt b)))%nat ->
         matrix_entry m i j = a * (vec_entry (skipn r (b_dt b)) i * vec_entry (skipn r (b_dt b)) i) / vec_entry (skipn r (b_n_o b)) j.
  Proof.
    intros Hm HL HP H. unfold generate_covariance_matrix in H. rewrite Hm in H.
    set (dt := skipn r (b_dt b)) in *. set (no := skipn r (b_n_o b)) in *.
    assert (L : length no = length dt) by (unfold no, dt; rewrite !skipn_length; lia).
    assert (P : Forall (fun x => 0 < x) no). { apply Forall_forall. intros x Hx. rewrite Forall_forall in HP. apply HP. rewrite <- (firstn_skipn r (b_n_o b)). apply in_or_app. now right. }
    destruct (x_curve_fit X dt (skipn r (b_v b)) no) as [a|e] eqn:Ea; cbn [bind] in H; [|discriminate].
    destruct (populate_covariance_matrix _ _) as [m'|e] eqn:Em; [|discriminate]. injection H as -> _.
    exists a. split; [reflexivity|].
    assert (NZ : Forall (fun x => x <> 0) no) by (eapply Forall_impl; [|exact P]; intros x Hx; cbv beta in *; lra).
    rewrite model_variance_shape in Em by exact NZ. destruct (C33_proof _ _ _ Em) as (S1 & S2 & S3 & S4).
    assert (LV : length (map (Rmult a) (shape_of no dt)) = length dt) by (rewrite map_length, shape_length; lia). rewrite LV in *.
    split; [exact S1|]. split; [exact S2|]. intros i j Hij. pose proof (entry_pos no i P ltac:(lia)). pose proof (entry_pos no j P ltac:(lia)).
    rewrite S3 by (try exact Hij; lra).
    assert (V : vec_entry (map (Rmult a) (shape_of no dt)) i = a * vec_entry (shape_of no dt) i).
    { unfold vec_entry. rewrite (nth_map_lt _ _ i 0) by (rewrite shape_length; lia). reflexivity. }
    rewrite V, shape_nth by lia. field. lra.
  Qed.
  Context (HX : fits_factor (x_curve_fit X)).
  Lemma shape_pos n_o dt : Forall (fun x => 0 < x) n_o -> Forall (fun x => 0 < x) dt -> Forall (fun x => 0 < x) (shape_of n_o dt).
  Proof.
    unfold shape_of. intros H. revert dt. induction H as [|x l Hx _ IH]; intros dt Hd; [constructor|]. destruct Hd as [|y d Hy Hd]; [constructor|].
    cbn. constructor; [|now apply IH]. cbn. apply Rdiv_lt_0_compat; [now apply Rmult_lt_0_compat|exact Hx].
  Qed.
  Lemma products_pos w v : length w = length v -> Forall (fun x => 0 < x) w -> Forall (fun x => 0 <= x) v -> (exists x, In x v /\ 0 < x) -> 0 < products w v.
  Proof.
    unfold products. intros L Hw. revert v L. induction Hw as [|x w Hx Hw IH]; intros v L Hv (z & Hz & Pz); destruct v as [|y v]; try discriminate; [destruct Hz|].
    inversion Hv as [|? ? Hy Hv']; subst. injection L as L. cbn [combine map rsum fst snd].
    assert (NN : 0 <= products w v) by (apply products_nonneg; [eapply Forall_impl; [|exact Hw]; cbv beta; intros; lra|exact Hv']). unfold products in NN.
    destruct Hz as [->|Hz].
    - pose proof (Rmult_lt_0_compat _ _ Hx Pz). lra.
    - pose proof (IH v L Hv' (ex_intro _ z (conj Hz Pz))). pose proof (Rmult_le_pos x y). lra.
  Qed.
  Lemma factor_value dt v n_o a : usable dt v n_o -> x_curve_fit X dt v n_o = Ok a ->
    a = products (shape_of n_o dt) v / products (shape_of n_o dt) (shape_of n_o dt) /\ 0 < a.
  Proof.
    intros (L1 & L2 & Pd & Pn & Nv & Ex) E. apply HX in E; try assumption.
    pose proof (shape_pos n_o dt Pn Pd) as PS. assert (LS : length (shape_of n_o dt) = length v) by (rewrite shape_length; lia).
    assert (HN : exists x, In x (shape_of n_o dt) /\ x <> 0).
    { destruct (shape_of n_o dt) as [|x s] eqn:Es; [destruct v; [destruct Ex as (? & [] & _)|discriminate]|].
      exists x. split; [now left|]. inversion PS; subst. lra. }
    apply C108_closed_proof in E; try assumption; [|eapply Forall_impl; [|exact PS]; cbv beta; intros; lra].
    split; [exact E|]. subst a. apply Rdiv_lt_0_compat; [now apply products_pos|now apply products_square_pos].
  Qed.
  Lemma C108_modelled_proof (b : Boot R) (p : GLSParams R RS) r m res : l_model p = true -> length (b_n_o b) = length (b_dt b) -> Forall (fun x => 0 < x) (b_n_o b) ->
    usable (skipn r (b_dt b)) (skipn r (b_v b)) (skipn r (b_n_o b)) -> generate_covariance_matrix X b p r = (Some m, res) ->
    let w := shape_of (skipn r (b_n_o b)) (skipn r (b_dt b)) in
    square m (length (skipn r (b_dt b))) /\ symmetric m
    /\ forall i j, (i <= j < length (skipn r (b_dt b)))%nat -> matrix_entry m i j
         = products w (skipn r (b_v b)) / products w w * (vec_entry (skipn r (b_dt b)) i * vec_entry (skipn r (b_dt b)) i) / vec_entry (skipn r (b_n_o b)) j.
  Proof.
    intros Hm HL HP HU H w. destruct (C108_entries_proof b p r m res Hm HL HP H) as (a & Ea & S & Y & E).
    split; [exact S|]. split; [exact Y|]. intros i j Hij. rewrite E by exact Hij. destruct (factor_value _ _ _ _ HU Ea) as [-> _]. reflexivity.
  Qed.
  (** Two sets of reported variances at the same times with the same counts: the matrices are multiples of each other. *)
  Lemma C108_multiple_proof (b b' : Boot R) (p : GLSParams R RS) r m res m' res' : l_model p = true ->
    length (b_n_o b) = length (b_dt b) -> Forall (fun x => 0 < x) (b_n_o b) -> b_dt b' = b_dt b -> b_n_o b' = b_n_o b ->
    usable (skipn r (b_dt b)) (skipn r (b_v b)) (skipn r (b_n_o b)) -> usable (skipn r (b_dt b)) (skipn r (b_v b')) (skipn r (b_n_o b)) ->
    generate_covariance_matrix X b p r = (Some m, res) -> generate_covariance_matrix X b' p r = (Some m', res') ->
    exists k, 0 < k /\ length m' = length m /\ (forall i j, (i < length m)%nat -> (j < length m)%nat -> matrix_entry m' i j = k * matrix_entry m i j).
  Proof.
    intros Hm HL HP Ed En HU HU' H H'. destruct (C108_entries_proof b p r m res Hm HL HP H) as (a & Ea & [S _] & Y & E).
    assert (HL' : length (b_n_o b') = length (b_dt b')) by congruence. assert (HP' : Forall (fun x => 0 < x) (b_n_o b')) by congruence.
    destruct (C108_entries_proof b' p r m' res' Hm HL' HP' H') as (a' & Ea' & [S' _] & Y' & E'). rewrite Ed, En in *.
    apply (factor_value _ _ _ _ HU) in Ea as [_ Ea]. apply (factor_value _ _ _ _ HU') in Ea' as [_ Ea']. exists (a' / a). split; [now apply Rdiv_lt_0_compat|]. split; [congruence|].
    set (n := length (skipn r (b_dt b))) in *.
    assert (P : forall j, (j < n)%nat -> 0 < vec_entry (skipn r (b_n_o b)) j).
    { intros j Hj. apply entry_pos; [|unfold n in Hj; rewrite !skipn_length in *; lia]. apply Forall_forall. intros x Hx. rewrite Forall_forall in HP. apply HP. rewrite <- (firstn_skipn r (b_n_o b)). apply in_or_app. now right. }
    assert (K : forall i j, (i <= j < n)%nat -> matrix_entry m' i j = a' / a * matrix_entry m i j).
    { intros i j Hij. rewrite E, E' by exact Hij. pose proof (P j ltac:(lia)). field. lra. }
    intros i j Hi Hj. destruct (Nat.le_ge_cases i j).
    - apply K. lia.
    - rewrite (Y' i j), (Y i j) by lia. apply K. lia.
  Qed.
  Lemma weighted_entry k w n i j : square w n -> (i < n)%nat -> (j < n)%nat -> matrix_entry (weighted k w) i j = k * matrix_entry w i j.
  Proof.
    intros [S1 S2] Hi Hj. unfold matrix_entry, weighted. rewrite (nth_map_lt _ w i []) by lia. rewrite (nth_map_lt _ _ j 0); [reflexivity|].
    rewrite Forall_forall in S2. rewrite S2; [exact Hj|]. apply nth_In. lia.
  Qed.
  Lemma inverse_multiple w m m' k : 0 < k -> square w (length m) -> length m' = length m -> inverse_of w m ->
    (forall i j, (i < length m)%nat -> (j < length m)%nat -> matrix_entry m' i j = k * matrix_entry m i j) -> inverse_of (weighted (/ k) w) m'.
  Proof.
    intros Hk Sw L H E i j Hi Hj. rewrite L in *. rewrite <- (H i j Hi Hj). apply sumto_ext. intros l Hl.
    rewrite (weighted_entry (/ k) w (length m)) by (assumption || lia). rewrite E by lia. field. lra.
  Qed.
  (** So the best line does not depend on the reported variances. *)
  Lemma C108_line_proof (b b' : Boot R) (p : GLSParams R RS) r m res m' res' w y g c : l_model p = true ->
    length (b_n_o b) = length (b_dt b) -> Forall (fun x => 0 < x) (b_n_o b) -> b_dt b' = b_dt b -> b_n_o b' = b_n_o b ->
    usable (skipn r (b_dt b)) (skipn r (b_v b)) (skipn r (b_n_o b)) -> usable (skipn r (b_dt b)) (skipn r (b_v b')) (skipn r (b_n_o b)) ->
    generate_covariance_matrix X b p r = (Some m, res) -> generate_covariance_matrix X b' p r = (Some m', res') ->
    square w (length m) -> inverse_of w m -> length y = length m ->
    exists k, 0 < k /\ inverse_of (weighted k w) m'
      /\ (gls_solution (weighted k w) (skipn r (b_dt b)) y g c <-> gls_solution w (skipn r (b_dt b)) y g c).
  Proof.
    intros Hm HL HP Ed En HU HU' H H' Sw HI Ly.
    destruct (C108_multiple_proof b b' p r m res m' res' Hm HL HP Ed En HU HU' H H') as (k & Hk & L & E).
    destruct (C108_entries_proof b p r m res Hm HL HP H) as (a & _ & [S _] & _).
    exists (/ k). split; [now apply Rinv_0_lt_compat|]. split; [now apply inverse_multiple with (m := m)|].
    apply C67_weights_proof; [congruence|now rewrite Ly|]. apply Rinv_neq_0_compat. lra.
  Qed.
End Generate.

(** *** An external routine that does so *)
Definition solved (dt v n_o : list R) : Res R :=
  let w := shape_of n_o dt in Ok (if Req_EM_T (products w w) 0 then 0 else Rmax 0 (products w v / products w w)).
Lemma solved_fits : fits_factor solved.
Proof.
  intros dt v n_o a L1 L2 E. unfold solved in E. set (w := shape_of n_o dt) in *. assert (LW : length w = length v) by (unfold w; rewrite shape_length; lia).
  injection E as <-. unfold best_factor. destruct (Req_EM_T (products w w) 0) as [Z|Z].
  - split; [lra|]. intros a' _. assert (N : forall x, In x w -> x = 0).
    { intros x Hx. destruct (Req_EM_T x 0) as [|N]; [assumption|]. pose proof (products_square_pos w (ex_intro _ x (conj Hx N))). lra. }
    assert (M : products w v = 0).
    { unfold products. assert (G : forall y, In y (combine w v) -> fst y = 0) by (intros [x y] Hxy; cbn; apply N; now apply in_combine_l in Hxy).
      induction (combine w v) as [|y l IH]; [reflexivity|]. cbn. rewrite (G y) by now left. rewrite IH; [ring|]. intros z Hz. apply G. now right. }
    rewrite !misfit_expand by exact LW. rewrite Z, M. lra.
  - pose proof (products_square w) as P0. assert (P : 0 < products w w) by lra. split; [apply Rmax_l|]. intros a' Ha'.
    rewrite !misfit_expand by exact LW. set (q := products w v / products w w). assert (K : products w v = q * products w w) by (unfold q; field; lra). rewrite K.
    set (s := Rmax 0 q). assert (C : (s = q /\ 0 <= q) \/ (s = 0 /\ q <= 0)) by (unfold s, Rmax; destruct (Rle_dec 0 q); [left|right]; lra).
    assert (D : 0 <= (a' - q) * (a' - q) - (s - q) * (s - q)).
    { destruct C as [[-> Hq]|[-> Hq]]; [pose proof (Rle_0_sqr (a' - q)); unfold Rsqr in *; lra|].
      replace ((a' - q) * (a' - q) - (0 - q) * (0 - q)) with (a' * (a' + 2 * (- q))) by ring. apply Rmult_le_pos; lra. }
    pose proof (Rmult_le_pos _ _ (Rlt_le _ _ P) D). lra.
Qed.
Definition solving {G Seed RS} (X : Ext R G Seed RS) : Ext R G Seed RS :=
  mkExt (x_sqrt X) (x_randints X) (x_normaltest X) (x_reblock X) (x_seed_of X) (x_seed X) solved (x_eig X) (x_cov_nearest X) (x_logdet X) (x_log2pi X) (x_pinvh X)
    (x_linregress X) (x_minimize X) (x_randn X) (x_independent X) (x_propose X) (x_mvn X).
Lemma C108_example_proof {G Seed RS} (X : Ext R G Seed RS) :
  fits_factor (x_curve_fit (solving X)) /\ usable [1; 2] [3; 5] [4; 2]
  /\ products (shape_of [4; 2] [1; 2]) [3; 5] / products (shape_of [4; 2] [1; 2]) (shape_of [4; 2] [1; 2]) = 172 / 65
  /\ forall (b : Boot R) (p : GLSParams R RS), b_dt b = [1; 2] -> b_v b = [3; 5] -> b_n_o b = [4; 2] -> l_model p = true ->
       exists m res, generate_covariance_matrix (solving X) b p 0 = (Some m, res).
Proof.
  split; [exact solved_fits|]. split; [|split].
  - repeat split; try (repeat constructor; lra). exists 3. split; [now left|lra].
  - unfold products, shape_of. cbn [combine map rsum fst snd]. field.
  - intros b p Ed Ev En Hm. unfold generate_covariance_matrix. rewrite Hm, Ed, Ev, En. cbn [skipn solving x_curve_fit solved bind].
    unfold populate_covariance_matrix, model_variance, zip_with. cbn [combine map length Nat.leb guard bind]. eexists. eexists. reflexivity.
Qed.
