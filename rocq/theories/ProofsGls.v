(** * ProofsGls: the line fitted by generalised least squares (C67) *)
From Verif Require Import Base Spec SpecFit SpecGls ModelParser ModelDiffusion Lemmas ProofsCov ProofsFit2.
From Coq Require Import Reals Lra Lia Psatz.
Open Scope nat_scope.

Lemma ones_length k : length (ones k) = k.
Proof. apply repeat_length. Qed.

Lemma bilinear_add_r w n x a b : square w n -> symmetric w -> length x = n -> length a = n -> length b = n ->
  bilinear w x (zip_with Rplus a b) = (bilinear w x a + bilinear w x b)%R.
Proof.
  intros Hw Hs Hx Ha Hb. rewrite (bilinear_sym w n) by (try assumption; rewrite zip_with_length; lia).
  rewrite bilinear_add_l by lia. rewrite !(bilinear_sym w n _ x) by assumption. reflexivity.
Qed.
Lemma bilinear_scale_r w n c x y : square w n -> symmetric w -> length x = n -> length y = n ->
  bilinear w x (map (Rmult c) y) = (c * bilinear w x y)%R.
Proof.
  intros Hw Hs Hx Hy. rewrite (bilinear_sym w n) by (try assumption; rewrite map_length; lia).
  rewrite bilinear_scale_l. rewrite (bilinear_sym w n y x) by assumption. reflexivity.
Qed.

Lemma line_information w dt a b : square w (length dt) -> symmetric w ->
  quadratic w (zip_with Rplus (map (Rmult a) dt) (map (Rmult b) (ones (length dt)))) = information w dt a b.
Proof.
  intros Hw Hs. rewrite (quadratic_add w (length dt)); try assumption; try (rewrite map_length; try rewrite ones_length; reflexivity).
  unfold information, quadratic. rewrite !bilinear_scale_l.
  rewrite !(bilinear_scale_r w (length dt)); try assumption; try (rewrite ?ones_length; reflexivity). ring.
Qed.

Lemma line_entry dt a b i : (i < length dt) ->
  vec_entry (zip_with Rplus (map (Rmult a) dt) (map (Rmult b) (ones (length dt)))) i = (a * vec_entry dt i + b)%R.
Proof.
  intros Hi. unfold vec_entry, zip_with, ones.
  rewrite (nth_map_lt _ _ i (0,0)%R) by (rewrite combine_length, !map_length, repeat_length; lia).
  rewrite combine_nth by (now rewrite !map_length, repeat_length). cbn [fst snd].
  rewrite (nth_map_lt _ dt i 0%R) by exact Hi. rewrite (nth_map_lt _ (repeat 1%R _) i 1%R) by (now rewrite repeat_length).
  rewrite nth_repeat. ring.
Qed.

Lemma information_positive w dt a b : square w (length dt) -> symmetric w -> positive_definite w -> two_times dt ->
  (a <> 0 \/ b <> 0)%R -> (0 < information w dt a b)%R.
Proof.
  intros Hw Hs Hp (s & t & Is & It & Hst) Hab. rewrite <- line_information by assumption.
  assert (L : length (zip_with Rplus (map (Rmult a) dt) (map (Rmult b) (ones (length dt)))) = length dt).
  { rewrite zip_with_length, !map_length, ones_length. lia. }
  apply Hp; [rewrite (proj1 Hw); exact L|]. rewrite L.
  apply (In_nth _ _ 0%R) in Is as (i & Hi & Ei). apply (In_nth _ _ 0%R) in It as (j & Hj & Ej).
  destruct (Req_dec (a * s + b) 0) as [Z|Z].
  - exists j. split; [exact Hj|]. rewrite line_entry by exact Hj. unfold vec_entry. rewrite Ej. intros Z2.
    assert (E : (a * (s - t) = 0)%R) by lra. apply Rmult_integral in E as [E|E]; [|lra].
    subst a. destruct Hab as [Hab|Hab]; [now apply Hab|]. apply Hab. lra.
  - exists i. split; [exact Hi|]. rewrite line_entry by exact Hi. unfold vec_entry. rewrite Ei. exact Z.
Qed.
Lemma information_nonneg w dt a b : square w (length dt) -> symmetric w -> positive_semidefinite w ->
  (0 <= information w dt a b)%R.
Proof.
  intros Hw Hs Hp. rewrite <- line_information by assumption. apply Hp.
  rewrite zip_with_length, !map_length, ones_length, (proj1 Hw). lia.
Qed.

(** The normal equations in terms of the entries of the information matrix. *)
Lemma residuals_split dt n g c : length dt = length n ->
  residuals dt n g c = zip_with Rplus (zip_with Rplus (map (Rmult g) dt) (map (Rmult c) (ones (length dt)))) (map (Rmult (-1)) n).
Proof.
  unfold residuals, zip_with, ones. revert n. induction dt as [|x dt IH]; intros [|y n] H; cbn in *; try discriminate; [reflexivity|].
  f_equal; [ring|]. apply IH. lia.
Qed.
Lemma bilinear_residuals w dt n x g c : length dt = length n -> square w (length n) -> symmetric w -> length x = length n ->
  bilinear w x (residuals dt n g c)
  = (g * bilinear w x dt + c * bilinear w x (ones (length dt)) - bilinear w x n)%R.
Proof.
  intros HL Hw Hs Hx. rewrite residuals_split by exact HL.
  assert (L1 : length (map (Rmult g) dt) = length n) by (now rewrite map_length).
  assert (L2 : length (map (Rmult c) (ones (length dt))) = length n) by (now rewrite map_length, ones_length).
  assert (L3 : length (map (Rmult (-1)) n) = length n) by (now rewrite map_length).
  rewrite !(bilinear_add_r w (length n)); try assumption; try (rewrite zip_with_length; lia).
  rewrite !(bilinear_scale_r w (length n)); try assumption; try (rewrite ?ones_length; lia). ring.
Qed.

Lemma C67_unique_proof dt n w : length dt = length n -> square w (length n) -> symmetric w ->
  positive_definite w -> two_times dt ->
  exists g c, gls_solution w dt n g c /\ forall g' c', gls_solution w dt n g' c' -> g' = g /\ c' = c.
Proof.
  intros HL Hw Hs Hp Ht.
  set (A := bilinear w dt dt). set (B := bilinear w dt (ones (length dt))).
  set (C := bilinear w (ones (length dt)) (ones (length dt))).
  set (P := bilinear w dt n). set (Q := bilinear w (ones (length dt)) n).
  assert (Hw' : square w (length dt)) by (now rewrite HL).
  assert (Lo : length (ones (length dt)) = length n) by (rewrite ones_length; exact HL).
  assert (BS : bilinear w (ones (length dt)) dt = B).
  { unfold B. apply (bilinear_sym w (length n)); assumption. }
  assert (HC : (0 < C)%R).
  { pose proof (information_positive w dt 0 1 Hw' Hs Hp Ht ltac:(right; lra)) as H. unfold information in H. fold A B C in H. lra. }
  assert (HD : (0 < A * C - B * B)%R).
  { pose proof (information_positive w dt C (- B) Hw' Hs Hp Ht ltac:(left; lra)) as H. unfold information in H. fold A B C in H.
    assert (E : (C * C * A + 2 * (C * - B) * B + - B * - B * C = C * (A * C - B * B))%R) by ring. rewrite E in H.
    destruct (Rlt_or_le 0 (A * C - B * B)) as [K|K]; [exact K|]. exfalso. nra. }
  assert (N : forall g c, gls_solution w dt n g c <-> (g * A + c * B = P /\ g * B + c * C = Q)%R).
  { intros g c. unfold gls_solution. rewrite !bilinear_residuals by assumption. rewrite BS. fold A B C P Q. split; intros [H1 H2]; split; lra. }
  exists ((P * C - Q * B) / (A * C - B * B))%R, ((A * Q - B * P) / (A * C - B * B))%R. split.
  - apply N. split; field; lra.
  - intros g' c' H. apply N in H as [H1 H2]. split; apply (Rmult_eq_reg_r (A * C - B * B)); try lra.
    + unfold Rdiv. rewrite Rmult_assoc, Rinv_l, Rmult_1_r by lra. rewrite <- H1, <- H2. ring.
    + unfold Rdiv. rewrite Rmult_assoc, Rinv_l, Rmult_1_r by lra. rewrite <- H1, <- H2. ring.
Qed.
Lemma C67_unique1_proof dt n w : length dt = length n -> square w (length n) -> symmetric w ->
  positive_definite w -> some_time dt ->
  exists g, gls_solution_no_intercept w dt n g /\ forall g', gls_solution_no_intercept w dt n g' -> g' = g.
Proof.
  intros HL Hw Hs Hp (t & It & Ht).
  assert (HA : (0 < bilinear w dt dt)%R).
  { apply (Hp dt). rewrite (proj1 Hw). exact HL. apply (In_nth _ _ 0%R) in It as (i & Hi & <-). exists i. split; assumption. }
  exists (bilinear w dt n / bilinear w dt dt)%R. unfold gls_solution_no_intercept. split.
  - rewrite bilinear_residuals by assumption. field. lra.
  - intros g'. rewrite bilinear_residuals by assumption. intros H.
    apply (Rmult_eq_reg_r (bilinear w dt dt)); [|lra]. unfold Rdiv. rewrite Rmult_assoc, Rinv_l, Rmult_1_r by lra. lra.
Qed.

Lemma on_line_residuals dt n g c : on_line dt n g c -> residuals dt n g c = map (Rmult 0) dt.
Proof.
  unfold residuals. induction 1 as [|t y dt n E F IH]; [reflexivity|]. cbn. rewrite IH. f_equal. rewrite E. ring.
Qed.
Lemma bilinear_zero w x y : bilinear w x (map (Rmult 0) y) = 0%R.
Proof.
  unfold bilinear. rewrite map_length. rewrite (sumto_ext _ _ (fun _ => 0%R)).
  - induction (length x) as [|k IH]; cbn; lra.
  - intros i Hi. rewrite (sumto_ext _ _ (fun _ => 0%R)).
    + clear. induction (length y) as [|k IH]; cbn; lra.
    + intros j Hj. unfold vec_entry. rewrite (nth_map_lt _ y j 0%R) by exact Hj. ring.
Qed.
Lemma C67_linear_proof dt n w g c : on_line dt n g c -> gls_solution w dt n g c.
Proof. intros H. unfold gls_solution. rewrite (on_line_residuals _ _ _ _ H). split; apply bilinear_zero. Qed.
Lemma C67_linear1_proof dt n w g : on_line dt n g 0 -> gls_solution_no_intercept w dt n g.
Proof. intros H. unfold gls_solution_no_intercept. rewrite (on_line_residuals _ _ _ _ H). apply bilinear_zero. Qed.

Lemma C67_gaussian_proof dt n (ld : R) w g c : length dt = length n -> square w (length n) -> symmetric w ->
  gls_solution w dt n g c ->
  exists k, forall g' c', log_likelihood dt n ld w [g'; c']
    = Ok (if Rlt_dec g' 0 then None else Some (k - 1/2 * information w dt (g' - g) (c' - c))%R).
Proof.
  intros HL Hw Hs HS. exists (- (1/2) * (ld + quadratic w (residuals dt n g c)))%R. intros g' c'.
  destruct (Rlt_dec g' 0) as [N|N].
  - now apply ll_negative.
  - rewrite ll_two by (try assumption; lra). rewrite (gls_completes w dt n g c g' c') by assumption.
    rewrite line_information by (try assumption; now rewrite HL). do 2 f_equal. field.
Qed.
Lemma C67_gaussian1_proof dt n (ld : R) w g : length dt = length n -> square w (length n) -> symmetric w ->
  gls_solution_no_intercept w dt n g ->
  exists k, forall g', log_likelihood dt n ld w [g']
    = Ok (if Rlt_dec g' 0 then None else Some (k - 1/2 * information w dt (g' - g) 0)%R).
Proof.
  intros HL Hw Hs HS. exists (- (1/2) * (ld + quadratic w (residuals dt n g 0)))%R. intros g'.
  destruct (Rlt_dec g' 0) as [N|N].
  - now apply ll_negative.
  - rewrite ll_one by (try assumption; lra). rewrite (residuals_shift1 dt n g g' HL). assert (Lr := residuals_length dt n g 0 HL).
    rewrite (quadratic_add w (length n)) by (try assumption; rewrite map_length; lia).
    rewrite (bilinear_sym w (length n)) by (try assumption; rewrite map_length; lia). rewrite bilinear_scale_l.
    unfold gls_solution_no_intercept in HS. rewrite HS.
    unfold quadratic at 2, information. rewrite bilinear_scale_l. rewrite (bilinear_scale_r w (length n)) by assumption.
    do 2 f_equal. field.
Qed.

(** When the best slope is negative, zero is the most likely admissible one. *)
Lemma C67_negative_proof dt n (ld : R) w g c : length dt = length n -> square w (length n) -> symmetric w ->
  positive_definite w -> two_times dt -> gls_solution w dt n g c -> (g < 0)%R ->
  exists c0 l0, log_likelihood dt n ld w [0%R; c0] = Ok (Some l0)
    /\ forall g' c' l', log_likelihood dt n ld w [g'; c'] = Ok (Some l') ->
         (l' <= l0)%R /\ (l' = l0 -> g' = 0%R /\ c' = c0).
Proof.
  intros HL Hw Hs Hp Ht HS Hg. destruct (C67_gaussian_proof dt n ld w g c HL Hw Hs HS) as (k & K).
  assert (Hw' : square w (length dt)) by (now rewrite HL).
  set (A := bilinear w dt dt). set (B := bilinear w dt (ones (length dt))).
  set (C := bilinear w (ones (length dt)) (ones (length dt))).
  assert (HC : (0 < C)%R).
  { pose proof (information_positive w dt 0 1 Hw' Hs Hp Ht ltac:(right; lra)) as H. unfold information in H. fold A B C in H. lra. }
  assert (HD : (0 < A * C - B * B)%R).
  { pose proof (information_positive w dt C (- B) Hw' Hs Hp Ht ltac:(left; lra)) as H. unfold information in H. fold A B C in H.
    assert (E : (C * C * A + 2 * (C * - B) * B + - B * - B * C = C * (A * C - B * B))%R) by ring. rewrite E in H.
    destruct (Rlt_or_le 0 (A * C - B * B)) as [Q|Q]; [exact Q|]. exfalso. nra. }
  (* completing the square in the intercept *)
  assert (I : forall a b, information w dt a b = (C * (b + a * B / C) * (b + a * B / C) + a * a * ((A * C - B * B) / C))%R).
  { intros a b. unfold information. fold A B C. field. lra. }
  exists (c + g * B / C)%R, (k - 1/2 * information w dt (0 - g) (c + g * B / C - c))%R. split.
  { rewrite K. destruct (Rlt_dec 0 0) as [N|N]; [lra|reflexivity]. }
  intros g' c' l' E. rewrite K in E. destruct (Rlt_dec g' 0) as [N|N]; [discriminate|]. injection E as <-.
  assert (HDC : (0 < (A * C - B * B) / C)%R) by (apply Rdiv_lt_0_compat; assumption).
  set (D := ((A * C - B * B) / C)%R) in *.
  assert (I0 : information w dt (0 - g) (c + g * B / C - c) = (g * g * D)%R).
  { rewrite I. fold D. replace (c + g * B / C - c + (0 - g) * B / C)%R with 0%R by (field; lra). ring. }
  rewrite I0. rewrite I. fold D.
  set (u := (c' - c + (g' - g) * B / C)%R).
  assert (Hu : (0 <= C * u * u)%R) by nra.
  assert (Hq : ((g' - g) * (g' - g) * D = g * g * D + (g' * (g' - 2 * g)) * D)%R) by ring.
  assert (Hm : (0 <= g' * (g' - 2 * g))%R) by nra.
  assert (HmD : (0 <= g' * (g' - 2 * g) * D)%R) by nra.
  split; [lra|]. intros E.
  assert (Z1 : (C * u * u = 0)%R) by lra. assert (Z2 : (g' * (g' - 2 * g) * D = 0)%R) by lra.
  apply Rmult_integral in Z2 as [Z2|Z2]; [|lra]. apply Rmult_integral in Z2 as [Z2|Z2]; [|lra].
  split; [exact Z2|]. apply Rmult_integral in Z1 as [Z1|Z1].
  + apply Rmult_integral in Z1 as [Z1|Z1]; [lra|]. unfold u in Z1. rewrite Z2 in Z1.
    replace ((0 - g) * B / C)%R with (- (g * B / C))%R in Z1 by (field; lra). lra.
  + unfold u in Z1. rewrite Z2 in Z1.
    replace ((0 - g) * B / C)%R with (- (g * B / C))%R in Z1 by (field; lra). lra.
Qed.

(** Multiplying all weights by a constant, adding a line to the data. *)
Lemma weighted_bilinear k w x y n : square w n -> length x = n -> length y = n ->
  bilinear (weighted k w) x y = (k * bilinear w x y)%R.
Proof.
  intros [S1 S2] Hx Hy. unfold bilinear. rewrite <- sumto_scale. apply sumto_ext. intros i Hi. rewrite <- sumto_scale. apply sumto_ext.
  intros j Hj. unfold matrix_entry, weighted. rewrite (nth_map_lt _ w i []) by lia.
  rewrite (nth_map_lt _ (nth i w []) j 0%R); [ring|].
  rewrite Forall_forall in S2. rewrite (S2 (nth i w [])); [lia|]. apply nth_In. lia.
Qed.
Lemma C67_weights_proof dt n w k g c : length dt = length n -> square w (length n) -> k <> 0%R ->
  (gls_solution (weighted k w) dt n g c <-> gls_solution w dt n g c).
Proof.
  intros HL Hw Hk. unfold gls_solution. assert (Lr := residuals_length dt n g c HL).
  rewrite !(weighted_bilinear k w _ _ (length n)); try assumption; try (rewrite ?ones_length; exact HL).
  split; intros [H1 H2]; split; try (rewrite H1; ring); try (rewrite H2; ring);
    [apply Rmult_integral in H1 as [?|?]|apply Rmult_integral in H2 as [?|?]]; try assumption; contradiction.
Qed.
Lemma C67_add_line_proof dt n w a d g c : length dt = length n ->
  (gls_solution w dt (plus_line a d dt n) (g + a) (c + d) <-> gls_solution w dt n g c).
Proof.
  intros HL. assert (E : residuals dt (plus_line a d dt n) (g + a) (c + d) = residuals dt n g c).
  { unfold residuals, plus_line. revert n HL. induction dt as [|t dt IH]; intros [|y n] HL; cbn in *; try discriminate; [reflexivity|].
    f_equal; [ring|]. apply IH. lia. }
  unfold gls_solution. rewrite E. reflexivity.
Qed.

Lemma C67_example_proof : on_line [1;2;3]%R [5;7;9]%R 2 3 /\ two_times [1;2;3]%R
  /\ positive_definite id2 /\ gls_solution id2 [1;2]%R [4;3]%R (-1) 5 /\ two_times [1;2]%R.
Proof.
  split. { repeat constructor; lra. }
  split. { exists 1%R, 2%R. repeat split; [now left|right; now left|lra]. }
  split; [exact (proj1 (proj2 C54_example_proof))|].
  split. { apply C67_linear_proof. repeat constructor; lra. }
  exists 1%R, 2%R. repeat split; [now left|right; now left|lra].
Qed.
