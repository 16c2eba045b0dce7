(** * ProofsMarkov: the fitted line over many repetitions of the data (C87) *)
From Verif Require Import Base Spec SpecFit SpecGls ModelParser ModelDiffusion Lemmas ProofsCov ProofsFit2 ProofsGls SpecMarkov.
From Coq Require Import Reals Lra Lia Psatz.
Open Scope nat_scope.

Section Repeated.
  Context {E : Type} (es : list E) (wt : E -> R).
  Let M := mean_over es wt.
  Lemma mean_plus f g : M (fun e => f e + g e)%R = (M f + M g)%R.
  Proof. unfold M, mean_over. rewrite <- rsum_map_plus. f_equal. apply map_ext. intros e. ring. Qed.
  Lemma mean_scale c f : M (fun e => c * f e)%R = (c * M f)%R.
  Proof. unfold M, mean_over. rewrite <- rsum_map_scale. f_equal. apply map_ext. intros e. ring. Qed.
  Lemma mean_const c : rsum (map wt es) = 1%R -> M (fun _ => c) = c.
  Proof. intros H. unfold M, mean_over. rewrite (map_ext _ (fun e => c * wt e)%R) by (intros; ring). rewrite rsum_map_scale, H. ring. Qed.
  Lemma mean_ext f g : (forall e, In e es -> f e = g e) -> M f = M g.
  Proof. intros H. unfold M, mean_over. f_equal. apply map_ext_in. intros e He. now rewrite H. Qed.
  Lemma mean_sumto n (f : nat -> E -> R) : M (fun e => sumto n (fun i => f i e)) = sumto n (fun i => M (f i)).
  Proof.
    induction n as [|n IH]; cbn [sumto].
    - unfold M, mean_over. rewrite (map_ext _ (fun _ => 0%R)) by (intros; ring). rewrite rsum_const. ring.
    - rewrite mean_plus, IH. reflexivity.
  Qed.
  Lemma mean_square f : (forall e, In e es -> (0 <= wt e)%R) -> (0 <= M (fun e => f e * f e)%R)%R.
  Proof.
    intros H. unfold M, mean_over. induction es as [|e l IH]; cbn [map]; [cbn; lra|]. rewrite rsum_cons.
    pose proof (H e (or_introl eq_refl)). assert (0 <= rsum (map (fun e => wt e * (f e * f e)) l))%R by (apply IH; intros; apply H; now right). nra.
  Qed.
  Context (K : nat) (y : E -> list R) (mu : list R) (S : list (list R)).
  Hypothesis LK : length mu = K.
  Hypothesis HC : centred_on es wt y mu.
  Hypothesis HS : scattered es wt y mu S.
  Let d e i := (vec_entry (y e) i - vec_entry mu i)%R.
  Let s := matrix_entry S.
  Lemma covariances a b : M (fun e => sumto K (fun i => a i * d e i) * sumto K (fun j => b j * d e j))%R = sumto K (fun i => sumto K (fun j => a i * b j * s i j))%R.
  Proof.
    rewrite (mean_ext _ (fun e => sumto K (fun i => sumto K (fun j => a i * b j * (d e i * d e j))))%R).
    2:{ intros e He. rewrite sumto_mult. apply sumto_ext. intros i Hi. apply sumto_ext. intros j Hj. ring. }
    rewrite mean_sumto. apply sumto_ext. intros i Hi. rewrite mean_sumto. apply sumto_ext. intros j Hj.
    rewrite mean_scale. f_equal. apply HS; now rewrite LK.
  Qed.
  Lemma covariance_symmetric i j : i < K -> j < K -> s i j = s j i.
  Proof.
    intros Hi Hj. unfold s. destruct HS as [_ H]. rewrite <- (H i j), <- (H j i) by (now rewrite LK). apply mean_ext. intros e _. ring.
  Qed.
  (** ** The weights are the inverse of the covariance matrix *)
  Context (w : list (list R)).
  Let v := matrix_entry w.
  Hypothesis Hw : square w K.
  Hypothesis Sw : symmetric w.
  Hypothesis Iw : inverse_of w S.
  Lemma w_sym i j : i < K -> j < K -> v i j = v j i.
  Proof. intros Hi Hj. apply Sw; rewrite (proj1 Hw); assumption. Qed.
  Lemma inverse_right i j : i < K -> j < K -> sumto K (fun k => s i k * v k j)%R = (if Nat.eqb i j then 1 else 0)%R.
  Proof.
    intros Hi Hj. rewrite (sumto_ext _ _ (fun k => v j k * s k i)%R).
    2:{ intros k Hk. rewrite covariance_symmetric, w_sym by assumption. ring. }
    assert (LS : length S = K) by (rewrite (proj1 HS); exact LK). specialize (Iw j i). rewrite LS in Iw. rewrite Nat.eqb_sym. now apply Iw.
  Qed.
  Definition combo (x : nat -> R) (i : nat) : R := sumto K (fun k => v i k * x k)%R.
  (** S (W x) = x *)
  Lemma undo x a : sumto K (fun i => sumto K (fun j => a i * combo x j * s i j))%R = sumto K (fun i => a i * x i)%R.
  Proof.
    apply sumto_ext. intros i Hi. rewrite (sumto_ext _ _ (fun j => a i * (s i j * combo x j))%R) by (intros; ring). rewrite sumto_scale. f_equal.
    unfold combo. rewrite (sumto_ext _ _ (fun j => sumto K (fun k => s i j * v j k * x k))%R).
    2:{ intros j Hj. rewrite <- sumto_scale. apply sumto_ext. intros k Hk. ring. }
    rewrite sumto_swap. rewrite (sumto_ext _ _ (fun k => (if Nat.eqb i k then 1 else 0) * x k)%R).
    2:{ intros k Hk. rewrite sumto_scale_r. now rewrite inverse_right. }
    rewrite (sumto_one K i); [rewrite Nat.eqb_refl; ring|exact Hi|]. intros k Hk Hn. destruct (Nat.eqb_spec i k); [congruence|ring].
  Qed.
  Lemma bilinear_combo x z : length x = K -> length z = K -> bilinear w x z = sumto K (fun i => combo (vec_entry x) i * vec_entry z i)%R.
  Proof.
    intros Lx Lz. unfold bilinear, combo. rewrite Lx, Lz, sumto_swap. apply sumto_ext. intros j Hj. rewrite <- sumto_scale_r. apply sumto_ext. intros i Hi.
    fold v. rewrite (w_sym i j) by assumption. ring.
  Qed.
End Repeated.

Lemma first_unknown A B C x z : (0 < A * C - B * B -> A * x + B * z = 1 -> B * x + C * z = 0 -> x = C / (A * C - B * B))%R.
Proof.
  intros D H1 H2. apply (Rmult_eq_reg_r (A * C - B * B)%R); [|lra]. unfold Rdiv. rewrite Rmult_assoc, Rinv_l, Rmult_1_r by lra.
  assert (C * (A * x + B * z) - B * (B * x + C * z) = C)%R by (rewrite H1, H2; ring). lra.
Qed.
Section Lines.
  Context {E : Type} (es : list E) (wt : E -> R) (dt : list R) (y : E -> list R) (g0 c0 : R).
  Let mu := line_points dt g0 c0.
  Let M := mean_over es wt.
  Let K := length dt.
  Lemma mu_length : length mu = K. Proof. apply map_length. Qed.
  Lemma mu_entry i : i < K -> vec_entry mu i = (g0 * vec_entry dt i + c0)%R.
  Proof. intros Hi. unfold vec_entry, mu, line_points. rewrite (nth_map_lt _ dt i 0%R) by exact Hi. reflexivity. Qed.
  Hypothesis HC : centred_on es wt y mu.
  Context (w : list (list R)).
  Hypothesis Hw : square w K.
  Hypothesis Sw : symmetric w.
  Hypothesis Pw : positive_definite w.
  Let one := ones K.
  Let A := bilinear w dt dt.
  Let B := bilinear w dt one.
  Let C := bilinear w one one.
  Let d e i := (vec_entry (y e) i - vec_entry mu i)%R.
  Let p x e := sumto K (fun i => combo K w (vec_entry x) i * d e i)%R.
  Lemma data_length e : In e es -> length (y e) = K.
  Proof. intros He. destruct HC as (_ & H & _). rewrite (H e He). apply mu_length. Qed.
  Lemma one_length : length one = K. Proof. apply ones_length. Qed.
  (** The normal equations for the deviations from the true line. *)
  Lemma on_mu x : length x = K -> bilinear w x mu = (g0 * bilinear w x dt + c0 * bilinear w x one)%R.
  Proof.
    intros Lx. assert (R0 : gls_solution w dt mu g0 c0 /\ bilinear w x (residuals dt mu g0 c0) = 0%R).
    { assert (OL : on_line dt mu g0 c0). { unfold mu, line_points, on_line. clear. induction dt as [|t l IH]; constructor; [reflexivity|exact IH]. }
      split; [now apply C67_linear_proof|]. rewrite (on_line_residuals _ _ _ _ OL). apply bilinear_zero. }
    destruct R0 as [_ R0]. rewrite (bilinear_residuals w dt mu x g0 c0) in R0; [|symmetry; apply mu_length|rewrite mu_length; exact Hw|exact Sw|now rewrite mu_length].
    unfold one, K. lra.
  Qed.
  Lemma deviation x e : In e es -> length x = K -> p x e = (bilinear w x (y e) - (g0 * bilinear w x dt + c0 * bilinear w x one))%R.
  Proof.
    intros He Lx. rewrite <- on_mu by exact Lx. rewrite !(bilinear_combo K w Hw Sw) by (first [exact Lx|apply data_length; exact He|apply mu_length]).
    rewrite <- sumto_minus. apply sumto_ext. intros i Hi. unfold d. ring.
  Qed.
  Lemma deviation_mean x : length x = K -> M (p x) = 0%R.
  Proof.
    intros Lx. unfold M, p. rewrite (mean_sumto es wt K (fun i e => combo K w (vec_entry x) i * d e i)%R). apply sumto_zero. intros i Hi. rewrite mean_scale. unfold d.
    destruct HC as (H1 & _ & H2). rewrite (mean_ext es wt _ (fun e => vec_entry (y e) i + (- vec_entry mu i))%R) by (intros; ring).
    rewrite mean_plus, mean_const by exact H1. rewrite H2 by (rewrite mu_length; exact Hi). ring.
  Qed.
  Lemma normal_equations g c e : In e es -> gls_solution w dt (y e) g c ->
    ((g - g0) * A + (c - c0) * B = p dt e /\ (g - g0) * B + (c - c0) * C = p one e)%R.
  Proof.
    intros He [H1 H2]. rewrite !deviation by (first [exact He|reflexivity|apply one_length]).
    rewrite bilinear_residuals in H1, H2; rewrite ?(data_length e He); try assumption; try reflexivity; try apply one_length.
    assert (BS : bilinear w one dt = B) by (apply (bilinear_sym w K); first [assumption|apply one_length|reflexivity]).
    fold K one in H1, H2. fold A B in H1. fold C in H2. rewrite BS in H2. rewrite BS. fold A B C. lra.
  Qed.
  Lemma determinant : two_times dt -> (0 < C /\ 0 < A * C - B * B)%R.
  Proof.
    intros Ht.
    assert (HC0 : (0 < C)%R).
    { pose proof (information_positive w dt 0 1 Hw Sw Pw Ht ltac:(right; lra)) as H. unfold information in H. fold A B C in H. fold K one in H. fold A B C in H. lra. }
    split; [exact HC0|].
    pose proof (information_positive w dt C (- B) Hw Sw Pw Ht ltac:(left; lra)) as H. unfold information in H. fold K one in H. fold A B C in H.
    assert (EQ : (C * C * A + 2 * (C * - B) * B + - B * - B * C = C * (A * C - B * B))%R) by ring. rewrite EQ in H.
    destruct (Rlt_or_le 0 (A * C - B * B)) as [Q|Q]; [exact Q|]. exfalso. nra.
  Qed.
  Context (g c : E -> R).
  Hypothesis Hg : forall e, In e es -> gls_solution w dt (y e) (g e) (c e).
  Lemma slope_form e : two_times dt -> In e es -> (g e - g0 = (C * p dt e - B * p one e) / (A * C - B * B) /\ c e - c0 = (A * p one e - B * p dt e) / (A * C - B * B))%R.
  Proof.
    intros Ht He. destruct (determinant Ht) as [_ D]. destruct (normal_equations _ _ e He (Hg e He)) as [N1 N2]. rewrite <- N1, <- N2. split; field; lra.
  Qed.
  Lemma C87_unbiased_proof : two_times dt -> M g = g0 /\ M c = c0.
  Proof.
    intros Ht. destruct (determinant Ht) as [_ D]. destruct HC as (H1 & _). split.
    - unfold M; rewrite (mean_ext es wt g (fun e => (C / (A * C - B * B)) * p dt e + ((- B / (A * C - B * B)) * p one e + g0))%R).
      2:{ intros e He. destruct (slope_form e Ht He) as [Q _]. unfold Rdiv in *. lra. }
      rewrite !mean_plus, !mean_scale, mean_const by exact H1. fold M. rewrite !deviation_mean by (first [reflexivity|apply one_length]). ring.
    - unfold M; rewrite (mean_ext es wt c (fun e => (A / (A * C - B * B)) * p one e + ((- B / (A * C - B * B)) * p dt e + c0))%R).
      2:{ intros e He. destruct (slope_form e Ht He) as [_ Q]. unfold Rdiv in *. lra. }
      rewrite !mean_plus, !mean_scale, mean_const by exact H1. fold M. rewrite !deviation_mean by (first [reflexivity|apply one_length]). ring.
  Qed.
  (** Weights that are the inverse of the covariance matrix. *)
  Context (S : list (list R)).
  Hypothesis HS : scattered es wt y mu S.
  Hypothesis Iw : inverse_of w S.
  Lemma products x z : length x = K -> length z = K -> M (fun e => p x e * p z e)%R = bilinear w x z.
  Proof.
    intros Lx Lz. unfold p. rewrite (covariances es wt K y mu S mu_length HS).
    rewrite (undo es wt K y mu S mu_length HS w Hw Sw Iw). now rewrite (bilinear_combo K w Hw Sw).
  Qed.
  Lemma C87_spread_proof : two_times dt -> let cov f h a b := M (fun e => (f e - a) * (h e - b))%R in
    (A * cov g g g0 g0 + B * cov g c g0 c0 = 1 /\ B * cov g g g0 g0 + C * cov g c g0 c0 = 0
     /\ A * cov g c g0 c0 + B * cov c c c0 c0 = 0 /\ B * cov g c g0 c0 + C * cov c c c0 c0 = 1)%R.
  Proof.
    intros Ht cov. destruct (determinant Ht) as [HC0 D]. set (Q := (A * C - B * B)%R) in *.
    assert (BS : bilinear w one dt = B) by (apply (bilinear_sym w K); first [assumption|apply one_length|reflexivity]).
    assert (P1 : M (fun e => p dt e * p dt e)%R = A) by (apply products; reflexivity).
    assert (P2 : M (fun e => p dt e * p one e)%R = B) by (apply products; [reflexivity|apply one_length]).
    assert (P3 : M (fun e => p one e * p one e)%R = C) by (apply products; apply one_length).
    assert (X : forall a1 b1 a2 b2, M (fun e => (a1 * p dt e + b1 * p one e) * (a2 * p dt e + b2 * p one e))%R = (a1 * a2 * A + (a1 * b2 + a2 * b1) * B + b1 * b2 * C)%R).
    { intros a1 b1 a2 b2. rewrite <- P1, <- P2, <- P3. unfold M. rewrite <- !mean_scale, <- !mean_plus. apply mean_ext. intros e _. ring. }
    assert (GG : cov g g g0 g0 = (C / Q)%R).
    { unfold cov, M. rewrite (mean_ext es wt _ (fun e => ((C / Q) * p dt e + (- B / Q) * p one e) * ((C / Q) * p dt e + (- B / Q) * p one e))%R).
      2:{ intros e He. destruct (slope_form e Ht He) as [-> _]. fold Q. field. lra. }
      fold M. rewrite X. unfold Q. field. fold Q. lra. }
    assert (GC : cov g c g0 c0 = (- B / Q)%R).
    { unfold cov, M. rewrite (mean_ext es wt _ (fun e => ((C / Q) * p dt e + (- B / Q) * p one e) * ((- B / Q) * p dt e + (A / Q) * p one e))%R).
      2:{ intros e He. destruct (slope_form e Ht He) as [-> ->]. fold Q. field. lra. }
      fold M. rewrite X. unfold Q. field. fold Q. lra. }
    assert (CC : cov c c c0 c0 = (A / Q)%R).
    { unfold cov, M. rewrite (mean_ext es wt _ (fun e => ((- B / Q) * p dt e + (A / Q) * p one e) * ((- B / Q) * p dt e + (A / Q) * p one e))%R).
      2:{ intros e He. destruct (slope_form e Ht He) as [_ ->]. fold Q. field. lra. }
      fold M. rewrite X. unfold Q. field. fold Q. lra. }
    rewrite GG, GC, CC. unfold Q. repeat split; field; fold Q; lra.
  Qed.
  (** Any other linear estimate. *)
  Lemma estimate_sums a : finds_slope a dt -> sumto K (fun i => vec_entry a i * vec_entry dt i)%R = 1%R /\ sumto K (vec_entry a) = 0%R.
  Proof.
    intros H. unfold finds_slope, estimate, line_points in H.
    assert (F : forall g1 c1, (g1 * sumto K (fun i => vec_entry a i * vec_entry dt i) + c1 * sumto K (vec_entry a) = g1)%R).
    { intros g1 c1. rewrite <- (H g1 c1) at 2. rewrite map_length. fold K. rewrite <- !sumto_scale, <- sumto_plus. apply sumto_ext. intros i Hi.
      unfold vec_entry. rewrite (nth_map_lt _ dt i 0%R) by exact Hi. ring. }
    pose proof (F 1%R 0%R). pose proof (F 0%R 1%R). lra.
  Qed.
  Lemma C87_minimum_proof a : two_times dt -> (forall e, In e es -> (0 <= wt e)%R) -> finds_slope a dt ->
    M (fun e => estimate a (y e)) = g0 /\ (M (fun e => (g e - g0) * (g e - g0)) <= M (fun e => (estimate a (y e) - g0) * (estimate a (y e) - g0)))%R.
  Proof.
    intros Ht Hp Ha. destruct (determinant Ht) as [HC0 D]. set (Q := (A * C - B * B)%R) in *. destruct (estimate_sums a Ha) as [S1 S2].
    set (q := fun e => sumto K (fun i => vec_entry a i * d e i)%R).
    assert (Eq : forall e, In e es -> (estimate a (y e) = q e + g0)%R).
    { intros e He. unfold estimate, q. rewrite (data_length e He). pose proof (Ha g0 c0) as H0. fold mu in H0. unfold estimate in H0. rewrite mu_length in H0. rewrite <- H0, <- sumto_plus.
      apply sumto_ext. intros i Hi. unfold d. ring. }
    assert (Mq : M q = 0%R).
    { unfold M, q. rewrite (mean_sumto es wt K (fun i e => vec_entry a i * d e i)%R). apply sumto_zero. intros i Hi. rewrite mean_scale. unfold d.
      destruct HC as (H1 & _ & H2). rewrite (mean_ext es wt _ (fun e => vec_entry (y e) i + (- vec_entry mu i))%R) by (intros; ring).
      rewrite mean_plus, mean_const by exact H1. rewrite H2 by (rewrite mu_length; exact Hi). ring. }
    split.
    - unfold M in *. rewrite (mean_ext es wt _ (fun e => q e + g0)%R Eq), mean_plus. destruct HC as (H1 & _). rewrite Mq, mean_const by exact H1. ring.
    - assert (X : forall x, length x = K -> M (fun e => q e * p x e)%R = sumto K (fun i => vec_entry a i * vec_entry x i)%R).
      { intros x Lx. unfold q, p. rewrite (covariances es wt K y mu S mu_length HS). apply (undo es wt K y mu S mu_length HS w Hw Sw Iw). }
      pose proof (X dt eq_refl) as X1. pose proof (X one one_length) as X2. rewrite S1 in X1.
      assert (O : sumto K (fun i => vec_entry a i * vec_entry one i)%R = 0%R).
      { rewrite <- S2. apply sumto_ext. intros i Hi. unfold one, ones, vec_entry. rewrite (nth_indep (repeat 1%R K) 0%R 1%R) by (now rewrite repeat_length). rewrite nth_repeat. ring. }
      rewrite O in X2.
      destruct (C87_spread_proof Ht) as (G1 & G2 & _). set (vg := M (fun e => (g e - g0) * (g e - g0))%R) in *.
      assert (VG : vg = (C / Q)%R) by (apply (first_unknown A B C vg _ D G1 G2)).
      assert (Cross : M (fun e => q e * (g e - g0))%R = vg).
      { unfold M. rewrite (mean_ext es wt _ (fun e => (C / Q) * (q e * p dt e) + (- B / Q) * (q e * p one e))%R).
        2:{ intros e He. destruct (slope_form e Ht He) as [-> _]. fold Q. field. lra. }
        rewrite mean_plus, !mean_scale. fold M. rewrite X1, X2, VG. field. lra. }
      assert (N := mean_square es wt (fun e => q e - (g e - g0))%R Hp). fold M in N.
      assert (EX : M (fun e => (q e - (g e - g0)) * (q e - (g e - g0)))%R = (M (fun e => q e * q e)%R + (-2 * M (fun e => q e * (g e - g0))%R + vg))%R).
      { unfold vg, M. rewrite <- mean_scale, <- !mean_plus. apply mean_ext. intros e _. ring. }
      unfold M. rewrite (mean_ext es wt (fun e => (estimate a (y e) - g0) * (estimate a (y e) - g0))%R (fun e => q e * q e)%R).
      2:{ intros e He. rewrite (Eq e He). ring. }
      unfold M in *. rewrite EX, Cross in N. lra.
  Qed.
End Lines.

(** ** Lines through the origin *)
Section Origin.
  Context {E : Type} (es : list E) (wt : E -> R) (dt : list R) (y : E -> list R) (g0 : R).
  Let mu := line_points dt g0 0.
  Let M := mean_over es wt.
  Let K := length dt.
  Hypothesis HC : centred_on es wt y mu.
  Context (w : list (list R)).
  Hypothesis Hw : square w K.
  Hypothesis Sw : symmetric w.
  Hypothesis Pw : positive_definite w.
  Hypothesis Ht : some_time dt.
  Let A := bilinear w dt dt.
  Let d e i := (vec_entry (y e) i - vec_entry mu i)%R.
  Let p e := sumto K (fun i => combo K w (vec_entry dt) i * d e i)%R.
  Context (g : E -> R).
  Hypothesis Hg : forall e, In e es -> gls_solution_no_intercept w dt (y e) (g e).
  Lemma origin_positive : (0 < A)%R.
  Proof.
    destruct Ht as (t & It & Hn). apply (Pw dt). rewrite (proj1 Hw). reflexivity. apply (In_nth _ _ 0%R) in It as (i & Hi & <-). exists i. split; assumption.
  Qed.
  Lemma origin_form e : In e es -> (g e - g0 = p e / A)%R.
  Proof.
    intros He. pose proof origin_positive as HA. pose proof (Hg e He) as H. unfold gls_solution_no_intercept in H.
    assert (LE : length (y e) = K) by (apply (data_length es wt dt y g0 0 HC e He)).
    rewrite bilinear_residuals in H; rewrite ?LE; try assumption; try reflexivity.
    pose proof (deviation es wt dt y g0 0 HC w Hw Sw dt e He eq_refl) as D.
    assert (PE : p e = ((g e - g0) * A)%R) by (etransitivity; [exact D|unfold A; lra]). rewrite PE. field. lra.
  Qed.
  Lemma C87_unbiased1_proof : M g = g0.
  Proof.
    pose proof origin_positive as HA. destruct HC as (H1 & _).
    unfold M. rewrite (mean_ext es wt g (fun e => / A * p e + g0)%R). 2:{ intros e He. pose proof (origin_form e He) as Q. unfold Rdiv in Q. lra. }
    rewrite mean_plus, mean_scale, mean_const by exact H1.
    pose proof (deviation_mean es wt dt y g0 0 HC w dt eq_refl) as Z. change (mean_over es wt (fun e => p e) = 0%R) in Z. change (/ A * mean_over es wt (fun e => p e) + g0 = g0)%R. rewrite Z. ring.
  Qed.
  Context (S : list (list R)).
  Hypothesis HS : scattered es wt y mu S.
  Hypothesis Iw : inverse_of w S.
  Lemma C87_spread1_proof : (A * M (fun e => (g e - g0) * (g e - g0)) = 1)%R.
  Proof.
    pose proof origin_positive as HA.
    pose proof (products es wt dt y g0 0 w Hw Sw S HS Iw dt dt eq_refl eq_refl) as P. change (mean_over es wt (fun e => p e * p e)%R = A) in P.
    unfold M. rewrite (mean_ext es wt _ (fun e => / A * / A * (p e * p e))%R). 2:{ intros e He. rewrite (origin_form e He). unfold Rdiv. ring. }
    rewrite mean_scale, P. field. lra.
  Qed.
  Lemma C87_minimum1_proof a : (forall e, In e es -> (0 <= wt e)%R) -> finds_slope_origin a dt ->
    M (fun e => estimate a (y e)) = g0 /\ (M (fun e => (g e - g0) * (g e - g0)) <= M (fun e => (estimate a (y e) - g0) * (estimate a (y e) - g0)))%R.
  Proof.
    intros Hp Ha. pose proof origin_positive as HA. pose proof C87_spread1_proof as VG. unfold M in *.
    assert (ML : length mu = K) by (apply mu_length).
    set (q := fun e => sumto K (fun i => vec_entry a i * d e i)%R).
    assert (Eq : forall e, In e es -> (estimate a (y e) = q e + g0)%R).
    { intros e He. unfold estimate, q. rewrite (data_length es wt dt y g0 0 HC e He). fold K. pose proof (Ha g0) as H0. fold mu in H0. unfold estimate in H0. rewrite ML in H0. rewrite <- H0, <- sumto_plus.
      apply sumto_ext. intros i Hi. unfold d. ring. }
    assert (Mq : mean_over es wt q = 0%R).
    { unfold q. rewrite (mean_sumto es wt K (fun i e => vec_entry a i * d e i)%R). apply sumto_zero. intros i Hi. rewrite mean_scale. unfold d.
      destruct HC as (H1 & _ & H2). rewrite (mean_ext es wt _ (fun e => vec_entry (y e) i + (- vec_entry mu i))%R) by (intros; ring).
      rewrite mean_plus, mean_const by exact H1. rewrite H2 by (rewrite ML; exact Hi). ring. }
    split.
    - rewrite (mean_ext es wt _ (fun e => q e + g0)%R Eq), mean_plus. destruct HC as (H1 & _). rewrite Mq, mean_const by exact H1. ring.
    - assert (S1 : sumto K (fun i => vec_entry a i * vec_entry dt i)%R = 1%R).
      { rewrite <- (Ha 1%R). unfold estimate, line_points. rewrite map_length. apply sumto_ext. intros i Hi. unfold vec_entry. rewrite (nth_map_lt _ dt i 0%R) by exact Hi. ring. }
      assert (X1 : mean_over es wt (fun e => q e * p e)%R = 1%R).
      { rewrite <- S1. unfold q, p. rewrite (covariances es wt K y mu S ML HS). apply (undo es wt K y mu S ML HS w Hw Sw Iw). }
      set (vg := mean_over es wt (fun e => (g e - g0) * (g e - g0))%R) in *.
      assert (Cross : mean_over es wt (fun e => q e * (g e - g0))%R = vg).
      { rewrite (mean_ext es wt _ (fun e => / A * (q e * p e))%R). 2:{ intros e He. rewrite (origin_form e He). unfold Rdiv. ring. }
        rewrite mean_scale, X1. apply (Rmult_eq_reg_l A); [|lra]. rewrite VG. field. lra. }
      assert (N := mean_square es wt (fun e => q e - (g e - g0))%R Hp).
      assert (EX : mean_over es wt (fun e => (q e - (g e - g0)) * (q e - (g e - g0)))%R = (mean_over es wt (fun e => q e * q e)%R + (-2 * mean_over es wt (fun e => q e * (g e - g0))%R + vg))%R).
      { unfold vg. rewrite <- mean_scale, <- !mean_plus. apply mean_ext. intros e _. ring. }
      rewrite (mean_ext es wt (fun e => (estimate a (y e) - g0) * (estimate a (y e) - g0))%R (fun e => q e * q e)%R).
      2:{ intros e He. rewrite (Eq e He). ring. }
      cbv beta in N. rewrite EX, Cross in N. lra.
  Qed.
End Origin.

(** ** The most likely parameters *)
Lemma most_likely_gls dt n (ld : R) w g c : length dt = length n -> square w (length n) -> symmetric w -> positive_definite w -> two_times dt ->
  (0 < g)%R -> (most_likely (log_likelihood dt n ld w) [g; c] <-> gls_solution w dt n g c).
Proof.
  intros HL Hw Hs Hp Ht Hg. assert (Hw' : square w (length dt)) by (now rewrite HL). split.
  - intros (l & E & HM). destruct (C67_unique_proof dt n w HL Hw Hs Hp Ht) as (g1 & c1 & G1 & _).
    destruct (Rlt_or_le g1 0) as [N|N].
    + exfalso. destruct (C67_negative_proof dt n ld w g1 c1 HL Hw Hs Hp Ht G1 N) as (c2 & l2 & E2 & M2).
      destruct (M2 g c l E) as [LE EQ]. pose proof (HM [0%R; c2] l2 eq_refl E2). destruct (EQ ltac:(lra)). lra.
    + destruct (C67_gaussian_proof dt n ld w g1 c1 HL Hw Hs G1) as (k & HK).
      assert (E1 : log_likelihood dt n ld w [g1; c1] = Ok (Some k)).
      { rewrite HK. destruct (Rlt_dec g1 0); [lra|]. do 2 f_equal. unfold information. ring. }
      pose proof (HM [g1; c1] k eq_refl E1) as L. rewrite HK in E. destruct (Rlt_dec g 0); [lra|]. injection E as <-.
      destruct (Req_dec (g - g1) 0) as [Z1|Z1].
      * destruct (Req_dec (c - c1) 0) as [Z2|Z2].
        -- replace g with g1 by lra. replace c with c1 by lra. exact G1.
        -- pose proof (information_positive w dt (g - g1) (c - c1) Hw' Hs Hp Ht (or_intror Z2)). lra.
      * pose proof (information_positive w dt (g - g1) (c - c1) Hw' Hs Hp Ht (or_introl Z1)). lra.
  - intros G. destruct (C67_gaussian_proof dt n ld w g c HL Hw Hs G) as (k & HK). exists k. split.
    { rewrite HK. destruct (Rlt_dec g 0); [lra|]. do 2 f_equal. unfold information. ring. }
    intros th l' Lth E. destruct th as [|g' [|c' [|? ?]]]; try discriminate Lth. rewrite HK in E. destruct (Rlt_dec g' 0); [discriminate|]. injection E as <-.
    destruct (Req_dec (g' - g) 0) as [Z1|Z1].
    + destruct (Req_dec (c' - c) 0) as [Z2|Z2].
      * rewrite Z1, Z2. unfold information. lra.
      * pose proof (information_positive w dt (g' - g) (c' - c) Hw' Hs Hp Ht (or_intror Z2)). lra.
    + pose proof (information_positive w dt (g' - g) (c' - c) Hw' Hs Hp Ht (or_introl Z1)). lra.
Qed.
Lemma most_likely_gls1 dt n (ld : R) w g : length dt = length n -> square w (length n) -> symmetric w -> positive_definite w -> some_time dt ->
  (0 < g)%R -> most_likely (log_likelihood dt n ld w) [g] -> gls_solution_no_intercept w dt n g.
Proof.
  intros HL Hw Hs Hp Ht Hg (l & E & HM). destruct (C67_unique1_proof dt n w HL Hw Hs Hp Ht) as (g1 & G1 & _).
  destruct (C67_gaussian1_proof dt n ld w g1 HL Hw Hs G1) as (k & HK).
  assert (HA : (0 < bilinear w dt dt)%R).
  { destruct Ht as (t & It & Hn). apply (Hp dt). rewrite (proj1 Hw). exact HL. apply (In_nth _ _ 0%R) in It as (i & Hi & <-). exists i. split; assumption. }
  assert (I : forall a, information w dt a 0 = (a * a * bilinear w dt dt)%R) by (intros; unfold information; ring).
  pose proof E as E'. rewrite HK in E'. destruct (Rlt_dec g 0); [lra|]. injection E' as <-. rewrite I in HM.
  destruct (Rlt_or_le g1 0) as [N|N].
  - exfalso. assert (E0 : log_likelihood dt n ld w [0%R] = Ok (Some (k - 1/2 * ((0 - g1) * (0 - g1) * bilinear w dt dt))%R)).
    { rewrite HK, I. destruct (Rlt_dec 0 0); [lra|reflexivity]. }
    pose proof (HM [0%R] _ eq_refl E0) as L. assert ((g - g1) * (g - g1) * bilinear w dt dt <= (0 - g1) * (0 - g1) * bilinear w dt dt)%R as L' by lra.
    apply Rmult_le_reg_r in L'; [|exact HA]. nra.
  - assert (E0 : log_likelihood dt n ld w [g1] = Ok (Some k)).
    { rewrite HK, I. destruct (Rlt_dec g1 0); [lra|]. do 2 f_equal. ring. }
    pose proof (HM [g1] _ eq_refl E0) as L. assert ((g - g1) * (g - g1) * bilinear w dt dt <= 0)%R as L' by lra.
    assert (Z : (g - g1 = 0)%R). { destruct (Req_dec (g - g1) 0) as [Z|Z]; [exact Z|]. assert (0 < (g - g1) * (g - g1))%R by (apply Rsqr_pos_lt; exact Z). pose proof (Rmult_lt_0_compat _ _ H HA). lra. }
    replace g with g1 by lra. exact G1.
Qed.

Section Final.
  Context {E : Type} (es : list E) (wt : E -> R) (dt : list R) (y : E -> list R) (ld : R) (w : list (list R)).
  Lemma all_gls g0 c0 g c : centred_on es wt y (line_points dt g0 c0) -> square w (length dt) -> symmetric w -> positive_definite w -> two_times dt ->
    (forall e, In e es -> (0 < g e)%R /\ most_likely (log_likelihood dt (y e) ld w) [g e; c e]) ->
    forall e, In e es -> gls_solution w dt (y e) (g e) (c e).
  Proof.
    intros HC Hw Sw Pw Ht H e He. destruct (H e He) as [G Q]. pose proof (data_length es wt dt y g0 c0 HC e He) as LE.
    apply (most_likely_gls dt (y e) ld w); try assumption; rewrite ?LE; try assumption; reflexivity.
  Qed.
  Lemma all_gls1 g0 g : centred_on es wt y (line_points dt g0 0) -> square w (length dt) -> symmetric w -> positive_definite w -> some_time dt ->
    (forall e, In e es -> (0 < g e)%R /\ most_likely (log_likelihood dt (y e) ld w) [g e]) ->
    forall e, In e es -> gls_solution_no_intercept w dt (y e) (g e).
  Proof.
    intros HC Hw Sw Pw Ht H e He. destruct (H e He) as [G Q]. pose proof (data_length es wt dt y g0 0 HC e He) as LE.
    apply (most_likely_gls1 dt (y e) ld w); try assumption; rewrite ?LE; try assumption; reflexivity.
  Qed.
  Lemma C87_unbiased g0 c0 g c : centred_on es wt y (line_points dt g0 c0) -> square w (length dt) -> symmetric w -> positive_definite w -> two_times dt ->
    (forall e, In e es -> (0 < g e)%R /\ most_likely (log_likelihood dt (y e) ld w) [g e; c e]) ->
    mean_over es wt g = g0 /\ mean_over es wt c = c0.
  Proof.
    intros HC Hw Sw Pw Ht H. apply (C87_unbiased_proof es wt dt y g0 c0 HC w Hw Sw Pw g c); [|exact Ht]. exact (all_gls g0 c0 g c HC Hw Sw Pw Ht H).
  Qed.
  Lemma C87_unbiased1 g0 g : centred_on es wt y (line_points dt g0 0) -> square w (length dt) -> symmetric w -> positive_definite w -> some_time dt ->
    (forall e, In e es -> (0 < g e)%R /\ most_likely (log_likelihood dt (y e) ld w) [g e]) -> mean_over es wt g = g0.
  Proof.
    intros HC Hw Sw Pw Ht H. apply (C87_unbiased1_proof es wt dt y g0 HC w Hw Sw Pw Ht g). exact (all_gls1 g0 g HC Hw Sw Pw Ht H).
  Qed.
  Lemma C87_width S g0 c0 g c : centred_on es wt y (line_points dt g0 c0) -> scattered es wt y (line_points dt g0 c0) S ->
    square w (length dt) -> symmetric w -> positive_definite w -> inverse_of w S -> two_times dt ->
    (forall e, In e es -> (0 < g e)%R /\ most_likely (log_likelihood dt (y e) ld w) [g e; c e]) ->
    exists A B C vgg vgc vcc,
      (forall e, In e es -> exists k, forall a b, (0 <= g e + a)%R ->
         log_likelihood dt (y e) ld w [g e + a; c e + b]%R = Ok (Some (k - 1/2 * (a * a * A + 2 * (a * b) * B + b * b * C)))%R)
      /\ mean_over es wt (fun e => (g e - g0) * (g e - g0))%R = vgg
      /\ mean_over es wt (fun e => (g e - g0) * (c e - c0))%R = vgc
      /\ mean_over es wt (fun e => (c e - c0) * (c e - c0))%R = vcc
      /\ inverse_of [[A; B]; [B; C]] [[vgg; vgc]; [vgc; vcc]].
  Proof.
    intros HC HS Hw Sw Pw Iw Ht H. pose proof (all_gls g0 c0 g c HC Hw Sw Pw Ht H) as G.
    exists (bilinear w dt dt), (bilinear w dt (ones (length dt))), (bilinear w (ones (length dt)) (ones (length dt))). do 3 eexists. split.
    { intros e He. pose proof (data_length es wt dt y g0 c0 HC e He) as LE.
      destruct (C67_gaussian_proof dt (y e) ld w (g e) (c e)) as (k & HK); rewrite ?LE; try assumption; [reflexivity|exact (G e He)|].
      exists k. intros a b Ha. rewrite HK. destruct (Rlt_dec (g e + a) 0); [lra|]. do 3 f_equal. unfold information.
      replace (g e + a - g e)%R with a by ring. replace (c e + b - c e)%R with b by ring. reflexivity. }
    repeat (split; [reflexivity|]).
    destruct (C87_spread_proof es wt dt y g0 c0 HC w Hw Sw Pw g c G S HS Iw Ht) as (H1 & H2 & H3 & H4). cbv zeta in *.
    intros i j Hi Hj. cbn [length] in *. destruct i as [|[|i]]; [| |lia]; (destruct j as [|[|j]]; [| |lia]); unfold matrix_entry; cbn; lra.
  Qed.
  Lemma C87_width1 S g0 g : centred_on es wt y (line_points dt g0 0) -> scattered es wt y (line_points dt g0 0) S ->
    square w (length dt) -> symmetric w -> positive_definite w -> inverse_of w S -> some_time dt ->
    (forall e, In e es -> (0 < g e)%R /\ most_likely (log_likelihood dt (y e) ld w) [g e]) ->
    exists A,
      (forall e, In e es -> exists k, forall a, (0 <= g e + a)%R ->
         log_likelihood dt (y e) ld w [g e + a]%R = Ok (Some (k - 1/2 * (a * a * A)))%R)
      /\ (A * mean_over es wt (fun e => (g e - g0) * (g e - g0)) = 1)%R.
  Proof.
    intros HC HS Hw Sw Pw Iw Ht H. pose proof (all_gls1 g0 g HC Hw Sw Pw Ht H) as G. exists (bilinear w dt dt). split.
    { intros e He. pose proof (data_length es wt dt y g0 0 HC e He) as LE.
      destruct (C67_gaussian1_proof dt (y e) ld w (g e)) as (k & HK); rewrite ?LE; try assumption; [reflexivity|exact (G e He)|].
      exists k. intros a Ha. rewrite HK. destruct (Rlt_dec (g e + a) 0); [lra|]. do 2 f_equal. unfold information.
      replace (g e + a - g e)%R with a by ring. ring. }
    exact (C87_spread1_proof es wt dt y g0 HC w Hw Sw Pw Ht g G S HS Iw).
  Qed.
  Lemma C87_minimum S g0 c0 g c a : centred_on es wt y (line_points dt g0 c0) -> scattered es wt y (line_points dt g0 c0) S ->
    square w (length dt) -> symmetric w -> positive_definite w -> inverse_of w S -> two_times dt ->
    (forall e, In e es -> (0 < g e)%R /\ most_likely (log_likelihood dt (y e) ld w) [g e; c e]) ->
    (forall e, In e es -> (0 <= wt e)%R) -> finds_slope a dt ->
    mean_over es wt (fun e => estimate a (y e)) = g0
    /\ (mean_over es wt (fun e => (g e - g0) * (g e - g0)) <= mean_over es wt (fun e => (estimate a (y e) - g0) * (estimate a (y e) - g0)))%R.
  Proof.
    intros HC HS Hw Sw Pw Iw Ht H Hp Ha. pose proof (all_gls g0 c0 g c HC Hw Sw Pw Ht H) as G.
    exact (C87_minimum_proof es wt dt y g0 c0 HC w Hw Sw Pw g c G S HS Iw a Ht Hp Ha).
  Qed.
  Lemma C87_minimum1 S g0 g a : centred_on es wt y (line_points dt g0 0) -> scattered es wt y (line_points dt g0 0) S ->
    square w (length dt) -> symmetric w -> positive_definite w -> inverse_of w S -> some_time dt ->
    (forall e, In e es -> (0 < g e)%R /\ most_likely (log_likelihood dt (y e) ld w) [g e]) ->
    (forall e, In e es -> (0 <= wt e)%R) -> finds_slope_origin a dt ->
    mean_over es wt (fun e => estimate a (y e)) = g0
    /\ (mean_over es wt (fun e => (g e - g0) * (g e - g0)) <= mean_over es wt (fun e => (estimate a (y e) - g0) * (estimate a (y e) - g0)))%R.
  Proof.
    intros HC HS Hw Sw Pw Iw Ht H Hp Ha. pose proof (all_gls1 g0 g HC Hw Sw Pw Ht H) as G.
    exact (C87_minimum1_proof es wt dt y g0 HC w Hw Sw Pw Ht g G S HS Iw a Hp Ha).
  Qed.
End Final.

(** ** Example: three points, each one half above or below the line 2t+1 *)
Definition halves : list (R * (R * R)) := [(-1,(-1,-1));(-1,(-1,1));(-1,(1,-1));(-1,(1,1));(1,(-1,-1));(1,(-1,1));(1,(1,-1));(1,(1,1))]%R.
Definition noisy (e : R * (R * R)) : list R := let '(a,(b,c)) := e in [3 + a / 2; 5 + b / 2; 7 + c / 2]%R.
Definition noisy_slope (e : R * (R * R)) : R := let '(a,(b,c)) := e in (2 + (c - a) / 4)%R.
Definition noisy_intercept (e : R * (R * R)) : R := let '(a,(b,c)) := e in (1 + (a + b + c) / 6 - (c - a) / 2)%R.
Definition quarter_id : list (list R) := [[1/4;0;0];[0;1/4;0];[0;0;1/4]]%R.
Definition four_id : list (list R) := [[4;0;0];[0;4;0];[0;0;4]]%R.
Lemma four_id_quadratic x : length x = 3 -> quadratic four_id x = (4 * (vec_entry x 0 * vec_entry x 0 + vec_entry x 1 * vec_entry x 1 + vec_entry x 2 * vec_entry x 2))%R.
Proof. intros L. unfold quadratic, bilinear. rewrite L. unfold matrix_entry. cbn [sumto nth four_id]. ring. Qed.
Lemma four_id_positive : positive_definite four_id.
Proof.
  intros x L (i & Hi & Hx). cbn [four_id length] in L. rewrite four_id_quadratic by exact L. rewrite L in Hi.
  assert (0 < vec_entry x i * vec_entry x i)%R by (apply Rsqr_pos_lt; exact Hx).
  pose proof (Rle_0_sqr (vec_entry x 0)). pose proof (Rle_0_sqr (vec_entry x 1)). pose proof (Rle_0_sqr (vec_entry x 2)). unfold Rsqr in *.
  destruct i as [|[|[|i]]]; [| | |lia]; lra.
Qed.
Lemma C87_example_proof : centred_on halves (fun _ => 1/8)%R noisy (line_points [1;2;3]%R 2 1)
  /\ scattered halves (fun _ => 1/8)%R noisy (line_points [1;2;3]%R 2 1) quarter_id
  /\ square four_id 3 /\ symmetric four_id /\ positive_definite four_id /\ inverse_of four_id quarter_id /\ two_times [1;2;3]%R
  /\ (forall e, In e halves -> (0 < noisy_slope e)%R /\ most_likely (log_likelihood [1;2;3]%R (noisy e) 0%R four_id) [noisy_slope e; noisy_intercept e])
  /\ finds_slope [-1;1;0]%R [1;2;3]%R
  /\ mean_over halves (fun _ => 1/8)%R (fun e => (noisy_slope e - 2) * (noisy_slope e - 2))%R = (1/8)%R
  /\ mean_over halves (fun _ => 1/8)%R (fun e => (estimate [-1;1;0]%R (noisy e) - 2) * (estimate [-1;1;0]%R (noisy e) - 2))%R = (1/2)%R.
Proof.
  assert (Sq : square four_id 3) by (split; [reflexivity|repeat constructor]).
  assert (Sy : symmetric four_id).
  { intros i j Hi Hj. cbn [four_id length] in *. destruct i as [|[|[|i]]]; [| | |lia]; (destruct j as [|[|[|j]]]; [| | |lia]); reflexivity. }
  assert (T2 : two_times [1;2;3]%R) by (exists 1%R, 2%R; repeat split; [now left|right; now left|lra]).
  split. { split; [cbn; lra|]. split. { intros e He. cbn in He. repeat (destruct He as [<-|He]; [reflexivity|]). contradiction. }
    intros i Hi. cbn [line_points map length] in Hi. destruct i as [|[|[|i]]]; [| | |lia]; unfold mean_over, vec_entry; cbn; lra. }
  split. { split; [reflexivity|]. intros i j Hi Hj. cbn [line_points map length] in Hi, Hj. destruct i as [|[|[|i]]]; [| | |lia]; (destruct j as [|[|[|j]]]; [| | |lia]); unfold mean_over, vec_entry, matrix_entry; cbn; lra. }
  split; [exact Sq|]. split; [exact Sy|]. split; [exact four_id_positive|].
  split. { intros i j Hi Hj. cbn [quarter_id length] in *. destruct i as [|[|[|i]]]; [| | |lia]; (destruct j as [|[|[|j]]]; [| | |lia]); unfold matrix_entry; cbn; lra. }
  split; [exact T2|].
  split. { intros e He. assert (P : (0 < noisy_slope e)%R).
    { cbn in He. repeat (destruct He as [<-|He]; [unfold noisy_slope; lra|]). contradiction. }
    split; [exact P|]. destruct e as [a [b c]]. apply most_likely_gls; [reflexivity|exact Sq|exact Sy|exact four_id_positive|exact T2|exact P|].
    split; unfold bilinear, residuals, matrix_entry, vec_entry; cbn; unfold noisy_slope, noisy_intercept; lra. }
  split. { intros g c. unfold estimate, line_points, vec_entry. cbn. lra. }
  split; unfold mean_over, estimate, vec_entry; cbn; lra.
Qed.
