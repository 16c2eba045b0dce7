(** * ProofsIdeal: the covariance matrix of an ideal random walk (C90) *)
From Verif Require Import Base Spec SpecParser SpecStats SpecRun SpecFit SpecGls SpecPool SpecMarkov SpecCalib SpecIdeal ModelParser ModelDiffusion Lemmas ProofsDisp ProofsIntervals ProofsWindows ProofsParser ProofsBoot ProofsStats ProofsTrue ProofsColl ProofsCov ProofsSub ProofsPool ProofsGls ProofsMarkov ProofsCalib.
From Coq Require Import Reals Lra Lia Psatz.
Open Scope nat_scope.

Lemma coord_plus u v c : coord (plus3 u v) c = (coord u c + coord v c)%R.
Proof. destruct c; reflexivity. Qed.
Lemma sqlen_plus axes u v : sqlen axes (plus3 u v) = (sqlen axes u + 2 * inner axes u v + sqlen axes v)%R.
Proof.
  unfold sqlen, inner. induction axes as [|c l IH]; [cbn; ring|]. cbn [map]. rewrite !rsum_cons, IH, coord_plus. ring.
Qed.
Lemma net_ext s s' a k n : (forall j, k <= j < k + n -> s a j = s' a j) -> net s a k n = net s' a k n.
Proof. intros H. unfold net. f_equal. apply map_ext_in. intros j Hj. apply in_seq in Hj. now apply H. Qed.
Lemma net_split s a k n m : net s a k (n + m) = plus3 (net s a k n) (net s a (k + n) m).
Proof. unfold net. now rewrite seq_app, map_app, sum3_app. Qed.
Lemma net_S s a k n : net s a k (S n) = plus3 (net s a k n) (s a (k + n)).
Proof. replace (S n) with (n + 1) by lia. rewrite net_split. f_equal. unfold net, sum3. cbn. destruct (s a (k + n)); cbn. f_equal; lra. Qed.
Lemma plus3_swap u v w : plus3 u (plus3 v w) = plus3 v (plus3 u w).
Proof. unfold plus3. cbn. f_equal; ring. Qed.

Section Moments.
  Context {E : Type} (es : list E) (wt : E -> R).
  Hypothesis W : rsum (map wt es) = 1%R.
  Notation M := (mean_over es wt).
  Notation cov := (covary es wt).
  Lemma mean_rsum {T} (l : list T) (f : T -> E -> R) : M (fun e => rsum (map (fun c => f c e) l)) = rsum (map (fun c => M (f c)) l).
  Proof.
    induction l as [|c l IH].
    - cbn [map]. unfold rsum at 1. cbn. rewrite (mean_const es wt 0 W). reflexivity.
    - cbn [map]. rewrite rsum_cons, <- IH, <- mean_plus. apply mean_ext. intros e _. apply rsum_cons.
  Qed.
  Lemma covary_alt f g : cov f g = (M (fun e => f e * g e) - M f * M g)%R.
  Proof.
    unfold covary. rewrite (mean_ext es wt _ (fun e => f e * g e + (- M g * f e + (- M f * g e + M f * M g)))%R) by (intros; ring).
    rewrite mean_plus, mean_plus, mean_plus, !mean_scale, (mean_const es wt _ W). ring.
  Qed.
  Lemma covary_comm f g : cov f g = cov g f.
  Proof. unfold covary. apply mean_ext. intros; ring. Qed.
  Lemma covary_scale c f g : cov (fun e => c * f e)%R g = (c * cov f g)%R.
  Proof.
    rewrite !covary_alt, mean_scale. rewrite (mean_ext es wt _ (fun e => c * (f e * g e))%R) by (intros; ring). rewrite mean_scale. ring.
  Qed.
  Lemma covary_sum n f g : cov (fun e => sumto n (fun i => f i e)) g = sumto n (fun i => cov (f i) g).
  Proof.
    rewrite covary_alt. rewrite (mean_ext es wt _ (fun e => sumto n (fun i => f i e * g e)%R)) by (intros; now rewrite sumto_scale_r).
    rewrite !mean_sumto. rewrite <- sumto_scale_r, <- sumto_minus. apply sumto_ext. intros i _. now rewrite covary_alt.
  Qed.
  Lemma covary_ext f f' g g' : (forall e, In e es -> f e = f' e) -> (forall e, In e es -> g e = g' e) -> cov f g = cov f' g'.
  Proof.
    intros H1 H2. rewrite !covary_alt. rewrite (mean_ext es wt f f' H1), (mean_ext es wt g g' H2). f_equal. apply mean_ext. intros e He. now rewrite H1, H2.
  Qed.
  Lemma spread_covary f : spread_over es wt f = cov f f.
  Proof. reflexivity. Qed.

  Context (s : E -> nat -> nat -> V3 R) (axes : list axis) (N len : nat).
  Hypothesis HI : independent_steps es wt s.
  Hypothesis HU : unbiased_steps es wt s N len.
  (** Products of independent quantities. *)
  Lemma factor P f g : uses_only (fun a k => P a k = true) f -> uses_only (fun a k => P a k = false) g -> M (fun e => f (s e) * g (s e))%R = (M (fun e => f (s e)) * M (fun e => g (s e)))%R.
  Proof. apply HI. Qed.
  Definition inside a k n (a' j : nat) : bool := (a' =? a) && (k <=? j) && (j <? k + n).
  Lemma inside_true a k n a' j : inside a k n a' j = true <-> a' = a /\ k <= j < k + n.
  Proof. unfold inside. rewrite !andb_true_iff, Nat.eqb_eq, Nat.leb_le, Nat.ltb_lt. tauto. Qed.
  Lemma inside_false a k n a' j : ~ (a' = a /\ k <= j < k + n) -> inside a k n a' j = false.
  Proof. intros H. destruct (inside a k n a' j) eqn:E0; [|reflexivity]. apply inside_true in E0. contradiction. Qed.
  Lemma net_uses a k n (F : V3 R -> R) : uses_only (fun b j => inside a k n b j = true) (fun s => F (net s a k n)).
  Proof. intros x x' H. f_equal. apply net_ext. intros j Hj. apply H. now apply inside_true. Qed.
  Lemma uses_weaken (P Q : nat -> nat -> Prop) f : (forall a k, P a k -> Q a k) -> uses_only P f -> uses_only Q f.
  Proof. intros H U x x' HQ. apply U. intros a k HP. apply HQ. now apply H. Qed.
  Lemma net_mean a k n c : a < N -> k + n <= len -> M (fun e => coord (net (s e) a k n) c) = 0%R.
  Proof.
    intros Ha. induction n as [|n IH]; intros Hk.
    - rewrite (mean_ext es wt _ (fun _ => 0%R)) by (intros; destruct c; reflexivity). now apply mean_const.
    - rewrite (mean_ext es wt _ (fun e => coord (net (s e) a k n) c + coord (s e a (k + n)) c)%R) by (intros; now rewrite net_S, coord_plus).
      rewrite mean_plus, IH, HU by lia. ring.
  Qed.
  (** Squares over separate windows are uncorrelated. *)
  Definition X a k n e := sqlen axes (net (s e) a k n).
  Lemma separate a k n a' k' n' : (a <> a' \/ k + n <= k' \/ k' + n' <= k) -> cov (X a k n) (X a' k' n') = 0%R.
  Proof.
    intros H. rewrite covary_alt. unfold X. rewrite (factor (inside a k n) (fun s => sqlen axes (net s a k n)) (fun s => sqlen axes (net s a' k' n'))); [ring| |].
    - apply net_uses.
    - apply (uses_weaken (fun b j => inside a' k' n' b j = true)); [|apply net_uses]. intros b j Hj. apply inside_true in Hj. apply inside_false. lia.
  Qed.
  (** A window inside a longer one. *)
  Lemma within a k p n r : a < N -> k + (p + n + r) <= len -> cov (X a (k + p) n) (X a k (p + n + r)) = cov (X a (k + p) n) (X a (k + p) n).
  Proof.
    intros Ha Hk. set (rho := fun s : nat -> nat -> V3 R => plus3 (net s a k p) (net s a (k + p + n) r)).
    assert (R1 : forall e, net (s e) a k (p + n + r) = plus3 (net (s e) a (k + p) n) (rho (s e))).
    { intros e. rewrite net_split, net_split. unfold rho. rewrite (plus3_swap (net (s e) a (k + p) n)). rewrite <- Nat.add_assoc.
      replace (k + (p + n)) with (k + p + n) by lia. unfold plus3. cbn. f_equal; ring. }
    set (d := fun s : nat -> nat -> V3 R => net s a (k + p) n).
    assert (UR : forall F, uses_only (fun b j => inside a (k + p) n b j = false) (fun s => F (rho s))).
    { intros F x x' H. f_equal. unfold rho. f_equal; apply net_ext; intros j Hj; apply H; apply inside_false; lia. }
    assert (F1 : forall F F', M (fun e => F (d (s e)) * F' (rho (s e)))%R = (M (fun e => F (d (s e))) * M (fun e => F' (rho (s e))))%R).
    { intros F F'. apply (factor (inside a (k + p) n) (fun s => F (d s)) (fun s => F' (rho s))); [apply net_uses|apply UR]. }
    assert (R0 : forall c, M (fun e => coord (rho (s e)) c) = 0%R).
    { intros c. rewrite (mean_ext es wt _ (fun e => coord (net (s e) a k p) c + coord (net (s e) a (k + p + n) r) c)%R) by (intros; apply coord_plus).
      rewrite mean_plus, !net_mean by lia. ring. }
    assert (I0 : forall F, M (fun e => F (d (s e)) * inner axes (d (s e)) (rho (s e)))%R = 0%R).
    { intros F. rewrite (mean_ext es wt _ (fun e => rsum (map (fun c => (F (d (s e)) * coord (d (s e)) c) * coord (rho (s e)) c)%R axes))).
      2:{ intros e _. unfold inner. rewrite <- rsum_map_scale. f_equal. apply map_ext. intros c. ring. }
      rewrite (mean_rsum axes (fun c e => (F (d (s e)) * coord (d (s e)) c) * coord (rho (s e)) c)%R).
      rewrite (map_ext _ (fun _ => 0%R)); [rewrite rsum_const; ring|]. intros c. rewrite (F1 (fun v => F v * coord v c)%R (fun v => coord v c)), R0. ring. }
    rewrite !covary_alt. unfold X. fold d.
    assert (E1 : M (fun e => sqlen axes (net (s e) a k (p + n + r))) = (M (fun e => sqlen axes (d (s e))) + M (fun e => sqlen axes (rho (s e))))%R).
    { rewrite (mean_ext es wt _ (fun e => sqlen axes (d (s e)) + (2 * (1 * inner axes (d (s e)) (rho (s e))) + sqlen axes (rho (s e))))%R) by (intros; rewrite R1, sqlen_plus; unfold d; ring).
      rewrite !mean_plus, mean_scale, (I0 (fun _ => 1%R)). ring. }
    assert (E2 : M (fun e => sqlen axes (d (s e)) * sqlen axes (net (s e) a k (p + n + r)))%R
      = (M (fun e => sqlen axes (d (s e)) * sqlen axes (d (s e)))%R + M (fun e => sqlen axes (d (s e))) * M (fun e => sqlen axes (rho (s e))))%R).
    { rewrite (mean_ext es wt _ (fun e => sqlen axes (d (s e)) * sqlen axes (d (s e)) + (2 * (sqlen axes (d (s e)) * inner axes (d (s e)) (rho (s e))) + sqlen axes (d (s e)) * sqlen axes (rho (s e))))%R)
        by (intros; rewrite R1, sqlen_plus; unfold d; ring).
      rewrite !mean_plus, mean_scale, (I0 (sqlen axes)), (F1 (sqlen axes) (sqlen axes)). ring. }
    unfold d in *. rewrite E2, E1. ring.
  Qed.
  (** Second and fourth moments of a displacement. *)
  Context (C : axis -> axis -> R).
  Hypothesis HC : second_moments es wt s N len C.
  Lemma last_step a k n F F' : M (fun e => F (net (s e) a k n) * F' (s e a (k + n)%nat))%R = (M (fun e => F (net (s e) a k n)) * M (fun e => F' (s e a (k + n)%nat)))%R.
  Proof.
    apply (factor (inside a k n) (fun s => F (net s a k n)) (fun s => F' (s a (k + n)%nat))); [apply net_uses|].
    intros x x' H. f_equal. apply H. apply inside_false. lia.
  Qed.
  Lemma net_second a k n c c' : a < N -> k + n <= len -> M (fun e => coord (net (s e) a k n) c * coord (net (s e) a k n) c')%R = (INR n * C c c')%R.
  Proof.
    intros Ha. induction n as [|n IH]; intros Hk.
    - rewrite (mean_ext es wt _ (fun _ => 0%R)) by (intros; destruct c, c'; cbn; ring). rewrite mean_const by exact W. cbn. ring.
    - rewrite (mean_ext es wt _ (fun e => coord (net (s e) a k n) c * coord (net (s e) a k n) c' + (coord (net (s e) a k n) c * coord (s e a (k + n)%nat) c'
        + (coord (net (s e) a k n) c' * coord (s e a (k + n)%nat) c + coord (s e a (k + n)%nat) c * coord (s e a (k + n)%nat) c')))%R) by (intros; rewrite net_S, !coord_plus; ring).
      rewrite !mean_plus, IH by lia. rewrite (last_step a k n (fun v => coord v c) (fun v => coord v c')), (last_step a k n (fun v => coord v c') (fun v => coord v c)), !net_mean, HC, S_INR by lia. ring.
  Qed.
  Lemma rsum_mean_zero {T} (l : list T) f : (forall c, M (f c) = 0%R) -> M (fun e => rsum (map (fun c => f c e) l)) = 0%R.
  Proof. intros H. rewrite mean_rsum. rewrite (map_ext _ (fun _ => 0%R)) by exact H. rewrite rsum_const. ring. Qed.
  Lemma net_square a k n : a < N -> k + n <= len -> M (X a k n) = (INR n * trace_of axes C)%R.
  Proof.
    intros Ha Hk. unfold X, sqlen. rewrite (mean_rsum axes (fun c e => coord (net (s e) a k n) c * coord (net (s e) a k n) c)%R).
    unfold trace_of. rewrite <- rsum_map_scale. f_equal. apply map_ext. intros c. now apply net_second.
  Qed.
  Lemma step_square a k : a < N -> k < len -> M (fun e => sqlen axes (s e a k)) = trace_of axes C.
  Proof. intros Ha Hk. unfold sqlen. rewrite (mean_rsum axes (fun c e => coord (s e a k) c * coord (s e a k) c)%R). unfold trace_of. f_equal. apply map_ext. intros c. now apply HC. Qed.
  Hypothesis HF : normal_fourth es wt s N len axes C.
  Lemma net_fourth a k n : a < N -> k + n <= len -> M (fun e => X a k n e * X a k n e)%R = (INR n * INR n * (trace_of axes C * trace_of axes C + 2 * trace_square axes C))%R.
  Proof.
    intros Ha. induction n as [|n IH]; intros Hk.
    - rewrite (mean_ext es wt _ (fun _ => 0%R)).
      + rewrite mean_const by exact W. cbn. ring.
      + intros e _. assert (Z : X a k 0 e = 0%R); [|rewrite Z; ring]. unfold X, sqlen, net. cbn [seq map]. rewrite (map_ext _ (fun _ => 0%R)) by (intros c; destruct c; cbn; ring). rewrite rsum_const. ring.
    - set (d := fun e => net (s e) a k n). set (t := fun e => s e a (k + n)%nat).
      assert (I1 : M (fun e => sqlen axes (d e) * inner axes (d e) (t e))%R = 0%R).
      { rewrite (mean_ext es wt _ (fun e => rsum (map (fun c => (sqlen axes (d e) * coord (d e) c) * coord (t e) c)%R axes))) by (intros; unfold inner; rewrite <- rsum_map_scale; f_equal; apply map_ext; intros; ring).
        apply (rsum_mean_zero axes (fun c e => (sqlen axes (d e) * coord (d e) c) * coord (t e) c)%R). intros c.
        unfold d, t. rewrite (last_step a k n (fun v => sqlen axes v * coord v c)%R (fun v => coord v c)), HU by lia. ring. }
      assert (I2 : M (fun e => sqlen axes (t e) * inner axes (d e) (t e))%R = 0%R).
      { rewrite (mean_ext es wt _ (fun e => rsum (map (fun c => coord (d e) c * (sqlen axes (t e) * coord (t e) c))%R axes))) by (intros; unfold inner; rewrite <- rsum_map_scale; f_equal; apply map_ext; intros; ring).
        apply (rsum_mean_zero axes (fun c e => coord (d e) c * (sqlen axes (t e) * coord (t e) c))%R). intros c.
        unfold d, t. rewrite (last_step a k n (fun v => coord v c)%R (fun v => sqlen axes v * coord v c)%R), net_mean by lia. ring. }
      assert (I3 : M (fun e => inner axes (d e) (t e) * inner axes (d e) (t e))%R = (INR n * trace_square axes C)%R).
      { rewrite (mean_ext es wt _ (fun e => rsum (map (fun c => rsum (map (fun c' => (coord (d e) c * coord (d e) c') * (coord (t e) c * coord (t e) c'))%R axes)) axes))).
        2:{ intros e _. unfold inner at 1. rewrite Rmult_comm, <- rsum_map_scale. f_equal. apply map_ext. intros c. unfold inner. rewrite Rmult_comm, <- rsum_map_scale. f_equal. apply map_ext. intros c'. ring. }
        rewrite (mean_rsum axes (fun c e => rsum (map (fun c' => (coord (d e) c * coord (d e) c') * (coord (t e) c * coord (t e) c'))%R axes))).
        unfold trace_square. rewrite <- rsum_map_scale. f_equal. apply map_ext. intros c.
        rewrite (mean_rsum axes (fun c' e => (coord (d e) c * coord (d e) c') * (coord (t e) c * coord (t e) c'))%R). rewrite <- rsum_map_scale. f_equal. apply map_ext. intros c'.
        unfold d, t. rewrite (last_step a k n (fun v => coord v c * coord v c')%R (fun v => coord v c * coord v c')%R), net_second, HC by lia. ring. }
      assert (I4 : M (fun e => sqlen axes (d e) * sqlen axes (t e))%R = (INR n * trace_of axes C * trace_of axes C)%R).
      { unfold d, t. rewrite (last_step a k n (sqlen axes) (sqlen axes)), step_square by lia. fold (X a k n). rewrite net_square by lia. ring. }
      rewrite (mean_ext es wt _ (fun e => X a k n e * X a k n e + (4 * (inner axes (d e) (t e) * inner axes (d e) (t e)) + (sqlen axes (t e) * sqlen axes (t e)
        + (4 * (sqlen axes (d e) * inner axes (d e) (t e)) + (2 * (sqlen axes (d e) * sqlen axes (t e)) + 4 * (sqlen axes (t e) * inner axes (d e) (t e)))))))%R)
        by (intros; unfold X; rewrite net_S, sqlen_plus; unfold d, t; ring).
      rewrite !mean_plus, !mean_scale, IH, I1, I2, I3, I4 by lia. unfold t. rewrite HF, S_INR by lia. ring.
  Qed.
  Lemma net_variance a k n : a < N -> k + n <= len -> cov (X a k n) (X a k n) = (INR n * INR n * (2 * trace_square axes C))%R.
  Proof. intros. rewrite covary_alt, net_fourth, net_square by assumption. ring. Qed.
  Hypothesis HN : 0 < N.
  Definition Y (n : nat) e := spaced_msd axes N len n (s e).
  Lemma rsum_list_prod {S T} (f : S * T -> R) l l' : rsum (map f (list_prod l l')) = rsum (map (fun x => rsum (map (fun y => f (x, y)) l')) l).
  Proof.
    induction l as [|x l IH]; [reflexivity|]. cbn [list_prod map]. rewrite map_app, rsum_app, map_map, rsum_cons, IH. reflexivity.
  Qed.
  Lemma Y_sums n e : Y n e = (/ (INR N * INR (len / n)) * sumto N (fun a => sumto (len / n) (fun w => X a (w * n) n e)))%R.
  Proof.
    unfold Y, spaced_msd, average. rewrite map_length, prod_length, !seq_length, mult_INR, rsum_list_prod. cbn [fst snd].
    rewrite ProofsCalib.rsum_sumto. rewrite (sumto_ext N _ (fun a => sumto (len / n) (fun w => X a (w * n) n e))).
    - unfold Rdiv. ring.
    - intros a _. now rewrite ProofsCalib.rsum_sumto.
  Qed.
  Lemma quad n m (f g : nat -> nat -> E -> R) n' m' :
    cov (fun e => sumto n (fun a => sumto m (fun w => f a w e))) (fun e => sumto n' (fun a => sumto m' (fun w => g a w e)))
    = sumto n (fun a => sumto m (fun w => sumto n' (fun a' => sumto m' (fun w' => cov (f a w) (g a' w'))))).
  Proof.
    rewrite (covary_sum n (fun a e => sumto m (fun w => f a w e))). apply sumto_ext. intros a _.
    rewrite (covary_sum m (fun w e => f a w e)). apply sumto_ext. intros w _. rewrite covary_comm.
    rewrite (covary_sum n' (fun a' e => sumto m' (fun w' => g a' w' e))). apply sumto_ext. intros a' _.
    rewrite (covary_sum m' (fun w' e => g a' w' e)). apply sumto_ext. intros w' _. apply covary_comm.
  Qed.
  Lemma fitting n B Q w w' : 0 < n -> 0 < B -> w < Q * B -> w' < Q ->
    (w' = w / B /\ exists p r, w * n = w' * (B * n) + p /\ B * n = p + n + r) \/ (w' <> w / B /\ (w * n + n <= w' * (B * n) \/ w' * (B * n) + B * n <= w * n)).
  Proof.
    intros Hn HB Hw Hw'. pose proof (Nat.div_mod w B ltac:(lia)) as D. pose proof (Nat.mod_upper_bound w B ltac:(lia)) as L.
    destruct (Nat.eq_dec w' (w / B)) as [->|Ne].
    - left. split; [reflexivity|]. exists ((w mod B) * n), ((B - 1 - w mod B) * n). split; [rewrite D at 1; ring|].
      assert (B = w mod B + 1 + (B - 1 - w mod B)) as EB by lia. rewrite EB at 1. ring.
    - right. split; [exact Ne|]. assert (Cc : w / B < w' \/ w' < w / B) by lia. destruct Cc as [Cc|Cc]; [left|right].
      + assert (w + 1 <= w' * B) by nia. nia.
      + assert ((w' + 1) * B <= w) by nia. nia.
  Qed.
  Lemma spaced_cov n B Q : 0 < n -> 0 < B -> 0 < Q -> len = Q * (B * n) ->
    cov (Y n) (Y (B * n)) = (INR B * cov (Y n) (Y n))%R.
  Proof.
    intros Hn HB HQ EL.
    assert (L1 : len / n = Q * B) by (rewrite EL, Nat.mul_assoc; apply Nat.div_mul; lia).
    assert (L2 : len / (B * n) = Q) by (rewrite EL; apply Nat.div_mul; nia).
    set (V := sumto N (fun a => sumto (Q * B) (fun w => cov (X a (w * n) n) (X a (w * n) n)))).
    assert (E1 : cov (Y n) (Y (B * n)) = (/ (INR N * INR (Q * B)) * (/ (INR N * INR Q) * V))%R).
    { rewrite (covary_ext _ _ _ _ (fun e _ => Y_sums n e) (fun e _ => Y_sums (B * n) e)). rewrite L1, L2.
      rewrite covary_scale, covary_comm, covary_scale, covary_comm, quad. f_equal. f_equal. unfold V. apply sumto_ext. intros a Ha. apply sumto_ext. intros w Hw.
      rewrite (sumto_one N a _ Ha). 2:{ intros a' Ha' D. apply sumto_zero. intros w' Hw'. apply separate. left. congruence. }
      rewrite (sumto_one Q (w / B)).
      - destruct (fitting n B Q w (w / B) Hn HB Hw) as [(_ & p & r & P1 & P2)|(Cc & _)]; [apply Nat.div_lt_upper_bound; lia| |congruence].
        rewrite P1, P2. apply within; [exact Ha|]. rewrite <- P2, EL. assert (w / B < Q) by (apply Nat.div_lt_upper_bound; lia). nia.
      - apply Nat.div_lt_upper_bound; lia.
      - intros w' Hw' D. destruct (fitting n B Q w w' Hn HB Hw Hw') as [(Cc & _)|(_ & Cc)]; [congruence|]. apply separate. right. exact Cc. }
    assert (E2 : cov (Y n) (Y n) = (/ (INR N * INR (Q * B)) * (/ (INR N * INR (Q * B)) * V))%R).
    { rewrite (covary_ext _ _ _ _ (fun e _ => Y_sums n e) (fun e _ => Y_sums n e)). rewrite L1.
      rewrite covary_scale, covary_comm, covary_scale, quad. f_equal. f_equal. unfold V. apply sumto_ext. intros a Ha. apply sumto_ext. intros w Hw.
      rewrite (sumto_one N a _ Ha). 2:{ intros a' Ha' D. apply sumto_zero. intros w' Hw'. apply separate. left. congruence. }
      rewrite (sumto_one (Q * B) w _ Hw); [reflexivity|].
      intros w' Hw' D. apply separate. right. assert (Cc : w < w' \/ w' < w) by lia. destruct Cc; [left|right]; nia. }
    rewrite E1, E2, mult_INR. assert (0 < INR N)%R by now apply lt_0_INR. assert (0 < INR B)%R by now apply lt_0_INR. assert (0 < INR Q)%R by now apply lt_0_INR.
    field. lra.
  Qed.
  Lemma spaced_mean n : 0 < len -> 0 < n -> Nat.divide n len -> M (Y n) = (INR n * trace_of axes C)%R.
  Proof.
    intros Hl Hn [Q EL]. assert (0 < Q) by nia. rewrite (mean_ext es wt _ _ (fun e _ => Y_sums n e)). assert (L1 : len / n = Q) by (rewrite EL; apply Nat.div_mul; lia). rewrite L1. rewrite mean_scale.
    rewrite (mean_sumto es wt N (fun a e => sumto Q (fun w => X a (w * n) n e))).
    rewrite (sumto_ext N _ (fun _ => INR Q * (INR n * trace_of axes C))%R).
    - rewrite sumto_const. assert (0 < INR N)%R by now apply lt_0_INR. assert (0 < INR Q)%R by now apply lt_0_INR. field. lra.
    - intros a Ha. rewrite (mean_sumto es wt Q (fun w e => X a (w * n) n e)). rewrite (sumto_ext Q _ (fun _ => INR n * trace_of axes C)%R) by (intros; apply net_square; [exact Ha|nia]). apply sumto_const.
  Qed.
  Lemma spaced_spread n : 0 < len -> 0 < n -> Nat.divide n len -> spread_over es wt (Y n) = (2 * trace_square axes C * (INR n * INR n) / (INR N * INR len / INR n))%R.
  Proof.
    intros Hl Hn [Q EL]. assert (0 < Q) by nia. rewrite spread_covary.
    rewrite (covary_ext _ _ _ _ (fun e _ => Y_sums n e) (fun e _ => Y_sums n e)). assert (L1 : len / n = Q) by (rewrite EL; apply Nat.div_mul; lia). rewrite L1.
    rewrite covary_scale, covary_comm, covary_scale, quad.
    rewrite (sumto_ext N _ (fun _ => INR Q * (INR n * INR n * (2 * trace_square axes C)))%R).
    - rewrite sumto_const, EL, mult_INR. assert (0 < INR N)%R by now apply lt_0_INR. assert (0 < INR Q)%R by now apply lt_0_INR. assert (0 < INR n)%R by now apply lt_0_INR. field. lra.
    - intros a Ha. rewrite <- sumto_const. apply sumto_ext. intros w Hw.
      rewrite (sumto_one N a _ Ha). 2:{ intros a' Ha' D. apply sumto_zero. intros w' Hw'. apply separate. left. congruence. }
      rewrite (sumto_one Q w _ Hw); [apply net_variance; [exact Ha|nia]|].
      intros w' Hw' D. apply separate. right. assert (C0 : w < w' \/ w' < w) by lia. destruct C0; [left|right]; nia.
  Qed.
  Lemma spaced_cov_div n m : 0 < len -> 0 < n -> Nat.divide n m -> Nat.divide m len ->
    cov (Y n) (Y m) = (INR m / INR n * spread_over es wt (Y n))%R.
  Proof.
    intros Hl Hn [B ->] [Q EL]. assert (0 < B) by nia. assert (0 < Q) by nia. rewrite (spaced_cov n B Q), spread_covary by assumption. rewrite mult_INR.
    assert (0 < INR n)%R by now apply lt_0_INR. field. lra.
  Qed.
End Moments.

Lemma C90_entries {E} (es : list E) wt s axes N len ns v mat : rsum (map wt es) = 1%R -> independent_steps es wt s -> unbiased_steps es wt s N len -> 0 < N -> 0 < len -> nested len ns ->
  length v = length ns -> (forall i, i < length ns -> vec_entry v i = spread_over es wt (fun e => spaced_msd axes N len (nth i ns 0) (s e))) ->
  populate_covariance_matrix v (counts N len ns) = Ok mat ->
  length mat = length ns /\ forall i j, i < length ns -> j < length ns ->
    matrix_entry mat i j = covary es wt (fun e => spaced_msd axes N len (nth i ns 0) (s e)) (fun e => spaced_msd axes N len (nth j ns 0) (s e)).
Proof.
  intros W HI HU HN HL [F D] LV EV H. destruct (C33_proof _ _ _ H) as ((S1 & S2) & SY & EN & _). rewrite LV in *. split; [exact S1|].
  assert (POS : forall i, i < length ns -> 0 < nth i ns 0 /\ Nat.divide (nth i ns 0) len).
  { intros i Hi. rewrite Forall_forall in F. apply F. now apply nth_In. }
  assert (CE : forall i, i < length ns -> vec_entry (counts N len ns) i = (INR N * INR len / INR (nth i ns 0%nat))%R).
  { intros i Hi. unfold vec_entry, counts. rewrite (nth_indep (map (fun n => INR N * INR len / INR n)%R ns) 0%R ((fun n => INR N * INR len / INR n)%R 0%nat)) by now rewrite map_length.
    now rewrite (map_nth (fun n => INR N * INR len / INR n)%R). }
  assert (UP : forall i j, i <= j -> j < length ns ->
    matrix_entry mat i j = covary es wt (fun e => spaced_msd axes N len (nth i ns 0) (s e)) (fun e => spaced_msd axes N len (nth j ns 0) (s e))).
  { intros i j Hij Hj. destruct (POS i ltac:(lia)) as [P1 P2]. destruct (POS j Hj) as [Q1 Q2].
    assert (0 < INR N)%R by now apply lt_0_INR. assert (0 < INR len)%R by now apply lt_0_INR.
    assert (0 < INR (nth i ns 0%nat))%R by now apply lt_0_INR. assert (0 < INR (nth j ns 0%nat))%R by now apply lt_0_INR.
    rewrite EN; [|lia|]. 2:{ rewrite CE by exact Hj. apply Rgt_not_eq. apply Rdiv_lt_0_compat; [nra|assumption]. }
    rewrite EV, !CE by lia.
    pose proof (spaced_cov_div es wt W s axes N len HI HU HN (nth i ns 0) (nth j ns 0) HL P1 (D i j (conj Hij Hj)) Q2) as C. unfold Y in C. rewrite C. field. lra. }
  intros i j Hi Hj. destruct (Nat.le_ge_cases i j) as [C|C]; [now apply UP|]. rewrite (SY i j) by (rewrite ?S1; lia). rewrite UP by lia. apply covary_comm.
Qed.

Lemma spaced_entry {E} axes N len ns (s : E -> nat -> nat -> V3 R) e i : i < length ns ->
  vec_entry (map (fun n => spaced_msd axes N len n (s e)) ns) i = spaced_msd axes N len (nth i ns 0) (s e).
Proof. intros Hi. unfold vec_entry. now rewrite (nth_map_lt _ ns i 0). Qed.

Section Curve.
  Context {E : Type} (es : list E) (wt : E -> R) (s : E -> nat -> nat -> V3 R) (axes : list axis) (Cc : axis -> axis -> R) (N len : nat) (ns : list nat) (tau : R).
  Hypotheses (W : rsum (map wt es) = 1%R) (HI : independent_steps es wt s) (HU : unbiased_steps es wt s N len)
    (HC : second_moments es wt s N len Cc) (HN : 0 < N) (HL : 0 < len) (HD : nested len ns) (HT : tau <> 0%R).
  Definition curve e := map (fun n => spaced_msd axes N len n (s e)) ns.
  Definition times := map (fun n => INR n * tau)%R ns.
  Notation slope := (trace_of axes Cc / tau)%R.
  Lemma line_at i : i < length ns -> vec_entry (line_points times slope 0) i = (INR (nth i ns 0%nat) * trace_of axes Cc)%R.
  Proof.
    intros Hi. unfold vec_entry, line_points, times. rewrite map_map, (nth_map_lt _ ns i 0%nat) by exact Hi. field. exact HT.
  Qed.
  Lemma pos_at i : i < length ns -> 0 < nth i ns 0 /\ Nat.divide (nth i ns 0) len.
  Proof. intros Hi. destruct HD as [F _]. rewrite Forall_forall in F. apply F. now apply nth_In. Qed.
  Lemma C90_centred : centred_on es wt curve (line_points times slope 0).
  Proof.
    assert (LL : length (line_points times slope 0) = length ns) by (unfold line_points, times; now rewrite !map_length).
    split; [exact W|]. rewrite LL. split; [intros; apply map_length|]. intros i Hi. rewrite line_at by exact Hi. unfold curve.
    rewrite (mean_ext es wt _ (fun e => spaced_msd axes N len (nth i ns 0) (s e))) by (intros; now apply spaced_entry).
    destruct (pos_at i Hi). exact (spaced_mean es wt W s axes N len HI HU Cc HC HN (nth i ns 0) HL H H0).
  Qed.
  Hypothesis HF : normal_fourth es wt s N len axes Cc.
  Lemma C90_scattered mat : populate_covariance_matrix (model_variance (counts N len ns) times (2 * trace_square axes Cc / (tau * tau)))%R (counts N len ns) = Ok mat ->
    scattered es wt curve (line_points times slope 0) mat.
  Proof.
    intros H. assert (LL : length (line_points times slope 0) = length ns) by (unfold line_points, times; now rewrite !map_length).
    edestruct (C90_entries es wt s axes N len ns) as [L1 L2]; [exact W|exact HI|exact HU|exact HN|exact HL|exact HD| | |exact H|].
    - unfold model_variance, times, counts. unfold zip_with. rewrite map_length, combine_length, !map_length. lia.
    - intros i Hi. unfold vec_entry, model_variance. destruct (pos_at i Hi) as [P1 P2].
      rewrite (zip_with_nth _ _ _ i 0%R 0%R 0%R) by (unfold counts, times; rewrite !map_length; auto).
      unfold counts, times. rewrite !(nth_map_lt _ ns i 0%nat) by exact Hi.
      etransitivity; [|symmetry; exact (spaced_spread es wt W s axes N len HI HU Cc HC HF HN (nth i ns 0) HL P1 P2)].
      unfold nsq. numR.
      assert (0 < INR N)%R by now apply lt_0_INR. assert (0 < INR len)%R by now apply lt_0_INR. assert (0 < INR (nth i ns 0%nat))%R by now apply lt_0_INR.
      field. repeat split; try lra.
    - split; [now rewrite L1, LL|]. rewrite LL. intros i j Hi Hj. rewrite L2 by assumption. unfold covary. apply mean_ext. intros e _. unfold curve.
      rewrite !spaced_entry, !line_at by assumption. destruct (pos_at i Hi), (pos_at j Hj).
      rewrite <- (spaced_mean es wt W s axes N len HI HU Cc HC HN (nth i ns 0) HL), <- (spaced_mean es wt W s axes N len HI HU Cc HC HN (nth j ns 0) HL) by assumption. reflexivity.
  Qed.
End Curve.

Section Fit.
  Context {E : Type} (es : list E) (wt : E -> R) (s : E -> nat -> nat -> V3 R) (axes : list axis) (Cc : axis -> axis -> R) (N len : nat) (ns : list nat) (tau : R).
  Lemma C90_model_proof mat : rsum (map wt es) = 1%R -> independent_steps es wt s -> unbiased_steps es wt s N len ->
    second_moments es wt s N len Cc -> normal_fourth es wt s N len axes Cc -> 0 < N -> 0 < len -> nested len ns -> tau <> 0%R ->
    populate_covariance_matrix (model_variance (counts N len ns) (map (fun n => INR n * tau) ns) (2 * trace_square axes Cc / (tau * tau)))%R (counts N len ns) = Ok mat ->
    centred_on es wt (fun e => map (fun n => spaced_msd axes N len n (s e)) ns) (line_points (map (fun n => INR n * tau)%R ns) (trace_of axes Cc / tau) 0)
    /\ scattered es wt (fun e => map (fun n => spaced_msd axes N len n (s e)) ns) (line_points (map (fun n => INR n * tau)%R ns) (trace_of axes Cc / tau) 0) mat.
  Proof.
    intros W HI HU HC HF HN HL HD HT H. split.
    - exact (C90_centred es wt s axes Cc N len ns tau W HI HU HC HN HL HD HT).
    - exact (C90_scattered es wt s axes Cc N len ns tau W HI HU HC HN HL HD HT HF mat H).
  Qed.
  Lemma C90_fit_proof mat (ld : R) w (g : E -> R) : rsum (map wt es) = 1%R -> independent_steps es wt s -> unbiased_steps es wt s N len ->
    second_moments es wt s N len Cc -> normal_fourth es wt s N len axes Cc -> 0 < N -> 0 < len -> nested len ns -> tau <> 0%R ->
    populate_covariance_matrix (model_variance (counts N len ns) (map (fun n => INR n * tau) ns) (2 * trace_square axes Cc / (tau * tau)))%R (counts N len ns) = Ok mat ->
    square w (length ns) -> symmetric w -> positive_definite w -> inverse_of w mat -> some_time (map (fun n => INR n * tau)%R ns) ->
    (forall e, In e es -> (0 < g e)%R
       /\ most_likely (log_likelihood (map (fun n => INR n * tau)%R ns) (map (fun n => spaced_msd axes N len n (s e)) ns) ld w) [g e]) ->
    mean_over es wt g = (trace_of axes Cc / tau)%R
    /\ exists A,
      (forall e, In e es -> exists k, forall a, (0 <= g e + a)%R ->
         log_likelihood (map (fun n => INR n * tau)%R ns) (map (fun n => spaced_msd axes N len n (s e)) ns) ld w [g e + a]%R = Ok (Some (k - 1/2 * (a * a * A)))%R)
      /\ (A * mean_over es wt (fun e => (g e - trace_of axes Cc / tau) * (g e - trace_of axes Cc / tau)) = 1)%R.
  Proof.
    intros W HI HU HC HF HN HL HD HT H Hw Sw Pw Iw Ht G. destruct (C90_model_proof mat W HI HU HC HF HN HL HD HT H) as [Ce Sc]. split.
    - apply (C87_unbiased1 es wt (map (fun n => INR n * tau)%R ns) (fun e => map (fun n => spaced_msd axes N len n (s e)) ns) ld w (trace_of axes Cc / tau) g); try assumption. now rewrite map_length.
    - apply (C87_width1 es wt (map (fun n => INR n * tau)%R ns) (fun e => map (fun n => spaced_msd axes N len n (s e)) ns) ld w mat (trace_of axes Cc / tau) g); try assumption. now rewrite map_length.
  Qed.
End Fit.

(** ** The example: one atom with two steps *)
Lemma product_mean {A B} (la : list A) (lb : list B) (wa : A -> R) (wb : B -> R) f g :
  mean_over (list_prod la lb) (fun e => wa (fst e) * wb (snd e))%R (fun e => f (fst e) * g (snd e))%R = (mean_over la wa f * mean_over lb wb g)%R.
Proof.
  unfold mean_over. induction la as [|a la IH]; [unfold rsum; cbn; ring|]. cbn [list_prod map]. rewrite map_app, rsum_app, IH, rsum_cons, Rmult_plus_distr_r. f_equal.
  clear IH. induction lb as [|b lb IH]; [unfold rsum; cbn; ring|]. cbn [map]. rewrite !rsum_cons, IH. cbn [fst snd]. ring.
Qed.
Lemma hop_one : rsum (map hop_chance hop_sizes) = 1%R.
Proof. unfold rsum. cbn. lra. Qed.
Lemma hop_first f : mean_over hops hops_chance (fun e => f (fst e)) = mean_over hop_sizes hop_chance f.
Proof.
  rewrite (mean_ext hops hops_chance _ (fun e => f (fst e) * (fun _ => 1%R) (snd e))%R) by (intros; ring).
  etransitivity; [exact (product_mean hop_sizes hop_sizes hop_chance hop_chance f (fun _ => 1%R))|]. rewrite (mean_const _ _ 1%R hop_one). ring.
Qed.
Lemma hop_second f : mean_over hops hops_chance (fun e => f (snd e)) = mean_over hop_sizes hop_chance f.
Proof.
  rewrite (mean_ext hops hops_chance _ (fun e => (fun _ => 1%R) (fst e) * f (snd e))%R) by (intros; ring).
  etransitivity; [exact (product_mean hop_sizes hop_sizes hop_chance hop_chance (fun _ => 1%R) f)|]. rewrite (mean_const _ _ 1%R hop_one). ring.
Qed.
Lemma hops_one : rsum (map hops_chance hops) = 1%R.
Proof.
  pose proof (hop_first (fun _ => 1%R)) as H. rewrite (mean_const _ _ 1%R hop_one) in H. rewrite <- H. unfold mean_over. f_equal. apply map_ext. intros. ring.
Qed.
Lemma hop_same e e' a k : (a = 0 -> k = 0 -> fst e = fst e') -> (a = 0 -> k = 1 -> snd e = snd e') -> hop e a k = hop e' a k.
Proof. intros H1 H2. destruct a as [|a]; [|reflexivity]. destruct k as [|[|k]]; cbn; [now rewrite H1|now rewrite H2|reflexivity]. Qed.
Lemma hop_independent : independent_steps hops hops_chance hop.
Proof.
  intros P f g Hf Hg.
  assert (S : forall (b : bool) (Q : nat -> nat -> bool) h, uses_only (fun a k => Q a k = b) h ->
     (Q 0 0 <> b -> forall x y z, h (hop (x, z)) = h (hop (y, z))) /\ (Q 0 1 <> b -> forall x y z, h (hop (z, x)) = h (hop (z, y)))).
  { intros b Q h Hh. split; intros D x y z; apply Hh; intros a k HQ; apply hop_same; intros -> ->; cbn; congruence. }
  destruct (S true P f Hf) as [F0 F1]. destruct (S false P g Hg) as [G0 G1].
  destruct (P 0 0) eqn:P0; destruct (P 0 1) eqn:P1.
  - assert (G : forall e, g (hop e) = g (hop (0, 0)%Z)) by (intros [x y]; transitivity (g (hop (0%Z, y))); [apply G0|apply G1]; discriminate).
    rewrite (mean_ext hops _ (fun e => f (hop e) * g (hop e))%R (fun e => g (hop (0, 0)%Z) * f (hop e))%R) by (intros e _; rewrite G; ring).
    rewrite mean_scale, (mean_ext hops _ (fun e => g (hop e)) (fun _ => g (hop (0, 0)%Z))), (mean_const _ _ _ hops_one) by (intros; apply G). ring.
  - rewrite (mean_ext hops _ (fun e => f (hop e) * g (hop e))%R (fun e => (fun x => f (hop (x, 0%Z))) (fst e) * (fun y => g (hop (0%Z, y))) (snd e))%R).
    2:{ intros [x y] _. cbn [fst snd]. f_equal; [apply F1|apply G0]; discriminate. }
    etransitivity; [exact (product_mean hop_sizes hop_sizes hop_chance hop_chance (fun x => f (hop (x, 0%Z))) (fun y => g (hop (0%Z, y))))|].
    rewrite <- hop_first, <- hop_second. f_equal; apply mean_ext; intros [x y] _; cbn [fst snd]; [apply F1|apply G0]; discriminate.
  - rewrite (mean_ext hops _ (fun e => f (hop e) * g (hop e))%R (fun e => (fun x => g (hop (x, 0%Z))) (fst e) * (fun y => f (hop (0%Z, y))) (snd e))%R).
    2:{ intros [x y] _. cbn [fst snd]. rewrite Rmult_comm. f_equal; [apply G1|apply F0]; discriminate. }
    etransitivity; [exact (product_mean hop_sizes hop_sizes hop_chance hop_chance (fun x => g (hop (x, 0%Z))) (fun y => f (hop (0%Z, y))))|].
    rewrite <- hop_first, <- hop_second, Rmult_comm. f_equal; apply mean_ext; intros [x y] _; cbn [fst snd]; [apply F0|apply G1]; discriminate.
  - assert (F : forall e, f (hop e) = f (hop (0, 0)%Z)) by (intros [x y]; transitivity (f (hop (0%Z, y))); [apply F0|apply F1]; discriminate).
    rewrite (mean_ext hops _ (fun e => f (hop e) * g (hop e))%R (fun e => f (hop (0, 0)%Z) * g (hop e))%R) by (intros e _; rewrite F; ring).
    rewrite mean_scale, (mean_ext hops _ (fun e => f (hop e)) (fun _ => f (hop (0, 0)%Z))), (mean_const _ _ _ hops_one) by (intros; apply F). ring.
Qed.
Lemma hop_means (F : V3 R -> R) r : mean_over hop_sizes hop_chance (fun z => F (mkV (IZR z) 0%R 0%R)) = r ->
  forall a k, a < 1 -> k < 2 -> mean_over hops hops_chance (fun e => F (hop e a k)) = r.
Proof.
  intros H a k Ha Hk. destruct a as [|a]; [|lia]. destruct k as [|[|k]]; [| |lia]; cbn [hop].
  - rewrite (hop_first (fun z => F (mkV (IZR z) 0%R 0%R))). exact H.
  - rewrite (hop_second (fun z => F (mkV (IZR z) 0%R 0%R))). exact H.
Qed.
Lemma hop_unbiased : unbiased_steps hops hops_chance hop 1 2.
Proof. intros a k c. apply (hop_means (fun v => coord v c)). destruct c; unfold mean_over, rsum; cbn; lra. Qed.
Lemma hop_second_moments : second_moments hops hops_chance hop 1 2 hop_moments.
Proof. intros a k c c'. apply (hop_means (fun v => coord v c * coord v c')%R). destruct c, c'; unfold mean_over, rsum; cbn; lra. Qed.
Lemma hop_fourth : normal_fourth hops hops_chance hop 1 2 all_axes hop_moments.
Proof. intros a k. apply (hop_means (fun v => sqlen all_axes v * sqlen all_axes v)%R). unfold trace_of, trace_square, mean_over, rsum, sqlen, rsum; cbn. lra. Qed.

Definition hop_weights : list (list R) := [[1/2; -1/8]; [-1/8; 1/16]]%R.
Definition hop_slope (e : Z * Z) : R := ((IZR (fst e) * IZR (fst e) + IZR (snd e) * IZR (snd e)) / 2)%R.
Lemma hop_quadratic x : length x = 2 -> quadratic hop_weights x = (1/2 * (vec_entry x 0 * vec_entry x 0) - 1/4 * (vec_entry x 0 * vec_entry x 1) + 1/16 * (vec_entry x 1 * vec_entry x 1))%R.
Proof. intros H. destruct x as [|a [|b [|]]]; try discriminate. unfold quadratic, bilinear, vec_entry, matrix_entry. cbn. field. Qed.
Lemma hop_positive : positive_definite hop_weights.
Proof.
  intros x Lx (i & Hi & Nz). cbn [hop_weights length] in *. rewrite hop_quadratic by exact Lx.
  set (a := vec_entry x 0) in *. set (b := vec_entry x 1) in *.
  replace (1/2 * (a * a) - 1/4 * (a * b) + 1/16 * (b * b))%R with (1/4 * (a * a) + 1/4 * ((a - b / 2) * (a - b / 2)))%R by field.
  pose proof (Rle_0_sqr a) as Pa. pose proof (Rle_0_sqr (a - b / 2)) as Pb. unfold Rsqr in *.
  destruct (Req_dec a 0) as [Ea|Na].
  - assert (Nb : (a - b / 2 <> 0)%R).
    { destruct i as [|[|i]]; [exfalso; apply Nz; exact Ea| |lia]. change (b <> 0%R) in Nz. lra. }
    pose proof (Rsqr_pos_lt _ Nb) as Q. unfold Rsqr in Q. lra.
  - pose proof (Rsqr_pos_lt _ Na) as Q. unfold Rsqr in Q. lra.
Qed.
Lemma gls1_most_likely dt n (ld : R) w g : length dt = length n -> square w (length n) -> symmetric w -> positive_definite w -> some_time dt ->
  (0 < g)%R -> gls_solution_no_intercept w dt n g -> most_likely (log_likelihood dt n ld w) [g].
Proof.
  intros HL Hw Hs Hp Ht Hg G. destruct (C67_gaussian1_proof dt n ld w g HL Hw Hs G) as (k & HK).
  assert (HA : (0 < bilinear w dt dt)%R).
  { destruct Ht as (t & It & Hn). apply (Hp dt). rewrite (proj1 Hw). exact HL. apply (In_nth _ _ 0%R) in It as (i & Hi & <-). exists i. split; assumption. }
  assert (I : forall a, information w dt a 0 = (a * a * bilinear w dt dt)%R) by (intros; unfold information; ring).
  exists k. split. { rewrite HK, I. destruct (Rlt_dec g 0); [lra|]. do 2 f_equal. ring. }
  intros th l' Lth E. destruct th as [|g' [|? ?]]; try discriminate Lth. rewrite HK, I in E. destruct (Rlt_dec g' 0); [discriminate|]. injection E as <-.
  pose proof (Rle_0_sqr (g' - g)) as Q. unfold Rsqr in Q. assert (0 <= (g' - g) * (g' - g) * bilinear w dt dt)%R by (apply Rmult_le_pos; lra). lra.
Qed.
Lemma hop_curve e : map (fun n => spaced_msd all_axes 1 2 n (hop e)) [1; 2] = [hop_slope e; (IZR (fst e) + IZR (snd e)) * (IZR (fst e) + IZR (snd e))]%R.
Proof.
  unfold spaced_msd, net, hop_slope, sqlen, average, sum3, rsum. cbn. destruct e as [x y]. cbn [fst snd]. repeat (apply f_equal2; [field|]). reflexivity.
Qed.
Lemma hop_slope_positive e : In e hops -> (0 < hop_slope e)%R.
Proof.
  intros He. destruct e as [x y]. unfold hops in He. apply in_prod_iff in He as [Hx Hy]. unfold hop_slope. cbn [fst snd].
  assert (x <> 0%Z) by (intros ->; cbn in Hx; repeat (destruct Hx as [Hx|Hx]; [discriminate Hx|]); exact Hx).
  assert (IZR x <> 0%R) by now apply not_0_IZR. pose proof (Rsqr_pos_lt _ H0) as Q. pose proof (Rle_0_sqr (IZR y)) as Q'. unfold Rsqr in *. lra.
Qed.
Lemma C90_example_proof : rsum (map hops_chance hops) = 1%R /\ independent_steps hops hops_chance hop /\ unbiased_steps hops hops_chance hop 1 2
  /\ second_moments hops hops_chance hop 1 2 hop_moments /\ normal_fourth hops hops_chance hop 1 2 all_axes hop_moments /\ nested 2 [1; 2]
  /\ populate_covariance_matrix (model_variance (counts 1 2 [1; 2]) (map (fun n => INR n * 1)%R [1; 2]) (2 * trace_square all_axes hop_moments / (1 * 1))%R) (counts 1 2 [1; 2])
     = Ok [[4; 8]; [8; 32]]%R
  /\ trace_of all_axes hop_moments = 2%R
  /\ square hop_weights 2 /\ symmetric hop_weights /\ positive_definite hop_weights /\ inverse_of hop_weights [[4; 8]; [8; 32]]%R
  /\ (forall e, In e hops -> (0 < hop_slope e)%R
       /\ most_likely (log_likelihood (map (fun n => INR n * 1)%R [1; 2]) (map (fun n => spaced_msd all_axes 1 2 n (hop e)) [1; 2]) 0%R hop_weights) [hop_slope e])
  /\ mean_over hops hops_chance (fun e => (hop_slope e - 2) * (hop_slope e - 2))%R = 4%R.
Proof.
  split; [exact hops_one|]. split; [exact hop_independent|]. split; [exact hop_unbiased|]. split; [exact hop_second_moments|]. split; [exact hop_fourth|].
  split. { split; [repeat constructor; try (exists 2; reflexivity); exists 1; reflexivity|]. intros i j [H1 H2]. cbn [length] in H2. destruct j as [|[|j]]; [| |lia]; (destruct i as [|[|i]]; [| |lia]); try (exists 1; reflexivity); try (exists 2; reflexivity); lia. }
  split. { unfold populate_covariance_matrix, model_variance, counts, trace_square, rsum, nsq. cbn. f_equal. repeat (apply f_equal2; [repeat (apply f_equal2; [field|]); reflexivity|]). reflexivity. }
  split; [unfold trace_of, rsum; cbn; lra|].
  assert (Sq : square hop_weights 2) by (split; [reflexivity|repeat constructor]).
  assert (Sy : symmetric hop_weights).
  { intros i j Hi Hj. cbn [hop_weights length] in *. destruct i as [|[|i]]; [| |lia]; (destruct j as [|[|j]]; [| |lia]); reflexivity. }
  split; [exact Sq|]. split; [exact Sy|]. split; [exact hop_positive|].
  split. { intros i j Hi Hj. cbn [length] in *. destruct i as [|[|i]]; [| |lia]; (destruct j as [|[|j]]; [| |lia]); unfold matrix_entry; cbn; lra. }
  split.
  { intros e He. pose proof (hop_slope_positive e He) as P. split; [exact P|]. rewrite hop_curve.
    apply gls1_most_likely; [reflexivity|exact Sq|exact Sy|exact hop_positive|exists 1%R; split; [left; cbn; lra|lra]|exact P|].
    unfold gls_solution_no_intercept, bilinear, residuals, matrix_entry, vec_entry. cbn. lra. }
  set (q := fun z => (IZR z * IZR z)%R).
  rewrite (mean_ext _ _ _ (fun e => 1/4 * ((fun z => (q z - 2) * (q z - 2)) (fst e)) + (1/2 * ((fun z => q z - 2) (fst e) * (fun z => q z - 2) (snd e)) + 1/4 * ((fun z => (q z - 2) * (q z - 2)) (snd e))))%R).
  2:{ intros [x y] _. unfold hop_slope, q. cbn [fst snd]. field. }
  rewrite !mean_plus, !mean_scale.
  replace (mean_over hops hops_chance (fun e => (fun z => q z - 2) (fst e) * (fun z => q z - 2) (snd e)))%R with (mean_over hop_sizes hop_chance (fun z => q z - 2) * mean_over hop_sizes hop_chance (fun z => q z - 2))%R
    by (symmetry; exact (product_mean hop_sizes hop_sizes hop_chance hop_chance (fun z => q z - 2)%R (fun z => q z - 2)%R)).
  rewrite (hop_first (fun z => (q z - 2) * (q z - 2))%R), (hop_second (fun z => (q z - 2) * (q z - 2))%R). unfold mean_over, rsum, q. cbn. lra.
Qed.

(** ** The windows kinisi uses overlap: the matrix is wrong even with the true variances *)
Definition obs2 (e : (bool * bool * bool) * (bool * bool * bool)) : list R :=
  [sq (path (fst e) 1); sq (path (fst e) 2); sq (path (fst e) 3 - path (fst e) 1); sq (path (snd e) 1); sq (path (snd e) 2); sq (path (snd e) 3 - path (snd e) 1)]%R.
Lemma average6 a b c d e f : average [a; b; c; d; e; f] = ((a + b + c + d + e + f) / 6)%R.
Proof. unfold average, rsum. cbn. lra. Qed.
Lemma obs2_mean : mean_over walkers fair (fun e => average (obs2 e)) = (5 / 3)%R.
Proof. unfold mean_over, rsum, fair, walkers, flips, average, obs2, rsum, sq, path, coin; cbn; lra. Qed.
Lemma obs2_spread : spread_over walkers fair (fun e => average (obs2 e)) = (4 / 9)%R.
Proof. unfold spread_over. rewrite obs2_mean. unfold mean_over, rsum, fair, walkers, flips, average, obs2, rsum, sq, path, coin; cbn; lra. Qed.
Lemma obs24_cov : covary walkers fair (fun e => average (obs2 e)) (fun e => average (obs4 e)) = 1%R.
Proof. unfold covary. rewrite obs2_mean, obs4_mean. unfold mean_over, rsum, fair, walkers, flips, average, obs2, obs4, rsum, sq, path, coin; cbn; lra. Qed.

Lemma C90_overlap_proof {G Seed RS : Type} (X : Ext R G Seed RS) (g : G) : exists p b n_o mat, (forall e, In e walkers ->
    parser_init geomspace_R (table 2 4 (stroll e)) [0; 1]%Z [] 1%R 1%Z (whole_span 4 "multi-origin") = Ok (p e) /\ p_n_o (p e) = n_o
    /\ msd_bootstrap X (demo_boot 1 "xyz") (p_delta_t (p e)) (p_disp_3d (p e)) (p_n_o (p e)) g = Ok (b e, g) /\ 4 <= length (b_n (b e)))
  /\ populate_covariance_matrix (tab 4 (fun i => spread_over walkers fair (fun e => vec_entry (b_n (b e)) i))) n_o = Ok mat
  /\ exists i j, i < 4 /\ j < 4 /\ matrix_entry mat i j <> covary walkers fair (fun e => vec_entry (b_n (b e)) i) (fun e => vec_entry (b_n (b e)) j).
Proof.
  set (P := fun e => mkParsed (map Z.of_nat (seq 1 4)) (delta_ts 1%R 1 (seq 1 4)) (map (multi_window 2 4 (stroll e) [0; 1]%Z) (seq 1 4)) (map (obs_count 2 (Z.of_nat 4)) (seq 1 4))
          (table 2 4 (stroll e)) [0; 1]%Z [] 1%R (INR 4) None).
  assert (F : forall e, exists b, msd_bootstrap X (demo_boot 1 "xyz") (p_delta_t (P e)) (p_disp_3d (P e)) (p_n_o (P e)) g = Ok (b, g)
     /\ 4 <= length (b_n b) /\ vec_entry (b_n b) 1 = average (obs2 e) /\ vec_entry (b_n b) 2 = average (obs4 e)).
  { intros e. destruct (pair_total X g (P e)) as (b & B1 & B2).
    - discriminate.
    - unfold P. cbn. repeat constructor.
    - reflexivity.
    - reflexivity.
    - exists b. split; [exact B1|]. split.
      + destruct (B2 3 _ _ eq_refl eq_refl) as [A3 _]. apply nth_error_Some. rewrite A3. discriminate.
      + destruct (B2 1 _ _ eq_refl eq_refl) as [A1 _]. destruct (B2 2 _ _ eq_refl eq_refl) as [A2 _].
        unfold vec_entry. rewrite (nth_error_nth _ _ _ A1), (nth_error_nth _ _ _ A2). clear.
        split; f_equal; destruct e as [[[a1 a2] a3] [[c1 c2] c3]]; unfold obs2, obs4; cbn -[coin]; change (Pos.to_nat 1) with 1; unfold sqlen, sq_norm, sq; cbn -[coin]; repeat (apply f_equal2; [ring|]); reflexivity. }
  destruct (F ((true, true, true), (true, true, true))) as (b0 & _).
  set (b := fun e => analysed_or X g b0 (P e)).
  assert (B : forall e, msd_bootstrap X (demo_boot 1 "xyz") (p_delta_t (P e)) (p_disp_3d (P e)) (p_n_o (P e)) g = Ok (b e, g)
     /\ 4 <= length (b_n (b e)) /\ vec_entry (b_n (b e)) 1 = average (obs2 e) /\ vec_entry (b_n (b e)) 2 = average (obs4 e)).
  { intros e. destruct (F e) as (b1 & B1 & B2). unfold b, analysed_or. rewrite B1. split; [reflexivity|exact B2]. }
  set (v := tab 4 (fun i => spread_over walkers fair (fun e => vec_entry (b_n (b e)) i))).
  set (n_o := map (obs_count 2 (Z.of_nat 4)) (seq 1 4)).
  exists P, b, n_o, (mat_of (length v) (fill v n_o)). split; [|split; [apply populate_ok; apply Nat.le_refl|]].
  - intros e _. destruct (B e) as (B1 & B2 & _). split; [apply pair_run_multi; now right|]. split; [reflexivity|]. now split.
  - exists 1, 2. split; [lia|]. split; [lia|]. destruct (C33_proof v n_o _ (populate_ok v n_o (Nat.le_refl 4))) as (_ & _ & EN & _). fold v n_o. rewrite EN.
    + intros H. revert H. unfold covary.
      assert (V : vec_entry v 1 = (4 / 9)%R).
      { rewrite <- obs2_spread. unfold v, vec_entry. cbn [tab seq map nth]. unfold spread_over.
        assert (M : mean_over walkers fair (fun e => vec_entry (b_n (b e)) 1) = mean_over walkers fair (fun e => average (obs2 e))) by (apply mean_ext; intros e _; apply (B e)).
        change (mean_over walkers fair (fun e => (vec_entry (b_n (b e)) 1 - mean_over walkers fair (fun e => vec_entry (b_n (b e)) 1)) * (vec_entry (b_n (b e)) 1 - mean_over walkers fair (fun e => vec_entry (b_n (b e)) 1)))%R
          = mean_over walkers fair (fun e => (average (obs2 e) - mean_over walkers fair (fun e => average (obs2 e))) * (average (obs2 e) - mean_over walkers fair (fun e => average (obs2 e))))%R).
        rewrite M. apply mean_ext. intros e _. destruct (B e) as (_ & _ & -> & _). reflexivity. }
      rewrite V.
      rewrite (mean_ext walkers fair (fun e => vec_entry (b_n (b e)) 1) (fun e => average (obs2 e))) by (intros e _; apply (B e)).
      rewrite (mean_ext walkers fair (fun e => vec_entry (b_n (b e)) 2) (fun e => average (obs4 e))) by (intros e _; apply (B e)).
      rewrite (mean_ext walkers fair _ (fun e => (average (obs2 e) - mean_over walkers fair (fun e => average (obs2 e))) * (average (obs4 e) - mean_over walkers fair (fun e => average (obs4 e))))%R)
        by (intros e _; destruct (B e) as (_ & _ & -> & ->); reflexivity).
      pose proof obs24_cov as O. unfold covary in O. rewrite O. unfold n_o, vec_entry, obs_count. cbn. lra.
    + unfold v. cbn. lia.
    + unfold n_o, vec_entry, obs_count. cbn. lra.
Qed.
