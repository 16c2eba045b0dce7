(** * ProofsIntervals: time intervals (C10-C12) *)
From Verif Require Import Base Spec ModelParser SpecParser Lemmas ProofsDisp SpecRun.
From Coq Require Import Reals Lra Lia Arith Sorting.
Open Scope Z_scope.

Lemma Rfloor_div p q : 0 < q -> Rfloor (IZR p / IZR q) = p / q.
Proof.
  intros Hq. apply Rfloor_unique.
  pose proof (Z.div_mod p q ltac:(lia)) as D. pose proof (Z.mod_pos_bound p q Hq) as M.
  assert (Hq' : (0 < IZR q)%R) by (apply IZR_lt; lia).
  assert (E : (IZR p = IZR q * IZR (p / q) + IZR (p mod q))%R)
    by (rewrite <- mult_IZR, <- plus_IZR; f_equal; lia).
  assert (M1 : (0 <= IZR (p mod q))%R) by (apply IZR_le; lia).
  assert (M2 : (IZR (p mod q) < IZR q)%R) by (apply IZR_lt; lia).
  split.
  - apply (Rmult_le_reg_r (IZR q)); [lra|]. field_simplify; lra.
  - apply (Rmult_lt_reg_r (IZR q)); [lra|]. field_simplify; lra.
Qed.

(** The points of `np.linspace(a, b, m, dtype=int)` in integer arithmetic. *)
Definition lin (a b : Z) (m i : nat) : Z := a + (Z.of_nat i * (b - a)) / Z.max 1 (Z.of_nat m - 1).

Lemma linspace_point_R (s e : R) (m i : nat) :
  (1 < m)%nat -> (i < m)%nat ->
  linspace_point s e m i = (s + INR i * (e - s) / INR (m - 1))%R.
Proof.
  intros Hm Hi. unfold linspace_point. numR. rewrite !nofnat_R.
  assert (E1 : Nat.ltb 1 m = true) by (apply Nat.ltb_lt; lia). rewrite E1. cbn [andb].
  assert (P : (INR (m - 1) <> 0)%R) by (apply not_0_INR; lia).
  destruct (Nat.eqb i (m - 1)) eqn:E2.
  - apply Nat.eqb_eq in E2. subst i. field. exact P.
  - destruct (neqb _ _); field; exact P.
Qed.

Lemma linspace_int_R a b m : 0 <= m ->
  linspace_int (A:=R) a b m = Ok (tab (Z.to_nat m) (lin a b (Z.to_nat m))).
Proof.
  intros Hm. unfold linspace_int.
  assert (E : (0 <=? m) = true) by (apply Z.leb_le; lia). rewrite E. cbn [guard bind].
  f_equal. unfold linspace, tab. rewrite map_map. apply map_seq_ext. intros i Hi.
  set (n := Z.to_nat m) in *. unfold lin.
  destruct (Nat.lt_ge_cases 1 n) as [H1|H1].
  - rewrite linspace_point_R by lia. numR.
    replace (Z.max 1 (Z.of_nat n - 1)) with (Z.of_nat (n - 1)) by lia.
    rewrite <- Rfloor_div by lia.
    rewrite Z.add_comm, <- Rfloor_plus_IZR. f_equal.
    rewrite mult_IZR, minus_IZR, <- !INR_IZR_INZ. unfold Rdiv. lra.
  - assert (n = 1%nat) by lia. assert (i = 0%nat) by lia. subst i. rewrite H.
    unfold linspace_point. cbn -[Rfloor].
    replace (0 * (IZR b - IZR a) + IZR a)%R with (IZR a) by lra. rewrite Rfloor_IZR.
    change (a = a + 0). lia.
Qed.

Lemma lin_first a b m : lin a b m 0 = a.
Proof. unfold lin. rewrite Z.mul_0_l, Z.div_0_l; lia. Qed.
Lemma lin_last a b m : (1 < m)%nat -> lin a b m (m - 1) = b.
Proof.
  intros H. unfold lin. replace (Z.max 1 (Z.of_nat m - 1)) with (Z.of_nat (m - 1)) by lia.
  rewrite Z.mul_comm, Z.div_mul by lia. lia.
Qed.
Lemma lin_mono a b m i j : a <= b -> (i <= j)%nat -> lin a b m i <= lin a b m j.
Proof.
  intros H1 H2. unfold lin. apply Zplus_le_compat_l. apply Z.div_le_mono; [lia|]. nia.
Qed.
Lemma lin_anti a b m i j : b <= a -> (i <= j)%nat -> lin a b m j <= lin a b m i.
Proof.
  intros H1 H2. unfold lin. apply Zplus_le_compat_l. apply Z.div_le_mono; [lia|]. nia.
Qed.
Lemma lin_range a b m i : a <= b -> (i < m)%nat -> a <= lin a b m i <= b.
Proof.
  intros H1 H2. split.
  - rewrite <- (lin_first a b m) at 1. apply lin_mono; lia.
  - destruct (Nat.lt_ge_cases 1 m).
    + pose proof (lin_mono a b m i (m - 1) H1 ltac:(lia)). rewrite lin_last in * by lia. lia.
    + assert (i = 0%nat) by lia. subst. rewrite lin_first. lia.
Qed.
Lemma lin_range_any a b m i : (i < m)%nat -> Z.min a b <= lin a b m i <= Z.max a b.
Proof.
  intros H2. destruct (Z.le_ge_cases a b).
  - pose proof (lin_range a b m i). lia.
  - split.
    + destruct (Nat.lt_ge_cases 1 m).
      * pose proof (lin_anti a b m i (m-1)).
        rewrite lin_last in * by lia. lia.
      * assert (i = 0%nat) by lia. subst. rewrite lin_first. lia.
    + pose proof (lin_anti a b m 0 i). rewrite lin_first in *. lia.
Qed.
Lemma lin_strict a b m i j : Z.of_nat m - 1 <= b - a -> (i < j < m)%nat -> lin a b m i < lin a b m j.
Proof.
  intros H1 H2. unfold lin. apply Zplus_lt_compat_l.
  replace (Z.max 1 (Z.of_nat m - 1)) with (Z.of_nat m - 1) by lia.
  set (q := Z.of_nat m - 1) in *.
  assert (Hle : Z.of_nat i * (b - a) / q + 1 <= Z.of_nat j * (b - a) / q); [|lia].
  rewrite <- (Z.div_add (Z.of_nat i * (b - a)) 1 q) by lia.
  apply Z.div_le_mono; [lia|]. nia.
Qed.
(** Consecutive gaps differ by at most one frame. *)
Lemma lin_even a b m i j :
  Z.abs ((lin a b m (S i) - lin a b m i) - (lin a b m (S j) - lin a b m j)) <= 1.
Proof.
  unfold lin. set (q := Z.max 1 (Z.of_nat m - 1)). set (d := b - a).
  assert (Hq : 0 < q) by lia.
  assert (G : forall k : nat, d / q <= Z.of_nat (S k) * d / q - Z.of_nat k * d / q <= d / q + 1).
  { intros k. replace (Z.of_nat (S k) * d) with (Z.of_nat k * d + d) by lia.
    pose proof (Z.div_mod (Z.of_nat k * d) q ltac:(lia)) as D1.
    pose proof (Z.mod_pos_bound (Z.of_nat k * d) q Hq) as M1.
    pose proof (Z.div_mod d q ltac:(lia)) as D2. pose proof (Z.mod_pos_bound d q Hq) as M2.
    pose proof (Z.div_mod (Z.of_nat k * d + d) q ltac:(lia)) as D3.
    pose proof (Z.mod_pos_bound (Z.of_nat k * d + d) q Hq) as M3.
    set (x := Z.of_nat k * d / q) in *. set (y := d / q) in *. set (z := (Z.of_nat k * d + d) / q) in *.
    set (r1 := (Z.of_nat k * d) mod q) in *. set (r2 := d mod q) in *.
    set (r3 := (Z.of_nat k * d + d) mod q) in *. clearbody x y z r1 r2 r3.
    assert (E : q * (z - x - y) = r1 + r2 - r3) by nia.
    assert (-1 < z - x - y) by nia. assert (z - x - y < 2) by nia. lia. }
  pose proof (G i). pose proof (G j). lia.
Qed.

(** ** get_time_intervals *)

(** The interval unit and the whole number of units in a duration, for the statements. *)
Lemma Rfloor_nonneg x : (0 <= x)%R -> 0 <= Rfloor x.
Proof. intros H. apply Rfloor_le_iff. lra. Qed.

Definition first_interval (u mn : R) : Z := let z := Rtrunc (mn / u) in if z =? 0 then 1 else z.

Lemma py_div_R (a b : R) : b <> 0%R -> py_div a b = Ok (a / b)%R.
Proof. intros H. unfold py_div. destruct (neqb b n0) eqn:E; [apply neqb_R_true in E; contradiction|reflexivity]. Qed.

Lemma get_time_intervals_linear geo (mn mx : R) ss (ts : R) m :
  (IZR ss * ts <> 0)%R -> 0 <= m ->
  get_time_intervals geo mn mx ss ts m "linear"
  = Ok (tab (Z.to_nat m) (lin (first_interval (IZR ss * ts) mn) (Rtrunc (mx / (IZR ss * ts))) (Z.to_nat m))).
Proof.
  intros Hu Hm. unfold get_time_intervals. numR. rewrite !py_div_R by exact Hu. cbn [bind].
  unfold py_int. numR. cbn [opt_res bind]. rewrite String.eqb_refl.
  fold (first_interval (IZR ss * ts) mn). now apply linspace_int_R.
Qed.
Lemma get_time_intervals_log geo (mn mx : R) ss (ts : R) m :
  (IZR ss * ts <> 0)%R ->
  get_time_intervals geo mn mx ss ts m "logarithmic"
  = let! g := geo (first_interval (IZR ss * ts) mn) (Rtrunc (mx / (IZR ss * ts))) m in Ok (unique g).
Proof.
  intros Hu. unfold get_time_intervals. numR. rewrite !py_div_R by exact Hu. cbn [bind].
  unfold py_int. numR. cbn [opt_res bind]. reflexivity.
Qed.
Lemma get_time_intervals_other geo (mn mx : R) ss (ts : R) m sp :
  (IZR ss * ts <> 0)%R -> sp <> "linear"%string -> sp <> "logarithmic"%string ->
  get_time_intervals geo mn mx ss ts m sp = Raise ValueError.
Proof.
  intros Hu H1 H2. unfold get_time_intervals. numR. rewrite !py_div_R by exact Hu. cbn [bind].
  unfold py_int. numR. cbn [opt_res bind].
  apply String.eqb_neq in H1. apply String.eqb_neq in H2. now rewrite H1, H2.
Qed.

(** ** unique *)
Lemma insert_unique_In x y l : In y (insert_unique x l) <-> y = x \/ In y l.
Proof.
  induction l as [|z l IH]; cbn; [intuition|].
  destruct (x <? z) eqn:E; cbn; [intuition|].
  destruct (x =? z) eqn:E2; cbn.
  - apply Z.eqb_eq in E2. subst. intuition.
  - rewrite IH. intuition.
Qed.
Lemma insert_unique_sorted x l : StronglySorted Z.lt l -> StronglySorted Z.lt (insert_unique x l).
Proof.
  induction 1 as [|z l Hl IH Hz]; cbn; [repeat constructor|].
  destruct (x <? z) eqn:E.
  - apply Z.ltb_lt in E. constructor; [constructor; auto|]. constructor; [exact E|].
    eapply Forall_impl; [|exact Hz]. intros; cbn in *; lia.
  - apply Z.ltb_ge in E. destruct (x =? z) eqn:E2.
    + constructor; auto.
    + apply Z.eqb_neq in E2. constructor; [exact IH|]. apply Forall_forall. intros y Hy.
      apply insert_unique_In in Hy as [->|Hy]; [lia|]. rewrite Forall_forall in Hz. auto.
Qed.
Lemma insert_unique_length x l : (length (insert_unique x l) <= S (length l))%nat.
Proof.
  induction l as [|z l IH]; cbn; [lia|]. destruct (x <? z); cbn; [lia|].
  destruct (x =? z); cbn; lia.
Qed.
Lemma unique_sorted l : StronglySorted Z.lt (unique l).
Proof. induction l; cbn; [constructor|]. now apply insert_unique_sorted. Qed.
Lemma unique_In x l : In x (unique l) <-> In x l.
Proof.
  induction l as [|z l IH]; cbn; [tauto|]. rewrite insert_unique_In, IH. intuition.
Qed.
Lemma unique_length l : (length (unique l) <= length l)%nat.
Proof. induction l as [|z l IH]; cbn; [lia|]. pose proof (insert_unique_length z (unique l)). unfold unique in *. lia. Qed.

(** ** geomspace *)
Lemma Rpower10_log10 x : (0 < x)%R -> Rpower 10 (log10_R x) = x.
Proof.
  intros H. unfold Rpower, log10_R.
  replace (ln x / ln 10 * ln 10)%R with (ln x); [apply exp_ln; exact H|].
  field. apply Rgt_not_eq. rewrite <- ln_1. apply ln_increasing; lra.
Qed.
Lemma ln10_pos : (0 < ln 10)%R.
Proof. rewrite <- ln_1. apply ln_increasing; lra. Qed.
Lemma ln_mono x y : (0 < x)%R -> (x <= y)%R -> (ln x <= ln y)%R.
Proof.
  intros H1 H2. destruct (Rle_lt_or_eq_dec x y H2) as [H|<-]; [|lra].
  left. now apply ln_increasing.
Qed.
Lemma log10_mono x y : (0 < x)%R -> (x <= y)%R -> (log10_R x <= log10_R y)%R.
Proof.
  intros H1 H2. unfold log10_R. pose proof ln10_pos. pose proof (ln_mono x y H1 H2).
  apply Rmult_le_compat_r; [|lra]. left. now apply Rinv_0_lt_compat.
Qed.
Lemma geomspace_point_range a b m i : 0 < a <= b -> (i < m)%nat ->
  (IZR a <= geomspace_point_R a b m i <= IZR b)%R.
Proof.
  intros Hab Hi. unfold geomspace_point_R.
  assert (Ha : (0 < IZR a)%R) by (apply IZR_lt; lia).
  assert (Hb : (IZR a <= IZR b)%R) by (apply IZR_le; lia).
  destruct (Nat.eqb i 0) eqn:E0; [lra|]. apply Nat.eqb_neq in E0.
  destruct (Nat.ltb 1 m && Nat.eqb i (m - 1)) eqn:E1; [lra|].
  rewrite linspace_point_R by lia.
  pose proof (log10_mono _ _ Ha Hb) as L.
  set (s := log10_R (IZR a)) in *. set (e := log10_R (IZR b)) in *.
  assert (P : (0 < INR (m - 1))%R) by (apply lt_0_INR; lia).
  assert (Q : (0 <= INR i / INR (m - 1) <= 1)%R).
  { pose proof (pos_INR i). assert (INR i <= INR (m - 1))%R by (apply le_INR; lia). split.
    - apply Rmult_le_pos; [lra|]. left. now apply Rinv_0_lt_compat.
    - apply (Rmult_le_reg_r (INR (m-1))); [lra|]. field_simplify; lra. }
  replace (INR i * (e - s) / INR (m - 1))%R with ((INR i / INR (m - 1)) * (e - s))%R by (field; lra).
  set (t := (INR i / INR (m - 1))%R) in *. clearbody t.
  assert (B1 : (s <= s + t * (e - s))%R) by nra.
  assert (B2 : (s + t * (e - s) <= e)%R) by nra.
  split.
  - rewrite <- (Rpower10_log10 (IZR a)) by lra. apply Rle_Rpower; [lra | exact B1].
  - rewrite <- (Rpower10_log10 (IZR b)) by lra. apply Rle_Rpower; [lra | exact B2].
Qed.

Lemma geomspace_R_ok a b m : 0 < a <= b -> 0 <= m ->
  exists g, geomspace_R a b m = Ok g /\ length g = Z.to_nat m
    /\ Forall (fun x => a <= x <= b) g
    /\ (1 <= m -> In a g) /\ (2 <= m -> In b g).
Proof.
  intros Hab Hm. unfold geomspace_R.
  assert (E : (a <=? 0) || (b <=? 0) || (m <? 0) = false).
  { rewrite !orb_false_iff, !Z.leb_gt, Z.ltb_ge. lia. }
  rewrite E. eexists; split; [reflexivity|]. rewrite map_length, seq_length.
  split; [reflexivity|]. split; [|split].
  - apply Forall_forall. intros x Hx. apply in_map_iff in Hx as (i & <- & Hi). apply in_seq in Hi.
    pose proof (geomspace_point_range a b (Z.to_nat m) i Hab ltac:(lia)) as [G1 G2].
    assert (Ha : (0 < IZR a)%R) by (apply IZR_lt; lia).
    rewrite Rtrunc_pos by lra. split.
    + apply Rfloor_le_iff. lra.
    + pose proof (Rfloor_mono _ _ G2) as G3. rewrite Rfloor_IZR in G3. exact G3.
  - intros H1. apply in_map_iff. exists 0%nat. split; [|apply in_seq; lia].
    unfold geomspace_point_R. cbn -[Rtrunc]. apply Rtrunc_IZR.
  - intros H2. apply in_map_iff. exists (Z.to_nat m - 1)%nat. split; [|apply in_seq; lia].
    unfold geomspace_point_R.
    destruct (Nat.eqb (Z.to_nat m - 1) 0) eqn:E0; [apply Nat.eqb_eq in E0; lia|].
    assert (E1 : Nat.ltb 1 (Z.to_nat m) = true) by (apply Nat.ltb_lt; lia).
    rewrite E1, Nat.eqb_refl. cbn -[Rtrunc]. apply Rtrunc_IZR.
Qed.
