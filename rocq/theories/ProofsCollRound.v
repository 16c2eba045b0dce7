(** * ProofsCollRound: C98, collective displacements in double precision *)
From Verif Require Import Base ModelParser ModelDiffusion Spec SpecParser SpecStats SpecDouble SpecUnwrap SpecRun SpecRound SpecChain SpecCollRound Lemmas ProofsDisp ProofsParser ProofsWindows ProofsTraj ProofsFloat ProofsUnwrap ProofsBoot ProofsStats ProofsCollective ProofsRound ProofsSpread ProofsChain.
From Coq Require Import Reals Lra Lia Psatz.
From Coq.Floats Require Import SpecFloat.
From Flocq Require Import Core.
Open Scope Z_scope.

(** ** Sums of doubles: the error is relative to the sum of the sizes *)
Definition total_size (l : list R) : R := rsum (map Rabs l).
Lemma total_size_nonneg l : (0 <= total_size l)%R.
Proof. apply rsum_map_nonneg. intros r. apply Rabs_pos. Qed.
Lemma total_size_bound B l : Forall (fun r => Rabs r <= B)%R l -> (total_size l <= INR (length l) * B)%R.
Proof.
  induction 1 as [|r l H _ IH]; [cbn; lra|]. unfold total_size in *. cbn [map length]. rewrite rsum_cons, S_INR. lra.
Qed.
Lemma rsum_le_size l : (Rabs (rsum l) <= total_size l)%R.
Proof.
  induction l as [|r l IH]; [cbn; rewrite Rabs_R0; lra|]. unfold total_size in *. cbn [map]. rewrite !rsum_cons.
  eapply Rle_trans; [apply Rabs_triang|]. lra.
Qed.
Lemma sum_rel B l : (4194304 * B <= bpow radix2 1000)%R -> (0 <= B)%R -> (INR (length l) <= 1048576)%R ->
  Forall (fun x => finite_double x /\ (Rabs (value x) <= B)%R) l ->
  finite_double (nsum l) /\ (Rabs (value (nsum l) - rsum (map value l)) <= 2 * INR (length l) * eps * total_size (map value l))%R.
Proof.
  intros HB B0. destruct eps_range as [e0 _].
  induction l as [|x l IH] using rev_ind; intros Hn H.
  - cbn. split; [apply zero_fv|]. rewrite Rminus_0_r, Rabs_R0. lra.
  - apply Forall_app in H as [H1 H2]. apply Forall_inv in H2 as [Fx Bx]. rewrite app_length, plus_INR in *. cbn [length INR] in *.
    destruct IH as (F & E); [lra|exact H1|]. unfold total_size in *. rewrite nsum_snoc, !map_app, !rsum_app. cbn [map rsum]. rewrite !Rplus_0_r.
    set (n := INR (length l)) in *. assert (n0 : (0 <= n)%R) by apply pos_INR.
    set (A := rsum (map Rabs (map value l))) in *. assert (A0 : (0 <= A)%R) by apply total_size_nonneg.
    assert (AB : (A <= n * B)%R).
    { unfold A, n. replace (length l) with (length (map value l)) by apply map_length. apply total_size_bound. apply Forall_map. eapply Forall_impl; [|exact H1]. cbn. tauto. }
    pose proof (rsum_le_size (map value l)) as RS. unfold total_size in RS. fold A in RS.
    pose proof (Rabs_pos (value x)) as X0. assert (XA := Rle_abs (value x)). assert (XB := Rle_abs (- value x)). rewrite Rabs_Ropp in XB.
    set (ax := Rabs (value x)) in *.
    assert (EA : (2 * n * eps * A <= A)%R).
    { rewrite <- (Rmult_1_l A) at 2. apply Rmult_le_compat_r; [exact A0|]. unfold eps. lra. }
    apply abs_le in E, RS.
    assert (SB : (Rabs (value (nsum l) + value x) <= 2 * (A + ax))%R) by (apply abs_le; lra).
    destruct (fv_add (nsum l) x _ _ (fv_self _ F) (fv_self _ Fx)) as [F' E'].
    { eapply Rle_trans; [exact SB|]. eapply Rle_trans; [|exact HB]. apply Rle_trans with (2 * (n * B + B))%R; [lra|].
      replace (2 * (n * B + B))%R with ((2 * (n + 1)) * B)%R by ring. apply Rmult_le_compat_r; lra. }
    change (SFadd fprec femax (nsum l) x) with (nadd (nsum l) x) in F', E'. split; [exact F'|].
    pose proof (rel_plus _ _ (finite_rep _ F) (finite_rep _ Fx)) as RE.
    assert (RE' : (Rabs (rnd (value (nsum l) + value x) - (value (nsum l) + value x)) <= eps * (2 * (A + ax)))%R).
    { eapply Rle_trans; [exact RE|]. apply Rmult_le_compat_l; lra. }
    rewrite E'. apply abs_le in RE'. apply abs_le.
    assert (P : (0 <= 2 * n * eps * ax)%R). { apply Rmult_le_pos; [|exact X0]. apply Rmult_le_pos; lra. }
    replace (2 * (n + 1) * eps * (A + ax))%R with (2 * n * eps * A + 2 * n * eps * ax + eps * (2 * (A + ax)))%R by ring. lra.
Qed.

(** ** Root mean squares with errors that vary *)
Lemma rms_close2 {T} axes (f g : T -> V3 R) (h : T -> axis -> R) l : l <> [] ->
  (forall t i, In t l -> (Rabs (part (f t) i - part (g t) i) <= h t i)%R) ->
  (Rabs (sqrt (average (map (fun t => sqlen axes (f t)) l)) - sqrt (average (map (fun t => sqlen axes (g t)) l)))
   <= sqrt (average (map (fun t => rsum (map (fun i => h t i * h t i) axes)) l)))%R.
Proof.
  intros NE H.
  assert (N1 : (1 <= INR (length l))%R) by (change 1%R with (INR 1); apply le_INR; destruct l; [congruence|cbn; lia]). set (N := INR (length l)) in *.
  assert (IN : (0 < / N)%R) by (apply Rinv_0_lt_compat; lra).
  pose (J := List.concat (map (fun t => map (pair t) axes) l)).
  assert (EJ : forall h : T -> V3 R, rsum (map (fun t => sqlen axes (h t)) l) = ssq (fun j => part (h (fst j)) (snd j)) J).
  { intros h'. unfold J. rewrite ssq_concat, map_map. f_equal. apply map_ext. intros t. unfold sqlen, ssq. rewrite map_map. reflexivity. }
  assert (EA : forall h : T -> V3 R, sqrt (average (map (fun t => sqlen axes (h t)) l)) = (sqrt (ssq (fun j => part (h (fst j)) (snd j)) J) * sqrt (/ N))%R).
  { intros h'. unfold average. rewrite map_length. fold N. unfold Rdiv. rewrite EJ. apply sqrt_mult; [apply ssq_nonneg|lra]. }
  rewrite !EA, <- Rmult_minus_distr_r, Rabs_mult, (Rabs_pos_eq (sqrt (/ N))) by apply sqrt_pos.
  eapply Rle_trans; [apply Rmult_le_compat_r; [apply sqrt_pos|apply minkowski_abs]|].
  rewrite <- sqrt_mult by (try apply ssq_nonneg; lra). apply sqrt_le_1_alt.
  unfold average. rewrite map_length. fold N. unfold Rdiv. apply Rmult_le_compat_r; [lra|].
  unfold J. rewrite ssq_concat, map_map. apply rsum_map_le. intros t Ht. unfold ssq. rewrite map_map. cbn [fst snd]. apply rsum_map_le. intros i _.
  pose proof (H t i Ht) as Q. set (e := (part (f t) i - part (g t) i)%R) in *.
  rewrite <- (Rabs_pos_eq (e * e)) by apply Rle_0_sqr. rewrite Rabs_mult. apply Rmult_le_compat; try apply Rabs_pos; exact Q.
Qed.
Lemma sqlen_nonneg axes v : (0 <= sqlen axes v)%R.
Proof. unfold sqlen. apply rsum_map_nonneg. intros a. apply Rle_0_sqr. Qed.
Lemma average_nonneg' {T} (f : T -> R) l : (forall t, 0 <= f t)%R -> (0 <= average (map f l))%R.
Proof.
  intros H. unfold average. rewrite map_length. destruct (Nat.eq_dec (length l) 0) as [E|E].
  - rewrite E. cbn. unfold Rdiv. rewrite Rinv_0. lra.
  - apply Rle_mult_inv_pos; [now apply rsum_map_nonneg|]. apply lt_0_INR. lia.
Qed.
Lemma msd_nonneg axes d : (0 <= msd_of axes d)%R.
Proof. unfold msd_of. apply average_nonneg'. apply sqlen_nonneg. Qed.

(** ** The sums over atoms that the code computes *)
Definition total_at (d : Arr spec_float) (t : nat) : V3 spec_float :=
  let s i := nsum (map (fun row => part (nth t row v0) i) (a_rows d)) in mkV (s AX) (s AY) (s AZ).
Lemma part_total d t i : part (total_at d t) i = nsum (map (fun row => part (nth t row v0) i) (a_rows d)).
Proof. now destruct i. Qed.
Definition totals (d : Arr spec_float) : Arr spec_float := mkArr (a_obs d) [tab (a_obs d) (total_at d)].
Lemma coll_totals axes (d : Arr spec_float) : arr_wf d ->
  coll_motion (a_obs d) (length axes) (map (map (fun v => map (part v) axes)) (a_rows d)) = lengths2 axes (totals d).
Proof.
  intros H. unfold lengths2, totals, entries. cbn [a_rows List.concat]. rewrite app_nil_r, tab_map.
  unfold coll_motion, sum_atoms, tab. rewrite map_map. apply map_seq_ext. intros t Ht.
  f_equal. rewrite <- (map_nth_axes (part (total_at d t))). apply map_seq_ext. intros k Hk. rewrite part_total, map_map.
  f_equal. apply map_ext_in. intros row Hr. unfold arr_wf in H. rewrite Forall_forall in H. specialize (H row Hr).
  rewrite (nth_indep (map _ row) [] ((fun v => map (part v) axes) v0)) by (rewrite map_length; lia).
  rewrite (map_nth (fun v => map (part v) axes)).
  rewrite (nth_indep _ n0 (part (nth t row v0) AX)) by (rewrite map_length; lia).
  now rewrite map_nth.
Qed.

(** ** One interval *)
Definition abs3 (v : V3 R) : V3 R := mkV (Rabs (vx v)) (Rabs (vy v)) (Rabs (vz v)).
Definition abs_arr (d : Arr R) : Arr R := mkArr (a_obs d) (map (map abs3) (a_rows d)).
Lemma sqlen_abs axes v : sqlen axes (abs3 v) = sqlen axes v.
Proof.
  unfold sqlen. f_equal. apply map_ext. intros a. destruct a; cbn [coord abs3 vx vy vz]; rewrite <- Rabs_mult; apply Rabs_pos_eq, Rle_0_sqr.
Qed.
Lemma map_wf {A B} (f : V3 A -> V3 B) (d : Arr A) : arr_wf d -> arr_wf (mkArr (a_obs d) (map (map f) (a_rows d))).
Proof. unfold arr_wf. cbn [a_rows a_obs]. intros H. apply Forall_map. eapply Forall_impl; [|exact H]. cbn. intros r E. now rewrite map_length. Qed.
Lemma msd_abs axes d : msd_of axes (abs_arr d) = msd_of axes d.
Proof.
  unfold msd_of, entries, abs_arr. cbn [a_rows]. rewrite <- concat_map, map_map. f_equal. apply map_ext. intros v. apply sqlen_abs.
Qed.
Lemma at_time_map {A B} (f : V3 A -> V3 B) (d : Arr A) t : at_time (mkArr (a_obs d) (map (map f) (a_rows d))) t = map f (at_time d t).
Proof.
  unfold at_time. cbn [a_rows]. induction (a_rows d) as [|r l IH]; [reflexivity|]. cbn [map flat_map]. rewrite IH, map_app, nth_error_map. destruct (nth_error r t); reflexivity.
Qed.
Lemma at_time_any {A} (z : V3 A) (d : Arr A) t : arr_wf d -> (t < a_obs d)%nat -> at_time d t = map (fun row => nth t row z) (a_rows d).
Proof.
  intros H Ht. unfold at_time, arr_wf in *. induction H as [|row rows Hr H IH]; [reflexivity|]. cbn.
  rewrite IH. rewrite (nth_error_nth' row z) by lia. reflexivity.
Qed.
Lemma part_sum3 l i : part (sum3 l) i = rsum (map (fun v => part v i) l).
Proof. now destruct i. Qed.
Lemma average_tab_ext f g n : (forall t, (t < n)%nat -> f t = g t) -> average (tab n f) = average (tab n g).
Proof. intros H. f_equal. unfold tab. apply map_seq_ext. exact H. Qed.

Section OneInterval.
  Context (axes : list axis) (d : Arr spec_float).
  Hypothesis LA : (length axes <= 3)%nat.
  Hypothesis W : arr_wf d.
  Hypothesis B : Forall (Forall (fun v => forall i, below 300 (part v i))) (a_rows d).
  Hypothesis HN : (INR (length (a_rows d)) <= 1048576)%R.
  Hypothesis O1 : (0 < a_obs d)%nat.
  Hypothesis O2 : Z.of_nat (a_obs d) <= 2 ^ 50.
  Let N := INR (length (a_rows d)).
  Let K := INR (a_obs d).
  Lemma cell_below t i row : In row (a_rows d) -> (t < a_obs d)%nat -> below 300 (part (nth t row v0) i).
  Proof.
    intros Hr Ht. rewrite Forall_forall in B. specialize (B row Hr). rewrite Forall_forall in B. apply B. apply nth_In. unfold arr_wf in W. rewrite Forall_forall in W. rewrite W; assumption.
  Qed.
  Lemma total_error t i : (t < a_obs d)%nat -> below 330 (part (total_at d t) i)
    /\ (Rabs (value (part (total_at d t) i) - part (sum3 (at_time (values d) t)) i) <= 2 * N * eps * part (sum3 (at_time (abs_arr (values d)) t)) i)%R.
  Proof.
    intros Ht. rewrite part_total. set (l := map (fun row => part (nth t row v0) i) (a_rows d)).
    assert (HL : length l = length (a_rows d)) by apply map_length.
    assert (FL : Forall (fun x => finite_double x /\ (Rabs (value x) <= bpow radix2 300)%R) l).
    { unfold l. apply Forall_map, Forall_forall. intros row Hr. exact (cell_below t i row Hr Ht). }
    destruct (sum_rel (bpow radix2 300) l) as [F E]; [|apply bpow_ge_0|rewrite HL; exact HN|exact FL|].
    { change 4194304%R with (bpow radix2 22). rewrite <- bpow_plus. apply bpow_le. lia. }
    rewrite HL in E. fold N in E.
    assert (E1 : rsum (map value l) = part (sum3 (at_time (values d) t)) i).
    { rewrite part_sum3. unfold values. rewrite at_time_map, map_map, (at_time_any v0) by assumption. unfold l. rewrite !map_map. f_equal. apply map_ext. intros row. now destruct i. }
    assert (E2 : total_size (map value l) = part (sum3 (at_time (abs_arr (values d)) t)) i).
    { rewrite part_sum3. unfold abs_arr. rewrite at_time_map, map_map. unfold values. rewrite at_time_map, map_map, (at_time_any v0) by assumption. unfold l, total_size. rewrite !map_map. f_equal. apply map_ext. intros row. now destruct i. }
    assert (SZ : (total_size (map value l) <= N * bpow radix2 300)%R).
    { unfold N. rewrite <- HL. replace (length l) with (length (map value l)) by apply map_length. apply total_size_bound, Forall_map. eapply Forall_impl; [|exact FL]. cbn. tauto. }
    split; [|rewrite <- E1, <- E2; exact E]. split; [exact F|].
    pose proof (rsum_le_size (map value l)) as RS. pose proof (total_size_nonneg (map value l)) as S0. set (A := total_size (map value l)) in *.
    assert (N0 : (0 <= N)%R) by apply pos_INR. fold N in HN.
    assert (EA : (2 * N * eps * A <= A)%R).
    { rewrite <- (Rmult_1_l A) at 2. apply Rmult_le_compat_r; [exact S0|]. unfold eps. lra. }
    apply abs_le in E, RS. assert (P := bpow_ge_0 radix2 300).
    apply Rle_trans with (2 * (N * bpow radix2 300))%R; [apply abs_le; lra|].
    apply Rle_trans with (bpow radix2 21 * bpow radix2 300)%R; [|rewrite <- bpow_plus; apply bpow_le; lia].
    rewrite <- Rmult_assoc. apply Rmult_le_compat_r; [exact P|]. change (bpow radix2 21) with 2097152%R. lra.
  Qed.
  Lemma entries_pos : (0 < length (a_rows d))%nat -> (0 < length (entries (values d)))%nat.
  Proof. intros H. rewrite entries_count by (now apply map_wf). cbn [values a_rows a_obs]. rewrite map_length. now apply Nat.mul_pos_pos. Qed.

  (** Against exact totals [ex], from which the stored displacements deviate by at most [h] in sum. *)
  Lemma coll_main (ex : nat -> V3 R) (h : nat -> axis -> R) : (0 < length (a_rows d))%nat ->
    (forall t i, (t < a_obs d)%nat -> (Rabs (part (sum3 (at_time (values d) t)) i - part (ex t) i) <= h t i)%R) ->
    let r := nmean (lengths2 axes (totals d)) in
    let e := average (tab (a_obs d) (fun t => sqlen axes (ex t))) in
    finite_double r /\ (0 <= value r)%R
    /\ (Rabs (sqrt (value r) - sqrt e) <= (K + 8) * / 2 ^ 52 * sqrt e
          + (3 / 2 * (N * N * / 2 ^ 52 * sqrt (msd_of axes (values d)) + sqrt (average (tab (a_obs d) (fun t => rsum (map (fun i => h t i * h t i) axes))))) + powerRZ 2 (-536)))%R.
  Proof.
    intros N1 Hex r e.
    assert (ET : entries (totals d) = tab (a_obs d) (total_at d)) by (unfold entries, totals; cbn [a_rows List.concat]; apply app_nil_r).
    assert (LT : length (entries (totals d)) = a_obs d) by (rewrite ET; apply tab_length).
    assert (IT : forall t, In t (seq 0 (a_obs d)) <-> (t < a_obs d)%nat) by (intros t; rewrite in_seq; lia).
    destruct (mean_any axes (totals d) LA) as (F & P & E).
    { cbn [totals a_rows]. constructor; [|constructor]. apply Forall_forall. intros v Hv. unfold tab in Hv. apply in_map_iff in Hv as (t & <- & Ht). intros i. apply total_error. now apply IT. }
    { intros Q. rewrite Q in LT. cbn in LT. lia. }
    { now rewrite LT. }
    rewrite LT in E. fold K in E. fold r in F, P, E. split; [exact F|]. split; [exact P|].
    set (ms := msd_of axes (values (totals d))) in *.
    assert (Ems : ms = average (map (fun t => sqlen axes (values3 (total_at d t))) (seq 0 (a_obs d)))).
    { unfold ms, msd_of, values, entries, totals. cbn [a_rows map List.concat]. rewrite app_nil_r. unfold tab. now rewrite !map_map. }
    assert (NE : seq 0 (a_obs d) <> []) by (destruct (a_obs d); [lia|discriminate]).
    (* rounding of the sums *)
    assert (S1 : (Rabs (sqrt ms - sqrt (mstd_of axes (values d))) <= N * N * / 2 ^ 52 * sqrt (msd_of axes (values d)))%R).
    { rewrite Ems. unfold mstd_of. cbn [values a_obs]. unfold tab.
      eapply Rle_trans; [apply (rms_close2 axes _ _ (fun t i => 2 * N * eps * part (sum3 (at_time (abs_arr (values d)) t)) i)%R _ NE)|].
      { intros t i Ht. rewrite part_values. apply total_error. now apply IT. }
      assert (E0 : average (map (fun t => rsum (map (fun i => 2 * N * eps * part (sum3 (at_time (abs_arr (values d)) t)) i * (2 * N * eps * part (sum3 (at_time (abs_arr (values d)) t)) i))%R axes)) (seq 0 (a_obs d)))
        = ((2 * N * eps) * (2 * N * eps) * mstd_of axes (abs_arr (values d)))%R).
      { unfold mstd_of. cbn [abs_arr values a_obs]. unfold average, tab. rewrite !map_length. unfold Rdiv. rewrite <- Rmult_assoc. f_equal. rewrite <- rsum_map_scal. f_equal. apply map_ext. intros t.
        unfold sqlen. rewrite <- rsum_map_scal. f_equal. apply map_ext. intros i. replace (coord (sum3 (at_time (abs_arr (values d)) t)) i) with (part (sum3 (at_time (abs_arr (values d)) t)) i) by now destruct i. ring. }
      rewrite E0. pose proof (mstd_bound axes (abs_arr (values d))) as MB. rewrite msd_abs in MB. cbn [abs_arr values a_rows] in MB. rewrite !map_length in MB. fold N in MB.
      assert (MB' : (mstd_of axes (abs_arr (values d)) <= N * N * msd_of axes (values d))%R).
      { apply MB; [apply map_wf, map_wf, W|]. unfold entries, abs_arr. cbn [a_rows]. rewrite <- concat_map, map_length. now apply entries_pos. }
      assert (N0 : (0 <= N)%R) by apply pos_INR. assert (e0 : (0 < eps)%R) by (unfold eps; lra).
      assert (C0 : (0 <= 2 * N * eps)%R) by (apply Rmult_le_pos; lra).
      assert (M0 := msd_nonneg axes (values d)).
      replace (N * N * / 2 ^ 52)%R with (N * (2 * N * eps))%R by (unfold eps; cbn [pow]; field).
      rewrite <- (sqrt_square (N * (2 * N * eps))) by (now apply Rmult_le_pos). rewrite <- sqrt_mult by (try apply Rle_0_sqr; exact M0). apply sqrt_le_1_alt.
      replace (N * (2 * N * eps) * (N * (2 * N * eps)) * msd_of axes (values d))%R with (2 * N * eps * (2 * N * eps) * (N * N * msd_of axes (values d)))%R by ring.
      apply Rmult_le_compat_l; [now apply Rmult_le_pos|exact MB']. }
    assert (S2 : (Rabs (sqrt (mstd_of axes (values d)) - sqrt e) <= sqrt (average (tab (a_obs d) (fun t => rsum (map (fun i => h t i * h t i) axes)))))%R).
    { unfold mstd_of, e. cbn [values a_obs]. unfold tab. apply (rms_close2 axes _ _ h _ NE). intros t i Ht. apply Hex. now apply IT. }
    set (A1 := (N * N * / 2 ^ 52 * sqrt (msd_of axes (values d)))%R) in *.
    set (A2 := sqrt (average (tab (a_obs d) (fun t => rsum (map (fun i => h t i * h t i)%R axes))))) in *.
    assert (ms0 : (0 <= ms)%R) by apply msd_nonneg.
    assert (KB : (0 <= K <= 1125899906842624)%R).
    { split; [apply pos_INR|]. unfold K. rewrite INR_IZR_INZ. apply IZR_le. exact O2. }
    assert (K0 : (0 <= (2 * K + 16) * eps <= / 2)%R) by (unfold eps; split; [apply Rmult_le_pos|]; lra).
    assert (EK : ((2 * K + 16) * eps = (K + 8) * / 2 ^ 52)%R) by (unfold eps; cbn [pow]; field).
    rewrite <- EK. set (k := ((2 * K + 16) * eps)%R) in *.
    assert (ETA : (8 * tiny = bpow radix2 (-536) * bpow radix2 (-536))%R).
    { unfold tiny. replace eps with (bpow radix2 (-53)) by reflexivity. change 8%R with (bpow radix2 3). rewrite <- !bpow_plus. reflexivity. }
    rewrite ETA in E.
    assert (RT : (Rabs (sqrt (value r) - sqrt ms) <= k * sqrt ms + bpow radix2 (-536))%R).
    { apply root_close; try apply sqrt_pos; [lra|apply bpow_ge_0|]. rewrite !sqrt_sqrt by assumption. exact E. }
    rewrite (bpow_powerRZ radix2) in RT. change (IZR radix2) with 2%R in RT.
    assert (A10 : (0 <= A1)%R) by (eapply Rle_trans; [apply Rabs_pos|exact S1]). assert (A20 : (0 <= A2)%R) by apply sqrt_pos.
    apply abs_le in S1, S2, RT.
    assert (KM : (k * sqrt ms <= k * sqrt e + / 2 * (A1 + A2))%R).
    { apply Rle_trans with (k * (sqrt e + (A1 + A2)))%R; [apply Rmult_le_compat_l; lra|]. rewrite Rmult_plus_distr_l. apply Rplus_le_compat_l. apply Rmult_le_compat_r; lra. }
    apply abs_le. lra.
  Qed.
End OneInterval.

Lemma rsum_map_const0 {T} axes (l : list T) : rsum (map (fun _ => rsum (map (fun _ : axis => 0 * 0)%R axes)) l) = 0%R.
Proof.
  assert (E : rsum (map (fun _ : axis => (0 * 0)%R) axes) = 0%R) by (induction axes as [|a axes IH]; [reflexivity|]; cbn [map]; rewrite rsum_cons, IH; ring).
  rewrite E. induction l as [|t l IH]; [reflexivity|]. cbn [map]. rewrite rsum_cons, IH. ring.
Qed.
Lemma small_power : (powerRZ 2 (-536) <= powerRZ 2 (-535))%R.
Proof. change 2%R with (IZR radix2). rewrite <- !bpow_powerRZ. apply bpow_le. lia. Qed.

(** ** What the loop reports *)
Section Loop.
  Context {A : Type} {NA : Num A} {G Seed RS : Type} (X : Ext A G Seed RS).
  Definition many (l : list A) : bool := negb (length l <=? 1)%nat.
  Lemma coll_loop_n u Q (q : Arr A -> list A) ns n_o sl axes : (forall v : V3 A, apply_slice sl (components v) = Ok (map (part v) axes)) -> u_block u = false ->
    forall ds i b g b' g', (forall d, In d ds -> Q d (map (map (fun v => map (part v) axes)) (a_rows d)) = Ok (q d)) ->
    b_slice b = sl -> boot_loop X u Q ns n_o i ds b g = Ok (b', g') ->
    b_n b' = (b_n b ++ map (fun d => nmean (q d)) (filter (fun d => many (q d)) ds))%list.
  Proof.
    intros HS HB. induction ds as [|d ds IH]; intros i b g b' g' HQ Sl H; cbn [boot_loop] in H.
    - injection H as <- _. cbn. now rewrite app_nil_r.
    - inv_bind H p E. destruct p as [b1 g1]. unfold boot_step in E. rewrite Sl, (disp_slice_parts _ _ d HS) in E.
      cbn beta iota delta [bind] in E. rewrite (HQ d (or_introl eq_refl)) in E. cbn beta iota delta [bind] in E. cbn [filter]. unfold many at 1.
      assert (HQ' : forall d', In d' ds -> Q d' (map (map (fun v => map (part v) axes)) (a_rows d')) = Ok (q d')) by (intros; apply HQ; now right).
      destruct (length (q d) <=? 1)%nat; cbn [negb].
      + injection E as <- <-. exact (IH _ _ _ _ _ HQ' Sl H).
      + rewrite HB in E. inv_bind E p E1. destruct p as [bo g2]. inv_bind E p E2. destruct p as [n v]. inv_bind E2 no E3. injection E2 as <- <-.
        inv_bind E vi E4. inv_bind E dt E5. injection E as <- <-. apply IH in H; [|exact HQ'|exact Sl]. rewrite H. cbn [push_results b_n map]. now rewrite <- app_assoc.
  Qed.
End Loop.
Lemma first_half_half {T} (l : list T) : first_half l = firstn (Nat.div (length l) 2) l.
Proof. reflexivity. Qed.
Lemma in_firstn {T} (x : T) k l : In x (firstn k l) -> In x l.
Proof. revert l. induction k; intros [|y l] H; cbn in H; try contradiction. destruct H as [H|H]; [now left|right; now apply IHk]. Qed.
Lemma dims_axes d axes sl : dict_get (pystr_lower d) DIMENSIONALITY = Ok sl -> names (pystr_text d) axes -> pystr_len (pystr_lower d) = length axes.
Proof.
  intros H N. destruct (dimension_lookup d) as [(axes' & sl' & N' & _ & _ & L)|[_ D]]; [|congruence]. assert (axes = axes') by (eapply names_unique; eauto). now subst.
Qed.
Lemma below_powerRZ e x : finite_double x /\ (Rabs (value x) <= powerRZ 2 e)%R -> below e x.
Proof. intros [F H]. split; [exact F|]. rewrite bpow_powerRZ. exact H. Qed.
Lemma components_below_rows e d : components_below e d -> Forall (Forall (fun v => forall i, below e (part v i))) (a_rows d).
Proof. intros H. eapply Forall_impl; [|exact H]. intros row. apply Forall_impl. intros v Hv i. apply below_powerRZ, Hv. Qed.
Lemma rows_le d : Z.of_nat (length (a_rows (A := spec_float) d)) <= 2 ^ 20 -> (INR (length (a_rows d)) <= 1048576)%R.
Proof. intros H. rewrite INR_IZR_INZ. apply IZR_le. exact H. Qed.

(** ** Mean squared total displacements *)
Lemma stored_total axes (d : Arr spec_float) : (length axes <= 3)%nat -> arr_wf d -> components_below 300 d ->
  (0 < length (a_rows d))%nat -> Z.of_nat (length (a_rows d)) <= 2 ^ 20 -> (0 < a_obs d)%nat -> Z.of_nat (a_obs d) <= 2 ^ 50 ->
  sum_accurate (a_obs d) (length (a_rows d)) (msd_of axes (values d)) (nmean (lengths2 axes (totals d))) (mstd_of axes (values d)).
Proof.
  intros LA W B N1 N2 O1 O2.
  destruct (coll_main axes d LA W (components_below_rows _ _ B) (rows_le d N2) O1 O2 (fun t => sum3 (at_time (values d) t)) (fun _ _ => 0%R) N1) as (F & P & E).
  { intros t i _. rewrite Rminus_eq_0, Rabs_R0. lra. }
  split; [exact F|]. split; [exact P|]. change (average (tab (a_obs d) (fun t => sqlen axes (sum3 (at_time (values d) t))))) with (mstd_of axes (values d)) in E.
  assert (Z0 : sqrt (average (tab (a_obs d) (fun _ => rsum (map (fun _ => 0 * 0)%R axes)))) = 0%R).
  { replace (average (tab (a_obs d) (fun _ => rsum (map (fun _ : axis => 0 * 0)%R axes)))) with 0%R; [apply sqrt_0|].
    unfold average, tab. rewrite rsum_map_const0. unfold Rdiv. ring. }
  rewrite Z0 in E. set (n := INR (length (a_rows d))) in *. set (s := sqrt (msd_of axes (values d))) in *.
  assert (n0 : (0 <= n)%R) by apply pos_INR. assert (s0 : (0 <= s)%R) by apply sqrt_pos.
  eapply Rle_trans; [exact E|]. rewrite Rplus_assoc. apply Rplus_le_compat_l. apply Rplus_le_compat.
  - rewrite Rplus_0_r. assert (P52 : (0 < / 2 ^ 52)%R) by (apply Rinv_0_lt_compat, pow_lt; lra). set (c := (/ 2 ^ 52)%R) in *.
    assert (0 <= n * n * (c * s))%R by (apply Rmult_le_pos; [now apply Rmult_le_pos|apply Rmult_le_pos; lra]).
    assert (0 <= n * (c * s))%R by (apply Rmult_le_pos; [lra|apply Rmult_le_pos; lra]).
    replace (2 * n * (n + 1) * c * s)%R with (2 * (n * n * (c * s)) + 2 * (n * (c * s)))%R by ring. replace (n * n * c * s)%R with (n * n * (c * s))%R by ring. lra.
  - apply small_power.
Qed.
Lemma totals_length axes d : length (lengths2 axes (totals d)) = a_obs d.
Proof. unfold lengths2, totals, entries. cbn [a_rows List.concat]. now rewrite map_length, app_nil_r, tab_length. Qed.
Lemma many_totals axes d : many (lengths2 axes (totals d)) = (1 <? a_obs d)%nat.
Proof. unfold many. rewrite totals_length. rewrite Nat.leb_antisym, negb_involutive. reflexivity. Qed.
Lemma forall2_map_filter {T U} (P : T -> U -> Prop) (f : T -> U) (c : T -> bool) l : (forall x, In x l -> c x = true -> P x (f x)) ->
  Forall2 P (filter c l) (map f (filter c l)).
Proof.
  induction l as [|x l IH]; intros H; [constructor|]. cbn [filter]. assert (IH' := IH (fun y Hy => H y (or_intror Hy))).
  destruct (c x) eqn:E; [|exact IH']. cbn [map]. constructor; [|exact IH']. apply H; [now left|exact E].
Qed.
Lemma C98_mstd_proof {G Seed RS} (X : Ext spec_float G Seed RS) u dts disps n_o g b g' : 0 < u_sub_sample_dt u -> u_block u = false ->
  Forall arr_wf disps -> Forall (components_below 300) disps -> Forall countable disps ->
  mstd_bootstrap X u dts disps n_o g = Ok (b, g') ->
  exists axes used, names (pystr_text (u_dimension u)) axes /\ sub_sample (Z.to_nat (u_sub_sample_dt u)) disps used
    /\ Forall2 (fun d r => sum_accurate (a_obs d) (length (a_rows d)) (msd_of axes (values d)) r (mstd_of axes (values d)))
         (filter (fun d => 1 <? a_obs d)%nat (firstn (Nat.div (length used) 2) used)) (b_n b).
Proof.
  intros Hk HB HW HC HN H. unfold mstd_bootstrap in H. inv_bind H b0 E. inv_bind H p E1. destruct p as [b1 g1]. injection H as <- _.
  unfold bootstrap_init in E. inv_bind E ds D1. inv_bind E ts D2. inv_bind E d0 D3. inv_bind E sl D4. injection E as <-.
  destruct (dimension_parts (A := spec_float) _ _ D4) as (axes & N & L & S). exists axes, ds. split; [exact N|].
  assert (SS : sub_sample (Z.to_nat (u_sub_sample_dt u)) disps ds) by (now apply stride_sub). split; [exact SS|].
  cbn [b_displacements b_dims] in E1. rewrite (dims_axes _ _ _ D4 N) in E1.
  assert (IN : forall d, In d (first_half ds) -> arr_wf d /\ components_below 300 d /\ countable d).
  { intros d Hd. apply in_firstn in Hd.
    pose proof (forall_sub_sample _ _ _ _ SS HW) as F1. pose proof (forall_sub_sample _ _ _ _ SS HC) as F2. pose proof (forall_sub_sample _ _ _ _ SS HN) as F3.
    rewrite Forall_forall in F1, F2, F3. auto. }
  apply (coll_loop_n X u _ (fun d => lengths2 axes (totals d)) _ _ sl axes S HB) in E1; [|intros d Hd; now rewrite coll_totals by apply IN, Hd|reflexivity].
  cbn [trim_n_o b_n]. rewrite E1. cbn [b_n app]. rewrite (filter_ext (fun d => many (lengths2 axes (totals d))) (fun d => 1 <? a_obs d)%nat (fun d => many_totals axes d)).
  apply forall2_map_filter. intros d Hd O. apply Nat.ltb_lt in O. destruct (IN d Hd) as (I1 & I2 & I3 & I4 & I5).
  apply stored_total; try assumption; lia.
Qed.

(** ** Mean squared charge displacements *)
Definition scaleF (c : spec_float) (v : V3 spec_float) : V3 spec_float := mkV (nmul c (vx v)) (nmul c (vy v)) (nmul c (vz v)).
Definition weighF (q : list spec_float) (d : Arr spec_float) : Arr spec_float :=
  mkArr (a_obs d) (map (fun p => map (scaleF (fst p)) (snd p)) (combine q (a_rows d))).
Lemma sq_chg_totals q d : length q = length (a_rows d) -> arr_wf d -> arr_wf (weighF q d) -> sq_chg_motion q d = Ok (lengths2 all_axes (totals (weighF q d))).
Proof.
  intros Hq H HW. unfold sq_chg_motion, broadcast2. rewrite (proj2 (Nat.eqb_eq _ _) Hq). cbn [bind]. f_equal.
  rewrite <- coll_totals by exact HW. unfold weighF. cbn [a_obs a_rows length all_axes]. f_equal. unfold zip_with. rewrite map_map.
  apply map_ext. intros [c row]. cbn [fst snd]. rewrite map_map. apply map_ext. intros v. reflexivity.
Qed.
Lemma weighF_wf q d : arr_wf d -> arr_wf (weighF q d).
Proof.
  unfold arr_wf, weighF. cbn [a_rows a_obs]. intros H. revert q. induction H as [|row rows Hr H IH]; intros [|c q]; cbn; try constructor.
  - now rewrite map_length. - apply IH.
Qed.
Lemma charged_wf q d : arr_wf d -> arr_wf (charged q d).
Proof.
  unfold arr_wf, charged. cbn [a_rows a_obs]. intros H. revert q. induction H as [|row rows Hr H IH]; intros [|c q]; cbn; try constructor.
  - now rewrite map_length. - apply IH.
Qed.
Lemma charged_weigh q d : charged q d = weigh q d.
Proof. reflexivity. Qed.
Lemma err_abs r : (Rabs (rnd r - r) <= eps * Rabs r + tiny)%R.
Proof.
  pose proof tiny_pos. destruct eps_range. destruct (Rle_or_lt (bpow radix2 (-1022)) (Rabs r)) as [L|L].
  - pose proof (err_le r (Rabs r) L (Rle_refl _)). lra.
  - pose proof (err_le r (bpow radix2 (-1022)) (Rle_refl _) (Rlt_le _ _ L)). unfold tiny in *. assert (0 <= eps * Rabs r)%R by (apply Rmult_le_pos; [lra|apply Rabs_pos]). lra.
Qed.
Lemma rms_add {T} axes (f : T -> axis -> R) a c l : (length axes <= 3)%nat -> l <> [] -> (0 <= a)%R -> (0 <= c)%R ->
  (sqrt (average (map (fun t => rsum (map (fun i => (a * f t i + c) * (a * f t i + c)) axes)) l))
   <= 2 * a * sqrt (average (map (fun t => rsum (map (fun i => f t i * f t i) axes)) l)) + 3 * c)%R.
Proof.
  intros LA NE A0 C0. set (F := average (map (fun t => rsum (map (fun i => (f t i * f t i)%R) axes)) l)).
  assert (F0 : (0 <= F)%R) by (apply average_nonneg'; intros t; apply rsum_map_nonneg; intros i; apply Rle_0_sqr).
  pose proof (sqrt_pos F) as S0. pose proof (sqrt_sqrt F F0) as SS.
  assert (AS : (0 <= 2 * a * sqrt F)%R) by (apply Rmult_le_pos; lra).
  rewrite <- (sqrt_square (2 * a * sqrt F + 3 * c)) by lra. apply sqrt_le_1_alt.
  assert (N1 : (1 <= INR (length l))%R) by (change 1%R with (INR 1); apply le_INR; destruct l; [congruence|cbn; lia]).
  assert (B : (average (map (fun t => rsum (map (fun i => (a * f t i + c) * (a * f t i + c)) axes)) l) <= 2 * (a * a) * F + 6 * (c * c))%R).
  { unfold F, average. rewrite !map_length. set (N := INR (length l)) in *. assert (IN : (0 < / N)%R) by (apply Rinv_0_lt_compat; lra).
    replace (2 * (a * a) * (rsum (map (fun t => rsum (map (fun i => (f t i * f t i)%R) axes)) l) / N) + 6 * (c * c))%R
      with ((rsum (map (fun t => 2 * (a * a) * rsum (map (fun i => (f t i * f t i)%R) axes)) l) + N * (6 * (c * c))) * / N)%R.
    2: { rewrite rsum_map_scal. field. lra. }
    unfold Rdiv. apply Rmult_le_compat_r; [lra|]. unfold N. rewrite <- rsum_repeat.
    assert (ER : repeat (6 * (c * c))%R (length l) = map (fun _ => (6 * (c * c))%R) l) by (clear; induction l as [|t l IH]; [reflexivity|]; cbn; now rewrite IH).
    rewrite ER, <- rsum_map_plus. apply rsum_map_le. intros t _.
    apply Rle_trans with (rsum (map (fun i => 2 * (a * a) * (f t i * f t i) + 2 * (c * c)) axes))%R.
    - apply rsum_map_le. intros i _. pose proof (Rle_0_sqr (a * f t i - c)) as Q. unfold Rsqr in Q. nra.
    - rewrite rsum_map_plus, rsum_map_scal. apply Rplus_le_compat_l.
      assert (EC : rsum (map (fun _ : axis => (2 * (c * c))%R) axes) = (INR (length axes) * (2 * (c * c)))%R) by (clear; induction axes as [|x axes IH]; [cbn; lra|]; cbn [map length]; rewrite rsum_cons, IH, S_INR; ring).
      rewrite EC. assert (L3 : (INR (length axes) <= 3)%R) by (change 3%R with (INR 3) || (replace 3%R with (INR 3) by (cbn; lra)); now apply le_INR).
      assert (C2 : (0 <= c * c)%R) by apply Rle_0_sqr. apply Rle_trans with (3 * (2 * (c * c)))%R; [apply Rmult_le_compat_r; lra|lra]. }
  eapply Rle_trans; [exact B|]. assert (0 <= a * sqrt F * c)%R by (apply Rmult_le_pos; [apply Rmult_le_pos; lra|exact C0]).
  assert (0 <= a * a * F)%R by (apply Rmult_le_pos; [apply Rle_0_sqr|exact F0]). assert (0 <= c * c)%R by apply Rle_0_sqr.
  replace ((2 * a * sqrt F + 3 * c) * (2 * a * sqrt F + 3 * c))%R with (4 * (a * a * (sqrt F * sqrt F)) + 12 * (a * sqrt F * c) + 9 * (c * c))%R by ring. rewrite SS. lra.
Qed.
Lemma charged_rows rows : forall q, length q = length rows ->
  map (fun p => map (scale3 (fst p)) (snd p)) (combine (map value q) (map (map values3) rows)) = map (fun p => map (fun v => scale3 (value (fst p)) (values3 v)) (snd p)) (combine q rows).
Proof.
  induction rows as [|r rows IH]; intros [|c q] H; try discriminate; [reflexivity|]. cbn [map combine fst snd]. rewrite IH by (cbn in H; lia). f_equal. now rewrite map_map.
Qed.
Section Charged.
  Context (q : list spec_float) (d : Arr spec_float).
  Hypothesis Hq : length q = length (a_rows d).
  Hypothesis W : arr_wf d.
  Hypothesis B : components_below 200 d.
  Hypothesis BQ : Forall (fun c => finite_double c /\ (Rabs (value c) <= powerRZ 2 100)%R) q.
  Let E := charged (map value q) (values d).
  Let pairs := combine q (a_rows d).
  Lemma in_pairs p : In p pairs -> below 100 (fst p) /\ length (snd p) = a_obs d /\ Forall (fun v => forall i, below 200 (part v i)) (snd p).
  Proof.
    intros H. destruct p as [c row]. cbn [fst snd]. pose proof (in_combine_l _ _ _ _ H) as H1. pose proof (in_combine_r _ _ _ _ H) as H2.
    rewrite Forall_forall in BQ. unfold arr_wf in W. rewrite Forall_forall in W. pose proof (components_below_rows _ _ B) as B'. rewrite Forall_forall in B'.
    split; [apply below_powerRZ, BQ, H1|]. split; [now apply W|now apply B'].
  Qed.
  Lemma product_close c v i : below 100 c -> below 200 (part v i) -> below 300 (part (scaleF c v) i)
    /\ (Rabs (value (part (scaleF c v) i) - part (scale3 (value c) (values3 v)) i) <= eps * Rabs (part (scale3 (value c) (values3 v)) i) + tiny)%R.
  Proof.
    intros [Fc Bc] [Fv Bv]. assert (ES : part (scaleF c v) i = SFmul fprec femax c (part v i)) by now destruct i.
    assert (EE : part (scale3 (value c) (values3 v)) i = (value c * value (part v i))%R) by now destruct i.
    rewrite ES, EE.
    assert (PB : (Rabs (value c * value (part v i)) <= bpow radix2 300)%R).
    { rewrite Rabs_mult. change 300 with (100 + 200). rewrite bpow_plus. apply Rmult_le_compat; try apply Rabs_pos; assumption. }
    destruct (fv_mul c (part v i) _ _ (fv_self _ Fc) (fv_self _ Fv)) as [F' E'].
    { eapply Rle_trans; [exact PB|]. apply bpow_le. lia. }
    split; [split; [exact F'|]; rewrite E'; apply rnd_bpow; [lia|exact PB]|]. rewrite E'. apply err_abs.
  Qed.
  Lemma rows_W : a_rows (values (weighF q d)) = map (fun p => map (fun v => values3 (scaleF (fst p) v)) (snd p)) pairs.
  Proof. unfold values, weighF, pairs. cbn [a_rows]. rewrite map_map. apply map_ext. intros p. now rewrite map_map. Qed.
  Lemma rows_E : a_rows E = map (fun p => map (fun v => scale3 (value (fst p)) (values3 v)) (snd p)) pairs.
  Proof.
    exact (charged_rows _ _ Hq).
  Qed.
  Lemma pairs_length : length pairs = length (a_rows d).
  Proof. unfold pairs. rewrite combine_length. lia. Qed.
  Lemma weigh_below : components_below 300 (weighF q d).
  Proof.
    unfold components_below, weighF. cbn [a_rows]. apply Forall_map, Forall_forall. intros p Hp. destruct (in_pairs p Hp) as (B1 & _ & B2).
    apply Forall_map. eapply Forall_impl; [|exact B2]. intros v Hv i. destruct (product_close (fst p) v i B1 (Hv i)) as [[F Bd] _]. split; [exact F|]. rewrite (bpow_powerRZ radix2) in Bd. exact Bd.
  Qed.
  Lemma E_wf : arr_wf E.
  Proof. unfold E. apply charged_wf. now apply map_wf. Qed.
  Lemma E_entries : length (entries E) = (length (a_rows d) * a_obs d)%nat.
  Proof. rewrite entries_count by apply E_wf. rewrite rows_E, map_length, pairs_length. reflexivity. Qed.
  Lemma at_W t : (t < a_obs d)%nat -> at_time (values (weighF q d)) t = map (fun p => values3 (scaleF (fst p) (nth t (snd p) v0))) pairs.
  Proof.
    intros Ht. rewrite (at_time_any zero3) by (try (apply map_wf, weighF_wf, W); exact Ht). rewrite rows_W, map_map. apply map_ext_in. intros p Hp.
    destruct (in_pairs p Hp) as (_ & L & _). rewrite (nth_indep _ zero3 ((fun v => values3 (scaleF (fst p) v)) v0)) by (rewrite map_length; lia). apply (map_nth (fun v => values3 (scaleF (fst p) v))).
  Qed.
  Lemma at_E t : (t < a_obs d)%nat -> at_time E t = map (fun p => scale3 (value (fst p)) (values3 (nth t (snd p) v0))) pairs.
  Proof.
    intros Ht. rewrite (at_time_any zero3) by (try apply E_wf; exact Ht). rewrite rows_E, map_map. apply map_ext_in. intros p Hp.
    destruct (in_pairs p Hp) as (_ & L & _). rewrite (nth_indep _ zero3 ((fun v => scale3 (value (fst p)) (values3 v)) v0)) by (rewrite map_length; lia). apply (map_nth (fun v => scale3 (value (fst p)) (values3 v))).
  Qed.
  Let N := INR (length (a_rows d)).
  Lemma sum_products t i : (t < a_obs d)%nat ->
    (Rabs (part (sum3 (at_time (values (weighF q d)) t)) i - part (sum3 (at_time E t)) i) <= eps * part (sum3 (at_time (abs_arr E) t)) i + N * tiny)%R.
  Proof.
    intros Ht. rewrite !part_sum3. unfold abs_arr. rewrite at_time_map. rewrite at_W, at_E by exact Ht. rewrite !map_map. unfold N. rewrite <- pairs_length.
    assert (H : forall p, In p pairs -> (Rabs (part (values3 (scaleF (fst p) (nth t (snd p) v0))) i - part (scale3 (value (fst p)) (values3 (nth t (snd p) v0))) i)
       <= eps * part (abs3 (scale3 (value (fst p)) (values3 (nth t (snd p) v0)))) i + tiny)%R).
    { intros p Hp. destruct (in_pairs p Hp) as (B1 & L & B2). rewrite Forall_forall in B2. rewrite part_values.
      replace (part (abs3 (scale3 (value (fst p)) (values3 (nth t (snd p) v0)))) i) with (Rabs (part (scale3 (value (fst p)) (values3 (nth t (snd p) v0))) i)) by now destruct i.
      apply product_close; [exact B1|]. apply B2, nth_In. lia. }
    revert H. generalize pairs. intros l. induction l as [|p l IH]; intros H; [cbn; rewrite Rminus_eq_0, Rabs_R0; lra|].
    cbn [map length]. rewrite !rsum_cons, S_INR. pose proof (H p (or_introl eq_refl)) as H1. specialize (IH (fun p' Hp' => H p' (or_intror Hp'))). apply abs_le in H1, IH. apply abs_le. lra.
  Qed.
  Lemma single_products : (0 < length (a_rows d))%nat -> (0 < a_obs d)%nat ->
    (sqrt (msd_of all_axes (values (weighF q d))) <= (1 + 2 * eps) * sqrt (msd_of all_axes E) + 3 * tiny)%R.
  Proof.
    intros N1 O1. pose (J := List.concat (map (fun p => map (pair (fst p)) (snd p)) pairs)).
    assert (EW : msd_of all_axes (values (weighF q d)) = average (map (fun j => sqlen all_axes (values3 (scaleF (fst j) (snd j)))) J)).
    { unfold msd_of, entries. rewrite rows_W. unfold J. rewrite !concat_map, !map_map. f_equal. f_equal. apply map_ext. intros p. now rewrite !map_map. }
    assert (EE : msd_of all_axes E = average (map (fun j => sqlen all_axes (scale3 (value (fst j)) (values3 (snd j)))) J)).
    { unfold msd_of, entries. rewrite rows_E. unfold J. rewrite !concat_map, !map_map. f_equal. f_equal. apply map_ext. intros p. now rewrite !map_map. }
    assert (LJ : length J = length (entries E)).
    { unfold entries. rewrite rows_E. unfold J. rewrite <- (map_length (fun j => scale3 (value (fst j)) (values3 (snd j)))), concat_map, map_map. f_equal. f_equal. apply map_ext. intros p. now rewrite map_map. }
    assert (NE : J <> []) by (intros Q; rewrite Q, E_entries in LJ; cbn in LJ; nia).
    assert (e0 : (0 < eps)%R) by (unfold eps; lra). pose proof tiny_pos as t0.
    pose proof (rms_close2 all_axes (fun j => values3 (scaleF (fst j) (snd j))) (fun j => scale3 (value (fst j)) (values3 (snd j)))
      (fun j i => eps * Rabs (part (scale3 (value (fst j)) (values3 (snd j))) i) + tiny)%R J NE) as C.
    cbv beta in C. rewrite <- EW, <- EE in C.
    pose proof (rms_add all_axes (fun j i => Rabs (part (scale3 (value (fst j)) (values3 (snd j))) i)) eps tiny J ltac:(cbn; lia) NE ltac:(lra) ltac:(lra)) as D.
    assert (EF : average (map (fun t => rsum (map (fun i => Rabs (part (scale3 (value (fst t)) (values3 (snd t))) i) * Rabs (part (scale3 (value (fst t)) (values3 (snd t))) i))%R all_axes)) J) = msd_of all_axes E).
    { rewrite EE. f_equal. apply map_ext. intros j. unfold sqlen. f_equal. apply map_ext. intros i. rewrite <- Rabs_mult, Rabs_pos_eq by apply Rle_0_sqr. now destruct i. }
    cbv beta in D. rewrite EF in D.
    assert (C' := Rle_trans _ _ _ (C ltac:(intros [c v] i Hj; cbn [fst snd]; unfold J in Hj; apply in_concat in Hj as (r & Hr & Hj); apply in_map_iff in Hr as (p & <- & Hp); apply in_map_iff in Hj as (v' & [= <- <-] & Hv);
      destruct (in_pairs p Hp) as (B1 & _ & B2); rewrite Forall_forall in B2; rewrite part_values; apply product_close; [exact B1|now apply B2])) D).
    apply abs_le in C'. lra.
  Qed.
  Lemma stored_charge : (0 < length (a_rows d))%nat -> Z.of_nat (length (a_rows d)) <= 2 ^ 20 -> (0 < a_obs d)%nat -> Z.of_nat (a_obs d) <= 2 ^ 50 ->
    sum_accurate (a_obs d) (length (a_rows d)) (msd_of all_axes E) (nmean (lengths2 all_axes (totals (weighF q d)))) (mstd_of all_axes E).
  Proof.
    intros N1 N2 O1 O2. assert (LW : length (a_rows (weighF q d)) = length (a_rows d)) by (unfold weighF; cbn [a_rows]; rewrite map_length; apply pairs_length).
    assert (N1' : (0 < length (a_rows (weighF q d)))%nat) by (now rewrite LW).
    assert (N2' : (INR (length (a_rows (weighF q d))) <= 1048576)%R) by (rewrite LW; now apply rows_le).
    pose proof (coll_main all_axes (weighF q d) ltac:(cbn; lia) (weighF_wf q d W) (components_below_rows _ _ weigh_below) N2' O1 O2
      (fun t => sum3 (at_time E t)) (fun t i => eps * part (sum3 (at_time (abs_arr E) t)) i + N * tiny)%R N1' sum_products) as M.
    cbn [weighF a_obs] in M. rewrite LW in M. fold N in M. destruct M as (F & P & M). split; [exact F|]. split; [exact P|].
    change (average (tab (a_obs d) (fun t => sqlen all_axes (sum3 (at_time E t))))) with (mstd_of all_axes E) in M.
    fold (weighF q d) in M.
    assert (N0 : (1 <= N)%R) by (unfold N; change 1%R with (INR 1); apply le_INR; lia). assert (N3 : (N <= 1048576)%R) by (now apply rows_le).
    assert (NE : seq 0 (a_obs d) <> []) by (destruct (a_obs d); [lia|discriminate]).
    pose proof tiny_pos as t0. assert (e0 : (0 < eps)%R) by (unfold eps; lra).
    pose proof (rms_add all_axes (fun t i => part (sum3 (at_time (abs_arr E) t)) i) eps (N * tiny) (seq 0 (a_obs d)) ltac:(cbn; lia) NE ltac:(lra) ltac:(apply Rmult_le_pos; lra)) as D.
    assert (EF : average (map (fun t => rsum (map (fun i => (part (sum3 (at_time (abs_arr E) t)) i * part (sum3 (at_time (abs_arr E) t)) i)%R) all_axes)) (seq 0 (a_obs d))) = mstd_of all_axes (abs_arr E)).
    { reflexivity. }
    cbv beta in D. rewrite EF in D. fold (tab (a_obs d) (fun t => rsum (map (fun i => ((eps * part (sum3 (at_time (abs_arr E) t)) i + N * tiny) * (eps * part (sum3 (at_time (abs_arr E) t)) i + N * tiny))%R) all_axes))) in D.
    pose proof (mstd_bound all_axes (abs_arr E)) as MB. rewrite msd_abs in MB. assert (LE : length (a_rows (abs_arr E)) = length (a_rows d)) by (unfold abs_arr; cbn [a_rows]; rewrite map_length, rows_E, map_length; apply pairs_length).
    rewrite LE in MB. fold N in MB.
    assert (MB' : (mstd_of all_axes (abs_arr E) <= N * N * msd_of all_axes E)%R).
    { apply MB; [apply map_wf, E_wf|]. unfold entries, abs_arr. cbn [a_rows]. rewrite <- concat_map, map_length. fold (entries E). rewrite E_entries. now apply Nat.mul_pos_pos. }
    pose proof (single_products N1 O1) as SP. set (s := sqrt (msd_of all_axes E)) in *. assert (s0 : (0 <= s)%R) by apply sqrt_pos.
    assert (SM : (sqrt (mstd_of all_axes (abs_arr E)) <= N * s)%R).
    { unfold s. rewrite <- (sqrt_square N) at 1 by lra. rewrite <- sqrt_mult by (try apply msd_nonneg; apply Rle_0_sqr). now apply sqrt_le_1_alt. }
    set (A2 := sqrt (average (tab (a_obs d) _))) in M, D. set (A1 := sqrt (msd_of all_axes (values (weighF q d)))) in *.
    eapply Rle_trans; [exact M|]. rewrite Rplus_assoc. apply Rplus_le_compat_l.
    set (c := (/ 2 ^ 52)%R) in *. assert (Ec : c = (2 * eps)%R) by (unfold c, eps; cbn [pow]; field). rewrite Ec in *. clear c Ec.
    assert (X1 : (eps * (N * s) <= eps * (N * N * s))%R).
    { apply Rmult_le_compat_l; [lra|]. apply Rmult_le_compat_r; [lra|]. nra. }
    assert (X2 : (A2 <= 2 * (eps * (N * s)) + 3 * (N * tiny))%R).
    { eapply Rle_trans; [exact D|]. apply Rplus_le_compat_r. rewrite Rmult_assoc. apply Rmult_le_compat_l; [lra|]. apply Rmult_le_compat_l; lra. }
    assert (X3 : (N * N * (2 * eps) * A1 <= (2 + 1 / 100) * (eps * (N * N * s)) + 6 * (N * tiny))%R).
    { assert (C0 : (0 <= N * N * (2 * eps))%R) by (apply Rmult_le_pos; nra).
      eapply Rle_trans; [apply Rmult_le_compat_l; [exact C0|exact SP]|]. rewrite Rmult_plus_distr_l. apply Rplus_le_compat.
      - replace (N * N * (2 * eps) * ((1 + 2 * eps) * s))%R with ((2 * (1 + 2 * eps)) * (eps * (N * N * s)))%R by ring. apply Rmult_le_compat_r; [apply Rmult_le_pos; [lra|]; apply Rmult_le_pos; nra|]. unfold eps. lra.
      - replace (N * N * (2 * eps) * (3 * tiny))%R with ((N * eps) * (6 * (N * tiny)))%R by ring. rewrite <- (Rmult_1_l (6 * (N * tiny))) at 2. apply Rmult_le_compat_r; [|unfold eps; lra].
        apply Rmult_le_pos; [lra|]. apply Rmult_le_pos; lra. }
    assert (X4 : (27 / 2 * (N * tiny) <= powerRZ 2 (-536))%R).
    { change 2%R with (IZR radix2) at 2. rewrite <- (bpow_powerRZ radix2). apply Rle_trans with (bpow radix2 4 * (bpow radix2 20 * (bpow radix2 (-53) * bpow radix2 (-1022))))%R; [|rewrite <- !bpow_plus; apply bpow_le; lia].
      unfold tiny. replace eps with (bpow radix2 (-53)) by reflexivity. assert (0 < bpow radix2 (-53) * bpow radix2 (-1022))%R by (apply Rmult_lt_0_compat; apply bpow_gt_0).
      change (bpow radix2 4) with 16%R. change (bpow radix2 20) with 1048576%R. nra. }
    assert (X5 : (powerRZ 2 (-536) + powerRZ 2 (-536) = powerRZ 2 (-535))%R).
    { change 2%R with (IZR radix2). rewrite <- !bpow_powerRZ. change (-535) with (1 + -536). rewrite bpow_plus. change (bpow radix2 1) with 2%R. ring. }
    rewrite <- X5. fold N. replace (2 * N * (N + 1) * (2 * eps) * s)%R with (4 * (eps * (N * N * s)) + 4 * (eps * (N * s)))%R by ring.
    assert (0 <= eps * (N * s))%R by (apply Rmult_le_pos; [lra|]; apply Rmult_le_pos; lra). lra.
  Qed.
End Charged.
Lemma mscd_charged q d : length q = length (a_rows d) -> arr_wf d -> mscd_of all_axes q d = mstd_of all_axes (charged q d).
Proof.
  intros Hq W. unfold mscd_of, mstd_of. cbn [charged a_obs]. apply average_tab_ext. intros t Ht. now rewrite charged_weigh, weigh_at_time.
Qed.
Lemma one_times c : finite_double c -> (Rabs (value c) <= powerRZ 2 100)%R -> finite_double (nmul n1 c) /\ value (nmul n1 c) = value c.
Proof.
  intros F B. destruct (ofZ_small 1) as [F1 E1]; [cbn; lia|].
  destruct (fv_mul (SFofZ 1) c 1 (value c) (conj F1 E1) (fv_self _ F)) as [F' E'].
  { rewrite Rmult_1_l. eapply Rle_trans; [exact B|]. change 2%R with (IZR radix2). rewrite <- bpow_powerRZ. apply bpow_le. lia. }
  split; [exact F'|]. change (nmul n1 c) with (SFmul fprec femax (SFofZ 1) c). rewrite E', Rmult_1_l. exact (fv_rep _ _ (fv_self _ F)).
Qed.
Lemma repeat_forall {T} (P : T -> Prop) x n : P x -> Forall P (repeat x n).
Proof. intros H. induction n; constructor; assumption. Qed.
Lemma C98_mscd_proof {G Seed RS} (X : Ext spec_float G Seed RS) u dts disps q n_o g b g' natoms : 0 < u_sub_sample_dt u -> u_block u = false ->
  Forall arr_wf disps -> Forall (components_below 200) disps -> Forall (fun d => length (a_rows d) = natoms) disps ->
  (0 < natoms)%nat -> Z.of_nat natoms <= 2 ^ 20 -> Forall (fun d => Z.of_nat (a_obs d) <= 2 ^ 50) disps ->
  (forall l, q = QArray l -> length l = natoms) ->
  Forall (fun c => finite_double c /\ (Rabs (value c) <= powerRZ 2 100)%R) (charge_doubles q) ->
  mscd_bootstrap X u dts disps q n_o g = Ok (b, g') ->
  exists used, sub_sample (Z.to_nat (u_sub_sample_dt u)) disps used
    /\ Forall2 (fun d r => sum_accurate (a_obs d) natoms (msd_of all_axes (charged (charge_values q natoms) (values d))) r
                             (mscd_of all_axes (charge_values q natoms) (values d)))
         (filter (fun d => 1 <? a_obs d)%nat (firstn (Nat.div (length used) 2) used)) (b_n b).
Proof.
  intros Hk HB HW HC HA N1 N2 HO HQ BQ H. unfold mscd_bootstrap in H. inv_bind H b0 E. inv_bind H d1 E0. inv_bind H p E1. destruct p as [b1 g1]. injection H as <- _.
  unfold bootstrap_init in E. inv_bind E ds D1. inv_bind E ts D2. inv_bind E d0 D3. inv_bind E sl D4. injection E as <-.
  destruct (dimension_parts (A := spec_float) _ _ D4) as (axes & N & L & S). exists ds.
  assert (SS : sub_sample (Z.to_nat (u_sub_sample_dt u)) disps ds) by (now apply stride_sub). split; [exact SS|].
  cbn [b_displacements b_dims] in E1, E0.
  pose proof (forall_sub_sample _ _ _ _ SS HW) as F1. pose proof (forall_sub_sample _ _ _ _ SS HC) as F2. pose proof (forall_sub_sample _ _ _ _ SS HA) as F3. pose proof (forall_sub_sample _ _ _ _ SS HO) as F4.
  rewrite Forall_forall in F1, F2, F3, F4.
  assert (L0 : length (a_rows d1) = natoms). { apply F3. exact (py_index_ok_inv _ _ _ E0). }
  rewrite L0 in E1. set (qs := charge_array q natoms) in *.
  assert (QL : length qs = natoms) by (unfold qs, charge_array; destruct q as [c|l]; [apply repeat_length|now apply HQ]).
  assert (QV : map value qs = charge_values q natoms /\ Forall (fun c => finite_double c /\ (Rabs (value c) <= powerRZ 2 100)%R) qs).
  { unfold qs, charge_array, charge_values. destruct q as [c|l]; cbn [charge_doubles] in BQ; [|split; [reflexivity|exact BQ]].
    apply Forall_inv in BQ as [Fc Bc]. destruct (one_times c Fc Bc) as [F' E']. split; [rewrite map_repeat', E'; reflexivity|]. apply repeat_forall. split; [exact F'|now rewrite E']. }
  destruct QV as [QV QB].
  assert (IN : forall d, In d (first_half ds) -> arr_wf d /\ components_below 200 d /\ length (a_rows d) = natoms /\ Z.of_nat (a_obs d) <= 2 ^ 50).
  { intros d Hd. apply in_firstn in Hd. auto. }
  apply (coll_loop_n X u _ (fun d => lengths2 all_axes (totals (weighF qs d))) _ _ sl axes S HB) in E1;
    [|intros d Hd; destruct (IN d Hd) as (I1 & _ & I3 & _); apply sq_chg_totals; [now rewrite I3|exact I1|now apply weighF_wf]|reflexivity].
  cbn [trim_n_o b_n]. rewrite E1. cbn [b_n app]. rewrite (filter_ext (fun d => many (lengths2 all_axes (totals (weighF qs d)))) (fun d => 1 <? a_obs d)%nat (fun d => many_totals all_axes (weighF qs d))).
  apply forall2_map_filter. intros d Hd O. apply Nat.ltb_lt in O. destruct (IN d Hd) as (I1 & I2 & I3 & I4).
  pose proof (stored_charge qs d ltac:(congruence) I1 I2 QB ltac:(lia) ltac:(lia) ltac:(lia) I4) as K. rewrite QV, I3 in K.
  rewrite mscd_charged; [exact K| |now apply map_wf]. cbn [values a_rows]. rewrite map_length, <- QV, map_length. congruence.
Qed.

(** ** From positions to mean squared total displacements *)
Section Chain.
  Context (side : V3 spec_float) (n natoms : nat) (x : nat -> nat -> V3 R) (Y : nat -> nat -> V3 spec_float) (drift idx : list Z).
  Let S' := values3 side.
  Hypothesis Hs : forall i, usual_length (part side i).
  Hypothesis Hs' : forall i, (value (part side i) <= powerRZ 2 200)%R.
  Hypothesis Hx : forall f a i, (f < n)%nat -> (a < natoms)%nat -> (Rabs (part (x (S f) a) i - part (x f a) i) <= / 2)%R.
  Hypothesis HY : forall a t i, (a < natoms)%nat -> (t < n)%nat -> finite_double (part (Y a t) i)
    /\ (Rabs (value (part (Y a t) i) - moved S' x 0 (S t) a i) <= 16 * (INR (S t) * INR (S t)) * (eps * value (part side i)))%R.
  Hypothesis Hn : (INR n <= 1048576)%R.
  Hypothesis HF : (INR (length drift) <= 1048576)%R.
  Hypothesis Hd : Forall (valid_site natoms) drift.
  Hypothesis Hi : Forall (valid_site natoms) idx.
  Hypothesis HI : (INR (length idx) <= 1048576)%R.
  Hypothesis NI : idx <> [].
  Let L i := value (part side i).
  Let ce := chain_error n (length drift).
  Lemma moved_rel_le o m a i : (o + m <= n)%nat -> (a < natoms)%nat ->
    (Rabs (part (moved_rel S' x (map (site natoms) drift) o m a) i) <= INR n * L i)%R.
  Proof.
    intros Ho Ha. assert (P : (0 < L i)%R) by (unfold L; apply (len_pos _ (L_len side Hs i))).
    assert (M : forall a', (a' < natoms)%nat -> (Rabs (moved S' x o m a' i) <= INR n * (/ 2 * L i))%R).
    { intros a' Ha'. eapply Rle_trans; [apply (moved_le side n natoms x Hs Hx); assumption|]. apply Rmult_le_compat_r; [unfold L in *; lra|]. apply le_INR. lia. }
    rewrite part_moved_rel. assert (N0 : (0 <= INR n)%R) by apply pos_INR. assert (NL : (0 <= INR n * L i)%R) by (apply Rmult_le_pos; lra).
    destruct (map (site natoms) drift) as [|f fw] eqn:E.
    - eapply Rle_trans; [now apply M|]. replace (INR n * (/ 2 * L i))%R with (/ 2 * (INR n * L i))%R by ring. lra.
    - rewrite <- E. assert (AV : (Rabs (average (map (fun f => moved S' x o m f i) (map (site natoms) drift))) <= INR n * (/ 2 * L i))%R).
      { pose proof (average_close (fun f => moved S' x o m f i) (fun _ => 0%R) (INR n * (/ 2 * L i))%R (map (site natoms) drift)) as A. rewrite E in A at 1.
        assert (Z0 : average (map (fun _ : nat => 0%R) (map (site natoms) drift)) = 0%R).
        { unfold average. replace (rsum (map (fun _ : nat => 0%R) (map (site natoms) drift))) with 0%R; [unfold Rdiv; ring|].
          generalize (map (site natoms) drift). intros l. induction l as [|y l IH]; [reflexivity|]. cbn [map]. rewrite rsum_cons, <- IH. ring. }
        rewrite Z0, Rminus_0_r in A. apply A; [discriminate|]. intros f' Hf. rewrite Rminus_0_r. apply M. apply in_map_iff in Hf as (z & <- & Hz). rewrite Forall_forall in Hd. now apply ProofsDisp.site_lt, Hd. }
      specialize (M a Ha). apply abs_le in M, AV. replace (INR n * (/ 2 * L i))%R with (/ 2 * (INR n * L i))%R in * by ring. apply abs_le. lra.
  Qed.
  Lemma chain_total axes m : axes <> [] -> (length axes <= 3)%nat -> (0 < m <= n)%nat ->
    let r := nmean (lengths2 axes (totals (gwindow natoms n (gdrift natoms drift Y) idx m))) in
    let e := exact_mstd axes S' x (map (site natoms) drift) (map (site natoms) idx) n m in
    finite_double r /\ (0 <= value r)%R
    /\ (Rabs (sqrt (value r) - sqrt e) <= (INR (n - m + 1) + 8) * / 2 ^ 52 * sqrt e
          + 2 * (INR (length idx) * INR (length idx)) * / 2 ^ 52 * sqrt (exact_msd axes S' x (map (site natoms) drift) (map (site natoms) idx) n m)
          + 2 * INR (length idx) * ce * sqrt (sqlen axes S'))%R.
  Proof.
    intros NA LA Hm. set (K := (n - m + 1)%nat). set (d := gwindow natoms n (gdrift natoms drift Y) idx m).
    assert (LI : (0 < length idx)%nat) by (destruct idx; [congruence|cbn; lia]).
    assert (IS : forall i, In i idx -> (site natoms i < natoms)%nat) by (intros i Ii; rewrite Forall_forall in Hi; now apply ProofsDisp.site_lt, Hi).
    assert (ce0 : (0 <= ce)%R).
    { unfold ce, chain_error. pose proof (pos_INR n). pose proof (pos_INR (length drift)). apply Rmult_le_pos; [apply Rmult_le_pos; lra|]. apply Rlt_le, Rinv_0_lt_compat, pow_lt. lra. }
    assert (ce1 : (ce <= 1048576 * 17825798 * / 2 ^ 51)%R).
    { unfold ce, chain_error. apply Rmult_le_compat_r; [apply Rlt_le, Rinv_0_lt_compat, pow_lt; lra|]. pose proof (pos_INR n). pose proof (pos_INR (length drift)). apply Rmult_le_compat; lra. }
    assert (WC : forall i o, In i idx -> (o < K)%nat -> forall c, below 300 (part (gobs (gdrift natoms drift Y (site natoms i)) m o) c)
       /\ (Rabs (value (part (gobs (gdrift natoms drift Y (site natoms i)) m o) c) - part (moved_rel S' x (map (site natoms) drift) o m (site natoms i)) c) <= ce * L c)%R).
    { intros i o Ii Ho c.
      destruct (window_close side n natoms x Y drift Hs Hx HY Hn HF Hd (site natoms i) m o c) as [[F _] E]; [now apply IS|lia|unfold K in Ho; lia|].
      split; [|exact E]. split; [exact F|]. pose proof (moved_rel_le o m (site natoms i) c ltac:(unfold K in Ho; lia) (IS i Ii)) as M.
      assert (P : (0 < L c)%R) by (unfold L; apply (len_pos _ (L_len side Hs c))).
      change (chain_error n (length drift)) with ce in E. change (value (part side c)) with (L c) in E.
      assert (CL : (ce * L c <= 1048576 * L c)%R). { apply Rmult_le_compat_r; [lra|]. eapply Rle_trans; [exact ce1|]. cbn [pow]. lra. }
      assert (NL : (INR n * L c <= 1048576 * L c)%R) by (apply Rmult_le_compat_r; lra).
      assert (PL : (L c <= bpow radix2 200)%R) by (rewrite (bpow_powerRZ radix2); apply Hs').
      fold S' in E. assert (E' : (Rabs (value (part (gobs (gdrift natoms drift Y (site natoms i)) m o) c) - part (moved_rel S' x (map (site natoms) drift) o m (site natoms i)) c) <= ce * L c)%R) by exact E.
      apply abs_le in E', M. apply Rle_trans with (2097152 * L c)%R; [apply abs_le; lra|].
      apply Rle_trans with (bpow radix2 21 * bpow radix2 200)%R; [change (bpow radix2 21) with 2097152%R; lra|]. rewrite <- bpow_plus. apply bpow_le. lia. }
    assert (OD : a_obs d = K) by reflexivity.
    assert (RD : a_rows d = map (fun i => tab K (gobs (gdrift natoms drift Y (site natoms i)) m)) idx) by reflexivity.
    assert (LD : length (a_rows d) = length idx) by (rewrite RD; apply map_length).
    assert (W : arr_wf d). { unfold arr_wf. rewrite RD, OD. apply Forall_map, Forall_forall. intros i _. apply tab_length. }
    assert (B : Forall (Forall (fun v => forall c, below 300 (part v c))) (a_rows d)).
    { rewrite RD. apply Forall_map, Forall_forall. intros i Ii. apply Forall_forall. intros v Iv. unfold tab in Iv. apply in_map_iff in Iv as (o & <- & Io). apply in_seq in Io. intros c. apply WC; [exact Ii|lia]. }
    assert (AT : forall t, (t < K)%nat -> at_time (values d) t = map (fun i => values3 (gobs (gdrift natoms drift Y (site natoms i)) m t)) idx).
    { intros t Ht. unfold values. rewrite at_time_map, (at_time_any v0) by assumption. rewrite RD, !map_map. apply map_ext. intros i. f_equal. apply nth_error_nth. now apply tab_nth_error. }
    pose proof (coll_main axes d LA W B ltac:(rewrite LD; exact HI) ltac:(rewrite OD; unfold K; lia) ltac:(rewrite OD; unfold K; assert (Z.of_nat n <= 1048576) by (apply le_IZR; rewrite <- INR_IZR_INZ; exact Hn); lia)
      (fun o => sum3 (map (moved_rel S' x (map (site natoms) drift) o m) (map (site natoms) idx))) (fun _ c => INR (length idx) * ce * L c)%R ltac:(rewrite LD; exact LI)) as M.
    rewrite OD, LD in M. fold (exact_mstd axes S' x (map (site natoms) drift) (map (site natoms) idx) n m) in M.
    destruct M as (F & P & M).
    { intros t c Ht. rewrite AT by exact Ht. rewrite !part_sum3, !map_map. clear - WC Ht. induction idx as [|i l IH]; [cbn; rewrite Rminus_eq_0, Rabs_R0; lra|].
      cbn [map length]. rewrite !rsum_cons, S_INR. assert (W1 := proj2 (WC i t (or_introl eq_refl) Ht c)). rewrite part_values.
      assert (W2 := IH (fun j o Hj => WC j o (or_intror Hj))). apply abs_le in W1, W2. apply abs_le. replace ((INR (length l) + 1) * ce * L c)%R with (INR (length l) * ce * L c + ce * L c)%R by ring. lra. }
    intros r e. fold d in r. split; [exact F|]. split; [exact P|]. unfold r, e. eapply Rle_trans; [exact M|].
    set (N := INR (length idx)) in *. assert (N1 : (1 <= N)%R) by (unfold N; change 1%R with (INR 1); apply le_INR; lia).
    set (l := sqrt (sqlen axes S')).
    assert (NE : seq 0 K <> []) by (unfold K; destruct (n - m + 1)%nat eqn:Q; [lia|discriminate]).
    assert (A2 : sqrt (average (tab K (fun _ => rsum (map (fun c => (N * ce * L c * (N * ce * L c))%R) axes)))) = (N * ce * l)%R).
    { assert (E : average (tab K (fun _ => rsum (map (fun c => (N * ce * L c * (N * ce * L c))%R) axes))) = ((N * ce) * (N * ce) * sqlen axes S')%R).
      { unfold average. rewrite tab_length. assert (ER : rsum (tab K (fun _ => rsum (map (fun c => (N * ce * L c * (N * ce * L c))%R) axes))) = (INR K * ((N * ce) * (N * ce) * sqlen axes S'))%R).
        { rewrite <- rsum_repeat. f_equal. unfold tab.
          assert (EE : rsum (map (fun c => (N * ce * L c * (N * ce * L c))%R) axes) = ((N * ce) * (N * ce) * sqlen axes S')%R).
          { unfold sqlen. rewrite <- rsum_map_scal. f_equal. apply map_ext. intros c. replace (coord S' c) with (L c) by (unfold S', L; now destruct c). ring. }
          rewrite EE. clear. generalize 0%nat. induction K as [|k IH]; intros s; [reflexivity|]. cbn [seq map repeat]. f_equal. apply IH. }
        rewrite ER. field. assert (0 < INR K)%R by (apply lt_0_INR; unfold K; lia). lra. }
      rewrite E, sqrt_mult, sqrt_square; [reflexivity| |apply Rle_0_sqr|apply sqlen_nonneg]. apply Rmult_le_pos; lra. }
    rewrite A2.
    set (J := List.concat (map (fun i => tab K (fun o => (site natoms i, o))) idx)).
    assert (RC : (Rabs (sqrt (msd_of axes (values d)) - sqrt (exact_msd axes S' x (map (site natoms) drift) (map (site natoms) idx) n m)) <= ce * l)%R).
    { assert (E1 : msd_of axes (values d) = average (map (fun j => sqlen axes (values3 (gobs (gdrift natoms drift Y (fst j)) m (snd j)))) J)).
      { unfold msd_of. f_equal. unfold J, d, entries, values, gwindow. cbn [a_rows]. rewrite !map_map, grid_map. cbn [fst snd]. rewrite concat_map, map_map. f_equal. apply map_ext. intros i. rewrite !tab_map. reflexivity. }
      assert (E2 : exact_msd axes S' x (map (site natoms) drift) (map (site natoms) idx) n m = average (map (fun j => sqlen axes (moved_rel S' x (map (site natoms) drift) (snd j) m (fst j))) J)).
      { unfold exact_msd. f_equal. unfold J. rewrite grid_map, map_map. reflexivity. }
      rewrite E1, E2. apply (rms_close axes (fun j => values3 (gobs (gdrift natoms drift Y (fst j)) m (snd j))) (fun j => moved_rel S' x (map (site natoms) drift) (snd j) m (fst j)) S').
      - intros Q. apply (f_equal (@length _)) in Q. unfold J in Q. rewrite grid_length in Q. cbn in Q. unfold K in Q. nia.
      - exact ce0.
      - intros j c Ij. unfold J in Ij. apply in_concat in Ij as (r' & Ir & Ij). apply in_map_iff in Ir as (i & <- & Ii). unfold tab in Ij. apply in_map_iff in Ij as (o & <- & Io). apply in_seq in Io. cbn [fst snd].
        unfold S' at 2. rewrite !part_values. apply WC; [exact Ii|lia]. }
    set (s := sqrt (exact_msd axes S' x (map (site natoms) drift) (map (site natoms) idx) n m)) in *. set (A1 := sqrt (msd_of axes (values d))) in *.
    assert (El : (bpow radix2 (-300) <= l)%R).
    { destruct axes as [|c axes']; [congruence|]. destruct (L_len side Hs c) as [Lb Lu]. cbv beta in Lb, Lu. 
      apply Rle_trans with (value (part side c)); [exact Lb|]. pose proof (bpow_ge_0 radix2 (-300)). rewrite <- (sqrt_square (value (part side c))) by lra. unfold l. apply sqrt_le_1_alt.
      unfold sqlen. cbn [map rsum]. replace (coord S' c) with (value (part side c)) by (unfold S'; now destruct c).
      assert (0 <= rsum (map (fun a => coord S' a * coord S' a) axes'))%R by (apply rsum_map_nonneg; intros a; apply Rle_0_sqr). lra. }
    assert (Ee : (bpow radix2 (-47) <= ce)%R).
    { unfold ce, chain_error. change (bpow radix2 (-47)) with (/ 140737488355328)%R. assert (N1' : (1 <= INR n)%R) by (change 1%R with (INR 1); apply le_INR; lia). pose proof (pos_INR (length drift)) as F0.
      assert (1 * (16 * 1 + 0 + 6) <= INR n * (16 * INR n + INR (length drift) + 6))%R by (apply Rmult_le_compat; lra). cbn [pow]. lra. }
    assert (cl : (bpow radix2 (-347) <= ce * l)%R).
    { change (-347) with (-47 + -300). rewrite bpow_plus. apply Rmult_le_compat; try apply bpow_ge_0; assumption. }
    assert (ETB : (powerRZ 2 (-536) <= / 4 * (ce * l))%R).
    { change 2%R with (IZR radix2). rewrite <- bpow_powerRZ. apply Rle_trans with (/ 4 * bpow radix2 (-347))%R; [|lra].
      replace (/ 4)%R with (bpow radix2 (-2)) by (cbn; lra). rewrite <- bpow_plus. apply bpow_le. lia. }
    assert (s0 : (0 <= s)%R) by apply sqrt_pos. assert (P52 : (0 < / 2 ^ 52)%R) by (apply Rinv_0_lt_compat, pow_lt; lra).
    assert (N52 : (N * / 2 ^ 52 <= / 1000)%R) by (cbn [pow]; fold N in HI; lra).
    pose proof (bpow_ge_0 radix2 (-347)) as cl0.
    apply abs_le in RC.
    assert (X1 : (N * N * / 2 ^ 52 * A1 <= N * N * / 2 ^ 52 * s + / 1000 * (N * (ce * l)))%R).
    { apply Rle_trans with (N * N * / 2 ^ 52 * (s + ce * l))%R; [apply Rmult_le_compat_l; [apply Rmult_le_pos; [nra|lra]|lra]|].
      rewrite Rmult_plus_distr_l. apply Rplus_le_compat_l. replace (N * N * / 2 ^ 52 * (ce * l))%R with (N * / 2 ^ 52 * (N * (ce * l)))%R by ring. apply Rmult_le_compat_r; [apply Rmult_le_pos; lra|exact N52]. }
    assert (X2 : (ce * l <= N * (ce * l))%R) by (rewrite <- (Rmult_1_l (ce * l)) at 1; apply Rmult_le_compat_r; lra).
    assert (X3 : (0 <= N * N * / 2 ^ 52 * s)%R) by (apply Rmult_le_pos; [apply Rmult_le_pos; [nra|lra]|exact s0]).
    rewrite Rplus_assoc. apply Rplus_le_compat_l.
    replace (2 * (N * N) * / 2 ^ 52 * s)%R with (2 * (N * N * / 2 ^ 52 * s))%R by ring. replace (2 * N * ce * l)%R with (2 * (N * (ce * l)))%R by ring. replace (N * ce * l)%R with (N * (ce * l))%R by ring. lra.
  Qed.
End Chain.

Lemma mstd_means {G Seed RS} (X : Ext spec_float G Seed RS) u dts disps n_o g b g' : 0 < u_sub_sample_dt u -> u_block u = false ->
  Forall arr_wf disps -> mstd_bootstrap X u dts disps n_o g = Ok (b, g') ->
  exists axes used, names (pystr_text (u_dimension u)) axes /\ (length axes <= 3)%nat /\ sub_sample (Z.to_nat (u_sub_sample_dt u)) disps used
    /\ b_n b = map (fun d => nmean (lengths2 axes (totals d))) (filter (fun d => 1 <? a_obs d)%nat (firstn (Nat.div (length used) 2) used)).
Proof.
  intros Hk HB HW H. unfold mstd_bootstrap in H. inv_bind H b0 E. inv_bind H p E1. destruct p as [b1 g1]. injection H as <- _.
  unfold bootstrap_init in E. inv_bind E ds D1. inv_bind E ts D2. inv_bind E d0 D3. inv_bind E sl D4. injection E as <-.
  destruct (dimension_parts (A := spec_float) _ _ D4) as (axes & N & L & S). exists axes, ds. split; [exact N|]. split; [exact L|].
  assert (SS : sub_sample (Z.to_nat (u_sub_sample_dt u)) disps ds) by (now apply stride_sub). split; [exact SS|].
  cbn [b_displacements b_dims] in E1. rewrite (dims_axes _ _ _ D4 N) in E1.
  assert (IN : forall d, In d (first_half ds) -> arr_wf d).
  { intros d Hd. apply in_firstn in Hd. pose proof (forall_sub_sample _ _ _ _ SS HW) as F1. rewrite Forall_forall in F1. auto. }
  apply (coll_loop_n X u _ (fun d => lengths2 axes (totals d)) _ _ sl axes S HB) in E1; [|intros d Hd; now rewrite coll_totals by apply IN, Hd|reflexivity].
  cbn [trim_n_o b_n]. rewrite E1. cbn [b_n app]. rewrite (filter_ext (fun d => many (lengths2 axes (totals d))) (fun d => 1 <? a_obs d)%nat (fun d => many_totals axes d)).
  reflexivity.
Qed.
Lemma filter_map_swap {T U} (f : T -> U) (c : U -> bool) l : filter c (map f l) = map f (filter (fun x => c (f x)) l).
Proof. induction l as [|x l IH]; [reflexivity|]. cbn [map filter]. rewrite IH. now destruct (c (f x)). Qed.
Lemma total_run {G Seed RS} (X : Ext spec_float G Seed RS) (side : V3 spec_float) (n natoms : nat) (x : nat -> nat -> V3 R)
    gs idx drift ts ss (o : Options spec_float) d p u g b g' :
  (forall i, usual_length (part side i)) -> (forall i, (value (part side i) <= powerRZ 2 200)%R) ->
  (forall f a i, (f < n)%nat -> (a < natoms)%nat -> (Rabs (part (x (S f) a) i - part (x f a) i) <= / 2)%R) ->
  Z.of_nat n <= 2 ^ 20 -> Z.of_nat (length drift) <= 2 ^ 20 -> Z.of_nat (length idx) <= 2 ^ 20 ->
  Forall (valid_site natoms) idx -> Forall (valid_site natoms) drift ->
  a_obs d = n -> shape (a_rows d) natoms n ->
  (forall a t v i, arr_entry d a t = Some v -> finite_double (part v i)
    /\ (Rabs (value (part v i) - moved (values3 side) x 0 (S t) a i) <= 16 * (INR (S t) * INR (S t)) * (eps * value (part side i)))%R) ->
  parser_init gs d idx drift ts ss o = Ok p -> o_sampling o = "multi-origin"%string -> Forall (fun m => 0 < m <= Z.of_nat n) (p_intervals p) ->
  0 < u_sub_sample_dt u -> u_block u = false -> mstd_bootstrap X u (p_delta_t p) (p_disp_3d p) (p_n_o p) g = Ok (b, g') ->
  exists axes used, names (pystr_text (u_dimension u)) axes
    /\ sub_sample (Z.to_nat (u_sub_sample_dt u)) (filter (fun m => enough (length idx) n (Z.to_nat m)) (p_intervals p)) used
    /\ Forall2 (fun m r => total_accurate (n - Z.to_nat m + 1) (length idx) (chain_error n (length drift) * sqrt (sqlen axes (values3 side)))
          (exact_msd axes (values3 side) x (map (site natoms) drift) (map (site natoms) idx) n (Z.to_nat m)) r
          (exact_mstd axes (values3 side) x (map (site natoms) drift) (map (site natoms) idx) n (Z.to_nat m)))
         (filter (fun m => m <? Z.of_nat n) (firstn (Nat.div (length used) 2) used)) (b_n b).
Proof.
  intros Hs Hs2 Hx Hn HF HN Vi Vd Eo Sh HE Hp HS HI Hk HB Hm.
  rewrite (gtable d natoms n Eo Sh) in Hp. set (Y := fun a t => nth t (nth a (a_rows d) []) v0) in *.
  pose (ns := map Z.to_nat (p_intervals p)).
  assert (EI : p_intervals p = map Z.of_nat ns).
  { unfold ns. rewrite map_map. rewrite <- (map_id (p_intervals p)) at 1. apply map_ext_in. intros m Im. rewrite Forall_forall in HI. specialize (HI m Im). lia. }
  assert (HNs : Forall (fun m => (0 < m <= n)%nat) ns).
  { unfold ns. apply Forall_map. eapply Forall_impl; [|exact HI]. cbn. intros m Hm'. lia. }
  pose proof (gparser gs natoms n Y idx drift ts ss o p ns Hp HS Vi Vd EI HNs) as ED. rewrite ED in Hm.
  assert (WF : Forall arr_wf (map (gwindow natoms n (gdrift natoms drift Y) idx) (filter (enough (length idx) n) ns))).
  { apply Forall_map, Forall_forall. intros m _. unfold arr_wf, gwindow. cbn [a_rows a_obs]. apply Forall_map, Forall_forall. intros i _. apply tab_length. }
  destruct (mstd_means X u _ _ _ g b g' Hk HB WF Hm) as (axes & used & N & LA & SS & EB).
  apply sub_sample_of_map in SS as (used' & SS & ->); [|exact Hk].
  assert (FU : Forall (fun m => (0 < m <= n)%nat /\ enough (length idx) n m = true) used').
  { apply (forall_sub_sample _ _ _ _ SS). apply Forall_forall. intros m Im. apply filter_In in Im as [Im En]. rewrite Forall_forall in HNs. auto. }
  exists axes, (map Z.of_nat used'). split; [exact N|]. split.
  { intros i. rewrite nth_error_map, SS. rewrite <- nth_error_map. f_equal. unfold ns.
    clear - HI. induction (p_intervals p) as [|m ms IH]; [reflexivity|]. inversion HI; subst. cbn [map filter]. destruct (enough (length idx) n (Z.to_nat m)); cbn [map]; rewrite IH by assumption; [|reflexivity]. f_equal. lia. }
  rewrite EB, !map_length, !firstn_map, !filter_map_swap, map_map. set (h := firstn (Nat.div (length used') 2) used').
  assert (FH : Forall (fun m => (0 < m <= n)%nat /\ enough (length idx) n m = true) h).
  { apply Forall_forall. intros m Im. apply in_firstn in Im. rewrite Forall_forall in FU. auto. }
  assert (NA : axes <> []) by apply N.
  assert (Bn : (INR n <= 1048576)%R). { rewrite INR_IZR_INZ. apply IZR_le. exact Hn. }
  assert (BF : (INR (length drift) <= 1048576)%R). { rewrite INR_IZR_INZ. apply IZR_le. exact HF. }
  assert (BI : (INR (length idx) <= 1048576)%R). { rewrite INR_IZR_INZ. apply IZR_le. exact HN. }
  assert (HYp : forall a t i, (a < natoms)%nat -> (t < n)%nat -> finite_double (part (Y a t) i)
    /\ (Rabs (value (part (Y a t) i) - moved (values3 side) x 0 (S t) a i) <= 16 * (INR (S t) * INR (S t)) * (eps * value (part side i)))%R).
  { intros a t i Ha Ht. destruct Sh as [SL SF].
    assert (AE : arr_entry d a t = Some (Y a t)).
    { unfold arr_entry, entry, Y. rewrite (nth_error_nth' (a_rows d) [] (n := a)) by lia. rewrite Forall_forall in SF. apply nth_error_nth'. rewrite SF; [exact Ht|]. apply nth_In. lia. }
    exact (HE a t (Y a t) i AE). }
  clearbody h. clear - FH NA LA Hs Hs2 Hx HYp Bn BF BI Vd Vi. induction FH as [|m ms [Hm En] _ IH]; [constructor|]. cbn [filter gwindow a_obs].
  replace (1 <? n - m + 1)%nat with (Z.of_nat m <? Z.of_nat n).
  2: { destruct (Z.of_nat m <? Z.of_nat n) eqn:Q1, (1 <? n - m + 1)%nat eqn:Q2; try reflexivity; rewrite ?Z.ltb_lt, ?Z.ltb_ge in Q1; rewrite ?Nat.ltb_lt, ?Nat.ltb_ge in Q2; lia. }
  destruct (Z.of_nat m <? Z.of_nat n) eqn:Q; [|exact IH]. cbn [map]. constructor; [|exact IH]. rewrite !Nat2Z.id. unfold total_accurate. rewrite <- (Rmult_assoc (2 * INR (length idx)) (chain_error n (length drift))).
  apply chain_total; try assumption. intros ->. unfold enough in En. cbn in En. discriminate.
Qed.
Lemma C98_chain_proof {G Seed RS} (X : Ext spec_float G Seed RS) (side : V3 spec_float) (n natoms : nat) (c : nat -> nat -> V3 spec_float) (x : nat -> nat -> V3 R)
    gs idx drift ts ss (o : Options spec_float) d p u g b g' :
  (forall i, usual_length (part side i)) -> (forall i, (value (part side i) <= powerRZ 2 200)%R) ->
  (forall f a i, (f <= n)%nat -> (a < natoms)%nat -> finite_double (part (c f a) i) /\ (Rabs (value (part (c f a) i)) <= 2)%R /\ is_integer (value (part (c f a) i) - part (x f a) i)) ->
  (forall f a i, (f < n)%nat -> (a < natoms)%nat -> (Rabs (part (x (S f) a) i - part (x f a) i) <= / 2 - / 2 ^ 47)%R) ->
  Z.of_nat n <= 2 ^ 20 -> Z.of_nat (length drift) <= 2 ^ 20 -> Z.of_nat (length idx) <= 2 ^ 20 ->
  Forall (valid_site natoms) idx -> Forall (valid_site natoms) drift ->
  get_disp (tab (S n) (fun f => tab natoms (c f))) (tab (S n) (fun _ => box side)) = Ok d ->
  parser_init gs d idx drift ts ss o = Ok p -> o_sampling o = "multi-origin"%string -> Forall (fun m => 0 < m <= Z.of_nat n) (p_intervals p) ->
  0 < u_sub_sample_dt u -> u_block u = false -> mstd_bootstrap X u (p_delta_t p) (p_disp_3d p) (p_n_o p) g = Ok (b, g') ->
  exists axes used, names (pystr_text (u_dimension u)) axes
    /\ sub_sample (Z.to_nat (u_sub_sample_dt u)) (filter (fun m => enough (length idx) n (Z.to_nat m)) (p_intervals p)) used
    /\ Forall2 (fun m r => total_accurate (n - Z.to_nat m + 1) (length idx) (chain_error n (length drift) * sqrt (sqlen axes (values3 side)))
          (exact_msd axes (values3 side) x (map (site natoms) drift) (map (site natoms) idx) n (Z.to_nat m)) r
          (exact_mstd axes (values3 side) x (map (site natoms) drift) (map (site natoms) idx) n (Z.to_nat m)))
         (filter (fun m => m <? Z.of_nat n) (firstn (Nat.div (length used) 2) used)) (b_n b).
Proof.
  intros Hs Hs2 Hc Hx Hn HF HN Vi Vd Hg. destruct (C74_proof side n natoms c x Hs Hc Hx Hn) as (d' & Hg' & Eo & Sh & HE). rewrite Hg in Hg'. injection Hg' as <-.
  apply total_run; try assumption.
  - intros f a i Hf Ha. eapply Rle_trans; [now apply Hx|]. assert (0 < / 2 ^ 47)%R by (apply Rinv_0_lt_compat, pow_lt; lra). lra.
  - intros a t v i E. destruct (HE a t v i E) as [Fy Ey]. split; [exact Fy|]. unfold moved. rewrite part_values. cbn [Nat.add].
    replace (16 * (INR (S t) * INR (S t)) * (eps * value (part side i)))%R with (INR (S t) ^ 2 * / 2 ^ 49 * value (part side i))%R; [exact Ey|]. unfold eps. cbn [pow]. field.
Qed.

(** ** Examples *)
Lemma below_int e z : 3 <= e -> Z.abs z <= 8 -> finite_double (SFofZ z) /\ (Rabs (value (SFofZ z)) <= powerRZ 2 e)%R.
Proof.
  intros He H. destruct (ofZ_small z) as [F E]; [lia|]. split; [exact F|]. rewrite E, <- (bpow_powerRZ radix2), <- abs_IZR.
  apply Rle_trans with (IZR 8); [now apply IZR_le|]. change (IZR 8) with (bpow radix2 3). apply bpow_le. lia.
Qed.
Lemma demo_below e : 3 <= e -> components_below e rounding_demo.
Proof. intros He. unfold components_below, rounding_demo. cbn [a_rows]. repeat first [apply Forall_nil|apply Forall_cons]; intros []; apply below_int; cbn; lia. Qed.
Lemma demo_countable : countable rounding_demo /\ arr_wf rounding_demo.
Proof. unfold countable, arr_wf, rounding_demo. cbn [a_rows a_obs length]. repeat split; try lia. repeat constructor. Qed.
Lemma C98_example_proof : 
  (Forall arr_wf [rounding_demo; rounding_demo] /\ Forall (components_below 200) [rounding_demo; rounding_demo] /\ Forall (components_below 300) [rounding_demo; rounding_demo] /\ Forall countable [rounding_demo; rounding_demo])
  /\ Forall (fun c => finite_double c /\ (Rabs (value c) <= powerRZ 2 100)%R) (charge_doubles (QArray [SFofZ 1; SFofZ (-1)]))
  /\ forall (G Seed RS : Type) (X : Ext spec_float G Seed RS) (g : G),
  (exists b, mstd_bootstrap X (mkBootParams 1 false false 0 0 (PyStr "xz") (SFofZ 0)) [SFofZ 1; SFofZ 2] [rounding_demo; rounding_demo] [SFofZ 2; SFofZ 2] g = Ok (b, g)
    /\ map value (b_n b) = [11]%R)
  /\ (exists b, mscd_bootstrap X (mkBootParams 1 false false 0 0 (PyStr "xyz") (SFofZ 0)) [SFofZ 1; SFofZ 2] [rounding_demo; rounding_demo] (QArray [SFofZ 1; SFofZ (-1)]) [SFofZ 2; SFofZ 2] g = Ok (b, g)
    /\ map value (b_n b) = [9]%R).
Proof.
  split.
  { assert (H2 := demo_below 200 ltac:(lia)). assert (H3 := demo_below 300 ltac:(lia)). destruct demo_countable as [C W]. split; [exact (Forall_cons _ W (Forall_cons _ W (Forall_nil _)))|]. split; [exact (Forall_cons _ H2 (Forall_cons _ H2 (Forall_nil _)))|]. split; [exact (Forall_cons _ H3 (Forall_cons _ H3 (Forall_nil _)))|exact (Forall_cons _ C (Forall_cons _ C (Forall_nil _)))]. }
  split; [repeat first [apply Forall_nil|apply Forall_cons]; apply below_int; cbn; lia|].
  intros G Seed RS X g. split; eexists; (split; [reflexivity|]);
    match goal with |- map value ?l = _ => let v := eval vm_compute in l in change l with v end; cbn [map value]; f_equal; rewrite powers; cbn; lra.
Qed.

(** Four frames: two atoms hop together by a quarter of the cell, forwards twice and then back. *)
Definition coll_opts : Options spec_float := mkOptions None None 100 "linear" "multi-origin" (SFofZ 8) 8.
Definition pairing (f a : nat) : V3 spec_float :=
  mkV (match f with O => eighths 7 | S O => eighths 1 | S (S O) => eighths 3 | _ => eighths 1 end) (match a with O => eighths 3 | _ => S754_zero false end) (S754_zero false).
Definition paired (f a : nat) : V3 R :=
  mkV (match f with O => 7 / 8 | S O => 9 / 8 | S (S O) => 11 / 8 | _ => 9 / 8 end)%R (match a with O => 3 / 8 | _ => 0 end)%R 0%R.
Lemma C98_chain_example_proof {G Seed RS} (X : Ext spec_float G Seed RS) (g : G) :
  (forall f a i, (f <= 3)%nat -> finite_double (part (pairing f a) i) /\ (Rabs (value (part (pairing f a) i)) <= 2)%R
     /\ is_integer (value (part (pairing f a) i) - part (paired f a) i))
  /\ (forall f a i, (f < 3)%nat -> (Rabs (part (paired (S f) a) i - part (paired f a) i) <= / 2 - / 2 ^ 47)%R)
  /\ exists d p b, get_disp (tab 4 (fun f => tab 2 (pairing f))) (tab 4 (fun _ => box ten3)) = Ok d
    /\ parser_init (fun _ _ _ => Raise ValueError) d [0; 1] [] (SFofZ 1) 1 coll_opts = Ok p /\ p_intervals p = [1; 2; 3]
    /\ mstd_bootstrap X (mkBootParams 1 false false 0 0 (PyStr "xyz") (SFofZ 0)) (p_delta_t p) (p_disp_3d p) (p_n_o p) g = Ok (b, g)
    /\ map value (b_n b) = [25]%R
    /\ exact_mstd all_axes (values3 ten3) paired [] [0%nat; 1%nat] 3 1 = 25%R.
Proof.
  split.
  { intros f a i Hf. destruct eighth7 as [F7 V7], eighth1 as [F1 V1], eighth3 as [F3 V3], zero_fv as [F0 V0].
    destruct i; cbn [part pairing paired vx vy vz].
    - destruct f as [|[|[|f]]].
      + rewrite V7. split; [exact F7|]. split; [apply abs_le; lra|]. exists 0. lra.
      + rewrite V1. split; [exact F1|]. split; [apply abs_le; lra|]. exists (-1). lra.
      + rewrite V3. split; [exact F3|]. split; [apply abs_le; lra|]. exists (-1). lra.
      + rewrite V1. split; [exact F1|]. split; [apply abs_le; lra|]. exists (-1). lra.
    - destruct a; rewrite ?V3, ?V0; (split; [assumption|]); (split; [apply abs_le; lra|]); exists 0; lra.
    - rewrite V0. split; [exact F0|]. split; [apply abs_le; lra|]. exists 0. lra. }
  split.
  { intros f a i Hf. destruct i; cbn [part paired vx vy vz]; rewrite ?Rminus_diag_eq, ?Rabs_R0 by reflexivity; try lra.
    destruct f as [|[|[|f]]]; try lia; apply abs_le; lra. }
  do 3 eexists. split; [vm_compute; reflexivity|]. split; [vm_compute; reflexivity|]. split; [reflexivity|]. split; [reflexivity|]. split.
  - match goal with |- map value ?l = _ => let v := eval vm_compute in l in change l with v end. cbn [map value]. f_equal. rewrite powers. cbn. lra.
  - unfold exact_mstd, moved_rel, moved, all_axes, sqlen, average, values3, ten3, sum3. destruct ten_value as [_ V].
    cbn [map tab seq Nat.sub Nat.add List.concat app length rsum coord vx vy vz part paired]. rewrite V. cbn. field.
Qed.
