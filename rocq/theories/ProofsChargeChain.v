(** * ProofsChargeChain: charge displacements from stored positions in double precision (C123) *)
From Verif Require Import Base ModelParser ModelDiffusion Spec SpecParser SpecStats SpecDouble SpecUnwrap SpecRun SpecRound SpecChain SpecTric SpecCollRound SpecChargeChain Lemmas ProofsDisp ProofsParser ProofsWindows ProofsTraj ProofsFloat ProofsUnwrap ProofsBoot ProofsStats ProofsCollective ProofsRound ProofsChain ProofsTric ProofsTricChain ProofsCollRound ProofsCollTric.
From Coq Require Import Reals Lra Lia Psatz Permutation.
From Coq.Floats Require Import SpecFloat.
From Flocq Require Import Core.
Open Scope Z_scope.

Lemma combine_map_r {T U V} (f : U -> V) (a : list T) : forall b, combine a (map f b) = map (fun p => (fst p, f (snd p))) (combine a b).
Proof. induction a as [|x a IH]; intros [|y b]; cbn; [reflexivity..|]. now rewrite IH. Qed.
Lemma combine_fst {T U} (a : list T) : forall b : list U, length a = length b -> map fst (combine a b) = a.
Proof. induction a as [|x a IH]; intros [|y b] H; try discriminate; [reflexivity|]. cbn. f_equal. apply IH. cbn in H. lia. Qed.
Lemma size_nonneg q : (0 <= total_charge_size q)%R.
Proof. unfold total_charge_size. apply rsum_map_nonneg. intros c. apply Rabs_pos. Qed.
Lemma size_in q c : In c q -> (Rabs c <= total_charge_size q)%R.
Proof.
  unfold total_charge_size. induction q as [|y q IH]; intros H; [contradiction|]. cbn [map]. rewrite rsum_cons. pose proof (size_nonneg q) as P. unfold total_charge_size in P.
  destruct H as [->|H]; [lra|]. specialize (IH H). pose proof (Rabs_pos y). lra.
Qed.
Lemma weighted_close {T} (u v : T -> V3 R) (e : R) i : forall l : list (R * T), (forall p, In p l -> (Rabs (part (u (snd p)) i - part (v (snd p)) i) <= e)%R) ->
  (Rabs (part (sum3 (map (fun p => scale3 (fst p) (u (snd p))) l)) i - part (sum3 (map (fun p => scale3 (fst p) (v (snd p))) l)) i) <= total_charge_size (map fst l) * e)%R.
Proof.
  intros l H. rewrite !part_sum3, !map_map. unfold total_charge_size. induction l as [|p l IH]; [cbn; rewrite Rminus_eq_0, Rabs_R0; lra|].
  cbn [map]. rewrite !rsum_cons. specialize (IH (fun p' Hp => H p' (or_intror Hp))). specialize (H p (or_introl eq_refl)).
  assert (P : forall w : V3 R, part (scale3 (fst p) w) i = (fst p * part w i)%R) by (intros w; now destruct i). rewrite !P.
  assert (M : (Rabs (fst p * part (u (snd p)) i - fst p * part (v (snd p)) i) <= Rabs (fst p) * e)%R).
  { rewrite <- Rmult_minus_distr_l, Rabs_mult. apply Rmult_le_compat_l; [apply Rabs_pos|exact H]. }
  apply abs_le in IH, M. apply abs_le. rewrite Rmult_plus_distr_r. lra.
Qed.

Section Chain.
  Context (side : V3 spec_float) (n natoms : nat) (x : nat -> nat -> V3 R) (Y : nat -> nat -> V3 spec_float) (drift idx : list Z).
  Let S' := values3 side.
  Hypothesis Hs : forall i, usual_length (part side i).
  Hypothesis Hs' : forall i, (value (part side i) <= powerRZ 2 170)%R.
  Hypothesis Hx : forall f a i, (f < n)%nat -> (a < natoms)%nat -> (Rabs (part (x (S f) a) i - part (x f a) i) <= / 2)%R.
  Hypothesis HY : forall a t i, (a < natoms)%nat -> (t < n)%nat -> finite_double (part (Y a t) i)
    /\ (Rabs (value (part (Y a t) i) - moved S' x 0 (S t) a i) <= 16 * (INR (S t) * INR (S t)) * (eps * value (part side i)))%R.
  Hypothesis Hn : (INR n <= 1048576)%R.
  Hypothesis HF : (INR (length drift) <= 1048576)%R.
  Hypothesis Hd : Forall (valid_site natoms) drift.
  Hypothesis Hi : Forall (valid_site natoms) idx.
  Hypothesis HI : (INR (length idx) <= 1048576)%R.
  Let L i := value (part side i).
  Let ce := chain_error n (length drift).
  Let fw := map (site natoms) drift.
  Let cell i o m := gobs (gdrift natoms drift Y (site natoms i)) m o.
  Lemma ce_nonneg : (0 <= ce)%R.
  Proof. apply chain_error_nonneg. Qed.
  Lemma window_cell i o m c : In i idx -> (0 < m)%nat -> (o + m <= n)%nat -> below 200 (part (cell i o m) c)
       /\ (Rabs (value (part (cell i o m) c) - part (moved_rel S' x fw o m (site natoms i)) c) <= ce * L c)%R.
  Proof.
    intros Ii Hm Ho. assert (IS : (site natoms i < natoms)%nat) by (rewrite Forall_forall in Hi; now apply ProofsDisp.site_lt, Hi).
    assert (ce1 : (ce <= 1048576 * 17825798 * / 2 ^ 51)%R).
    { unfold ce, chain_error. apply Rmult_le_compat_r; [apply Rlt_le, Rinv_0_lt_compat, pow_lt; lra|]. pose proof (pos_INR n). pose proof (pos_INR (length drift)). apply Rmult_le_compat; lra. }
    destruct (window_close side n natoms x Y drift Hs Hx HY Hn HF Hd (site natoms i) m o c) as [[F _] E]; [exact IS|lia|lia|].
    assert (E' : (Rabs (value (part (cell i o m) c) - part (moved_rel S' x fw o m (site natoms i)) c) <= ce * L c)%R) by exact E.
    split; [|exact E']. split; [exact F|]. assert (M : (Rabs (part (moved_rel S' x fw o m (site natoms i)) c) <= INR n * L c)%R) by exact (moved_rel_le side n natoms x drift Hs Hx Hd o m (site natoms i) c Ho IS).
    assert (P : (0 < L c)%R) by (unfold L; apply (len_pos _ (L_len side Hs c))).
    assert (CL : (ce * L c <= 1048576 * L c)%R). { apply Rmult_le_compat_r; [lra|]. eapply Rle_trans; [exact ce1|]. cbn [pow]. lra. }
    assert (NL : (INR n * L c <= 1048576 * L c)%R) by (apply Rmult_le_compat_r; lra).
    assert (PL : (L c <= bpow radix2 170)%R) by (rewrite (bpow_powerRZ radix2); apply Hs').
    apply abs_le in M. assert (E2 := E'). apply abs_le in E2. apply Rle_trans with (2097152 * L c)%R; [apply abs_le; lra|].
    apply Rle_trans with (bpow radix2 21 * bpow radix2 170)%R; [change (bpow radix2 21) with 2097152%R; lra|]. rewrite <- bpow_plus. apply bpow_le. lia.
  Qed.
  Lemma window_wf m : arr_wf (gwindow natoms n (gdrift natoms drift Y) idx m).
  Proof. unfold arr_wf, gwindow. cbn [a_rows a_obs]. apply Forall_map, Forall_forall. intros i _. apply tab_length. Qed.
  Lemma window_below m : (0 < m <= n)%nat -> components_below 200 (gwindow natoms n (gdrift natoms drift Y) idx m).
  Proof.
    intros Hm. unfold components_below, gwindow. cbn [a_rows]. apply Forall_map, Forall_forall. intros i Ii. apply Forall_forall. intros v Iv. unfold tab in Iv. apply in_map_iff in Iv as (o & <- & Io). apply in_seq in Io.
    intros c. destruct (window_cell i o m c Ii ltac:(lia) ltac:(lia)) as [[F B] _]. split; [exact F|]. rewrite <- (bpow_powerRZ radix2). exact B.
  Qed.
  Lemma window_at m t : (t < n - m + 1)%nat -> at_time (values (gwindow natoms n (gdrift natoms drift Y) idx m)) t = map (fun i => values3 (cell i t m)) idx.
  Proof.
    intros Ht. unfold values. rewrite at_time_map, (at_time_any v0) by (try apply window_wf; exact Ht). unfold gwindow. cbn [a_rows]. rewrite !map_map. apply map_ext. intros i. f_equal. apply nth_error_nth. unfold cell. now apply (tab_nth_error (n - m + 1) (gobs (gdrift natoms drift Y (site natoms i)) m)).
  Qed.
  Lemma weighed_sums q m : length q = length idx -> (0 < m <= n)%nat ->
    (Rabs (sqrt (mscd_of all_axes q (values (gwindow natoms n (gdrift natoms drift Y) idx m))) - sqrt (exact_mscd q S' x fw (map (site natoms) idx) n m))
       <= total_charge_size q * ce * sqrt (sqlen all_axes S'))%R.
  Proof.
    intros Hq Hm. unfold mscd_of, exact_mscd. change (a_obs (values (gwindow natoms n (gdrift natoms drift Y) idx m))) with (n - m + 1)%nat.
    assert (E : tab (n - m + 1) (fun t => sqlen all_axes (sum3 (map (fun p => scale3 (fst p) (snd p)) (combine q (at_time (values (gwindow natoms n (gdrift natoms drift Y) idx m)) t)))))
      = tab (n - m + 1) (fun t => sqlen all_axes (sum3 (map (fun p => scale3 (fst p) (values3 (cell (snd p) t m))) (combine q idx))))).
    { apply tab_ext. intros t Ht. rewrite window_at by exact Ht. rewrite combine_map_r, map_map. reflexivity. }
    rewrite E. clear E. unfold tab. rewrite combine_map_r.
    apply (rms_close all_axes (fun t => sum3 (map (fun p => scale3 (fst p) (values3 (cell (snd p) t m))) (combine q idx)))
      (fun t => sum3 (map (dipole_of S' x fw t m) (map (fun p => (fst p, site natoms (snd p))) (combine q idx)))) S').
    - destruct (n - m + 1)%nat eqn:Q; [lia|discriminate].
    - apply Rmult_le_pos; [apply size_nonneg|apply ce_nonneg].
    - intros t i It. apply in_seq in It. rewrite map_map. unfold dipole_of. cbn [fst snd].
      replace (part S' i) with (L i) by (unfold S', L; now destruct i).
      replace (total_charge_size q * ce * L i)%R with (total_charge_size (map fst (combine q idx)) * (ce * L i))%R by (rewrite (combine_fst q idx Hq); ring).
      apply (weighted_close (fun z => values3 (cell z t m)) (fun z => moved_rel S' x fw t m (site natoms z))). intros [c z] Hp. cbn [snd]. apply in_combine_r in Hp. rewrite part_values.
      apply window_cell; [exact Hp|lia|lia].
  Qed.
  Lemma weighed_terms q m : length q = length idx -> idx <> [] -> (0 < m <= n)%nat ->
    (Rabs (sqrt (msd_of all_axes (charged q (values (gwindow natoms n (gdrift natoms drift Y) idx m)))) - sqrt (exact_single q S' x fw (map (site natoms) idx) n m))
       <= total_charge_size q * ce * sqrt (sqlen all_axes S'))%R.
  Proof.
    intros Hq NI Hm. set (K := (n - m + 1)%nat). set (J := List.concat (map (fun p => tab K (fun o => (p, o))) (combine q idx))).
    assert (E1 : msd_of all_axes (charged q (values (gwindow natoms n (gdrift natoms drift Y) idx m)))
      = average (map (fun j => sqlen all_axes (scale3 (fst (fst j)) (values3 (cell (snd (fst j)) (snd j) m)))) J)).
    { unfold msd_of. f_equal. unfold J, entries, charged, values, gwindow. cbn [a_rows a_obs]. rewrite map_map, combine_map_r, !map_map, !concat_map, !map_map. cbn [fst snd]. f_equal.
      apply map_ext. intros p. rewrite !tab_map. reflexivity. }
    assert (E2 : exact_single q S' x fw (map (site natoms) idx) n m = average (map (fun j => sqlen all_axes (scale3 (fst (fst j)) (moved_rel S' x fw (snd j) m (site natoms (snd (fst j)))))) J)).
    { unfold exact_single. f_equal. unfold J. rewrite combine_map_r, !map_map, !concat_map, !map_map. f_equal. apply map_ext. intros p. rewrite !tab_map. reflexivity. }
    rewrite E1, E2.
    apply (rms_close all_axes (fun j => scale3 (fst (fst j)) (values3 (cell (snd (fst j)) (snd j) m)))
      (fun j => scale3 (fst (fst j)) (moved_rel S' x fw (snd j) m (site natoms (snd (fst j))))) S').
    - unfold J. destruct q as [|c q]; [destruct idx; [congruence|discriminate]|]. destruct idx as [|z l]; [congruence|]. cbn [combine map List.concat]. unfold K.
      replace (n - m + 1)%nat with (S (n - m)) by lia. discriminate.
    - apply Rmult_le_pos; [apply size_nonneg|apply ce_nonneg].
    - intros [p o] i Ij. unfold J in Ij. apply in_concat in Ij as (r' & Ir & Ij). apply in_map_iff in Ir as (p' & <- & Ip). unfold tab in Ij. apply in_map_iff in Ij as (o' & Q & Io). injection Q as <- <-. apply in_seq in Io.
      cbn [fst snd]. destruct p' as [c z]. cbn [fst snd]. pose proof (in_combine_l _ _ _ _ Ip) as Ic. apply in_combine_r in Ip.
      replace (part S' i) with (L i) by (unfold S', L; now destruct i).
      assert (P : forall w : V3 R, part (scale3 c w) i = (c * part w i)%R) by (intros w; now destruct i). rewrite !P, <- Rmult_minus_distr_l, Rabs_mult.
      rewrite Rmult_assoc. apply Rmult_le_compat; try apply Rabs_pos; [now apply size_in|]. rewrite part_values. apply window_cell; [exact Ip|lia|unfold K in Io; lia].
  Qed.
  Lemma chain_charge q m r : length q = length idx -> idx <> [] -> (0 < m <= n)%nat ->
    sum_accurate (n - m + 1) (length idx) (msd_of all_axes (charged q (values (gwindow natoms n (gdrift natoms drift Y) idx m)))) r
      (mscd_of all_axes q (values (gwindow natoms n (gdrift natoms drift Y) idx m))) ->
    charge_accurate (n - m + 1) (length idx) (total_charge_size q * ce * sqrt (sqlen all_axes S')) (exact_single q S' x fw (map (site natoms) idx) n m) r
      (exact_mscd q S' x fw (map (site natoms) idx) n m).
  Proof.
    intros Hq NI Hm (F & P & E). split; [exact F|]. split; [exact P|].
    pose proof (weighed_sums q m Hq Hm) as A. pose proof (weighed_terms q m Hq NI Hm) as B.
    set (d := (total_charge_size q * ce * sqrt (sqlen all_axes S'))%R) in *. 
    set (e := sqrt (exact_mscd q S' x fw (map (site natoms) idx) n m)) in *. set (s := sqrt (exact_single q S' x fw (map (site natoms) idx) n m)) in *.
    set (e1 := sqrt (mscd_of _ _ _)) in *. set (s1 := sqrt (msd_of _ _)) in *. set (N := INR (length idx)) in *. set (K := INR (n - m + 1)) in *.
    assert (d0 : (0 <= d)%R) by (eapply Rle_trans; [apply Rabs_pos|exact A]).
    assert (K0 : (0 <= K <= 1048577)%R). { unfold K. split; [apply pos_INR|]. rewrite plus_INR. change (INR 1) with 1%R. assert (INR (n - m) <= INR n)%R by (apply le_INR; lia). lra. }
    assert (N0 : (0 <= N <= 1048576)%R) by (split; [apply pos_INR|exact HI]).
    set (k := ((K + 8) * / 2 ^ 52)%R) in *. set (h := (2 * N * (N + 1) * / 2 ^ 52)%R) in *.
    assert (P52 : (0 < / 2 ^ 52)%R) by (apply Rinv_0_lt_compat, pow_lt; lra).
    assert (k1 : (0 <= k <= / 10)%R). { unfold k. split; [apply Rmult_le_pos; lra|]. cbn [pow]. lra. }
    assert (h1 : (0 <= h <= / 10)%R).
    { unfold h. assert (0 <= N * (N + 1) <= 1048576 * 1048577)%R by (split; [apply Rmult_le_pos; lra|apply Rmult_le_compat; lra]).
      replace (2 * N * (N + 1))%R with (2 * (N * (N + 1)))%R by ring. split; [apply Rmult_le_pos; lra|]. cbn [pow]. lra. }
    apply abs_le in A, B, E.
    assert (X1 : (k * e1 <= k * e + / 10 * d)%R). { apply Rle_trans with (k * (e + d))%R; [apply Rmult_le_compat_l; lra|]. rewrite Rmult_plus_distr_l. apply Rplus_le_compat_l, Rmult_le_compat_r; lra. }
    assert (X2 : (h * s1 <= h * s + / 10 * d)%R). { apply Rle_trans with (h * (s + d))%R; [apply Rmult_le_compat_l; lra|]. rewrite Rmult_plus_distr_l. apply Rplus_le_compat_l, Rmult_le_compat_r; lra. }
    apply abs_le. lra.
  Qed.
End Chain.

Lemma filter_obs natoms n Z' idx l : Forall (fun m => (0 < m <= n)%nat) l ->
  filter (fun d : Arr spec_float => 1 <? a_obs d)%nat (map (gwindow natoms n Z' idx) l) = map (gwindow natoms n Z' idx) (filter (fun m => Z.of_nat m <? Z.of_nat n) l).
Proof.
  intros H. rewrite filter_map_swap. f_equal. induction H as [|m l Hm _ IH]; [reflexivity|]. cbn [filter]. rewrite IH. cbn [gwindow a_obs].
  replace (1 <? n - m + 1)%nat with (Z.of_nat m <? Z.of_nat n); [reflexivity|].
  destruct (Z.of_nat m <? Z.of_nat n) eqn:Q1, (1 <? n - m + 1)%nat eqn:Q2; try reflexivity; rewrite ?Z.ltb_lt, ?Z.ltb_ge in Q1; rewrite ?Nat.ltb_lt, ?Nat.ltb_ge in Q2; lia.
Qed.
Lemma forall2_map_l {T U V} (P : U -> V -> Prop) (f : T -> U) l : forall r, Forall2 P (map f l) r -> Forall2 (fun t v => P (f t) v) l r.
Proof. induction l as [|t l IH]; intros r H; inversion H; subst; constructor; auto. Qed.
Lemma forall2_in {T U} (P Q : T -> U -> Prop) l r : (forall x y, In x l -> P x y -> Q x y) -> Forall2 P l r -> Forall2 Q l r.
Proof. intros H F. induction F as [|x y l r Hx F IH]; constructor; [apply H; [now left|exact Hx]|]. apply IH. intros x' y' Hi. apply H. now right. Qed.
Lemma charge_values_length q natoms : (forall l, q = QArray l -> length l = natoms) -> length (charge_values q natoms) = natoms.
Proof. intros H. destruct q as [c|l]; cbn [charge_values]; [apply repeat_length|]. rewrite map_length. now apply H. Qed.

Lemma charge_run {G Seed RS} (X : Ext spec_float G Seed RS) (side : V3 spec_float) (n natoms : nat) (x : nat -> nat -> V3 R)
    gs idx drift ts ss (o : Options spec_float) d p u q g b g' :
  (forall i, usual_length (part side i)) -> (forall i, (value (part side i) <= powerRZ 2 170)%R) ->
  (forall f a i, (f < n)%nat -> (a < natoms)%nat -> (Rabs (part (x (S f) a) i - part (x f a) i) <= / 2)%R) ->
  Z.of_nat n <= 2 ^ 20 -> Z.of_nat (length drift) <= 2 ^ 20 -> Z.of_nat (length idx) <= 2 ^ 20 ->
  Forall (valid_site natoms) idx -> Forall (valid_site natoms) drift ->
  a_obs d = n -> shape (a_rows d) natoms n ->
  (forall a t v i, arr_entry d a t = Some v -> finite_double (part v i)
    /\ (Rabs (value (part v i) - moved (values3 side) x 0 (S t) a i) <= 16 * (INR (S t) * INR (S t)) * (eps * value (part side i)))%R) ->
  parser_init gs d idx drift ts ss o = Ok p -> o_sampling o = "multi-origin"%string -> Forall (fun m => 0 < m <= Z.of_nat n) (p_intervals p) ->
  (forall l, q = QArray l -> length l = length idx) -> Forall (fun c => finite_double c /\ (Rabs (value c) <= powerRZ 2 100)%R) (charge_doubles q) ->
  0 < u_sub_sample_dt u -> u_block u = false -> mscd_bootstrap X u (p_delta_t p) (p_disp_3d p) q (p_n_o p) g = Ok (b, g') ->
  exists used, sub_sample (Z.to_nat (u_sub_sample_dt u)) (filter (fun m => enough (length idx) n (Z.to_nat m)) (p_intervals p)) used
    /\ Forall2 (fun m r => charge_accurate (n - Z.to_nat m + 1) (length idx) (total_charge_size (charge_values q (length idx)) * chain_error n (length drift) * sqrt (sqlen all_axes (values3 side)))
          (exact_single (charge_values q (length idx)) (values3 side) x (map (site natoms) drift) (map (site natoms) idx) n (Z.to_nat m)) r
          (exact_mscd (charge_values q (length idx)) (values3 side) x (map (site natoms) drift) (map (site natoms) idx) n (Z.to_nat m)))
         (filter (fun m => m <? Z.of_nat n) (firstn (Nat.div (length used) 2) used)) (b_n b).
Proof.
  intros Hs Hs2 Hx Hn HF HN Vi Vd Eo Sh HE Hp HS HI HQ BQ Hk HB Hm.
  rewrite (gtable d natoms n Eo Sh) in Hp. set (Y := fun a t => nth t (nth a (a_rows d) []) v0) in *.
  pose (ns := map Z.to_nat (p_intervals p)).
  assert (EI : p_intervals p = map Z.of_nat ns).
  { unfold ns. rewrite map_map. rewrite <- (map_id (p_intervals p)) at 1. apply map_ext_in. intros m Im. rewrite Forall_forall in HI. specialize (HI m Im). lia. }
  assert (HNs : Forall (fun m => (0 < m <= n)%nat) ns).
  { unfold ns. apply Forall_map. eapply Forall_impl; [|exact HI]. cbn. intros m Hm'. lia. }
  pose proof (gparser gs natoms n Y idx drift ts ss o p ns Hp HS Vi Vd EI HNs) as ED. rewrite ED in Hm.
  assert (Bn : (INR n <= 1048576)%R). { rewrite INR_IZR_INZ. apply IZR_le. exact Hn. }
  assert (BF : (INR (length drift) <= 1048576)%R). { rewrite INR_IZR_INZ. apply IZR_le. exact HF. }
  assert (BI : (INR (length idx) <= 1048576)%R). { rewrite INR_IZR_INZ. apply IZR_le. exact HN. }
  assert (HYp : forall a t i, (a < natoms)%nat -> (t < n)%nat -> finite_double (part (Y a t) i)
    /\ (Rabs (value (part (Y a t) i) - moved (values3 side) x 0 (S t) a i) <= 16 * (INR (S t) * INR (S t)) * (eps * value (part side i)))%R).
  { intros a t i Ha Ht. destruct Sh as [SL SF].
    assert (AE : arr_entry d a t = Some (Y a t)).
    { unfold arr_entry, entry, Y. rewrite (nth_error_nth' (a_rows d) [] (n := a)) by lia. rewrite Forall_forall in SF. apply nth_error_nth'. rewrite SF; [exact Ht|]. apply nth_In. lia. }
    exact (HE a t (Y a t) i AE). }
  set (ls := filter (enough (length idx) n) ns) in *.
  assert (FL : Forall (fun m => (0 < m <= n)%nat /\ enough (length idx) n m = true) ls).
  { apply Forall_forall. intros m Im. apply filter_In in Im as [Im En]. rewrite Forall_forall in HNs. auto. }
  destruct (Nat.eq_dec (length idx) 0) as [Z0|Z0].
  { (* no atoms: no intervals *)
    exfalso. destruct ls as [|m ls'].
    - cbn [map] in Hm. unfold mscd_bootstrap in Hm. inv_bind Hm b0 E. unfold bootstrap_init in E. inv_bind E ds D1. inv_bind E ts' D2. inv_bind E d0 D3. inv_bind E sl D4.
      assert (SS : sub_sample (Z.to_nat (u_sub_sample_dt u)) (@nil (Arr spec_float)) ds) by (now apply stride_sub).
      apply py_index_ok_inv in D3. pose proof (forall_sub_sample (fun _ => False) _ _ _ SS (Forall_nil _)) as FF. rewrite Forall_forall in FF. exact (FF _ D3).
    - apply Forall_inv in FL as [_ En]. unfold enough in En. rewrite Z0 in En. cbn in En. discriminate. }
  assert (NI : idx <> []) by (intros ->; apply Z0; reflexivity).
  set (ws := map (gwindow natoms n (gdrift natoms drift Y) idx) ls) in *.
  assert (W1 : Forall arr_wf ws) by (apply Forall_map, Forall_forall; intros m _; apply window_wf).
  assert (W2 : Forall (components_below 200) ws).
  { apply Forall_map. eapply Forall_impl; [|exact FL]. cbv beta. intros m [Hm' _]. now apply (window_below side n natoms x). }
  assert (W3 : Forall (fun d => length (a_rows d) = length idx) ws) by (apply Forall_map, Forall_forall; intros m _; unfold gwindow; cbn [a_rows]; apply map_length).
  assert (W4 : Forall (fun d => Z.of_nat (a_obs d) <= 2 ^ 50) ws) by (apply Forall_map, Forall_forall; intros m _; unfold gwindow; cbn [a_obs]; lia).
  destruct (C98_mscd_proof X u _ ws q _ g b g' (length idx) Hk HB W1 W2 W3 ltac:(lia) HN W4 HQ BQ Hm) as (used & SS & F2). unfold ws in SS.
  apply sub_sample_of_map in SS as (used' & SS & ->); [|exact Hk].
    pose proof (forall_sub_sample _ _ _ _ SS FL) as FU.
    exists (map Z.of_nat used'). split.
    { intros i. rewrite nth_error_map, SS. rewrite <- nth_error_map. f_equal. unfold ls, ns.
      clear - HI. induction (p_intervals p) as [|m ms IH]; [reflexivity|]. inversion HI; subst. cbn [map filter]. destruct (enough (length idx) n (Z.to_nat m)); cbn [map]; rewrite IH by assumption; [|reflexivity]. f_equal. lia. }
    rewrite map_length, firstn_map in F2 |- *. set (hs := firstn (Nat.div (length used') 2) used') in *.
    assert (FH : Forall (fun m => (0 < m <= n)%nat) hs).
    { apply Forall_forall. intros m Im. apply in_firstn in Im. rewrite Forall_forall in FU. now apply FU. }
    rewrite filter_obs in F2 by exact FH. rewrite filter_map_swap.
    apply forall2_map_l in F2. cbn [gwindow a_obs] in F2.
    assert (C : forall m r, In m (filter (fun m => Z.of_nat m <? Z.of_nat n) hs) ->
       sum_accurate (n - m + 1) (length idx) (msd_of all_axes (charged (charge_values q (length idx)) (values (gwindow natoms n (gdrift natoms drift Y) idx m)))) r
         (mscd_of all_axes (charge_values q (length idx)) (values (gwindow natoms n (gdrift natoms drift Y) idx m))) ->
       charge_accurate (n - Z.to_nat (Z.of_nat m) + 1) (length idx) (total_charge_size (charge_values q (length idx)) * chain_error n (length drift) * sqrt (sqlen all_axes (values3 side)))
          (exact_single (charge_values q (length idx)) (values3 side) x (map (site natoms) drift) (map (site natoms) idx) n (Z.to_nat (Z.of_nat m))) r
          (exact_mscd (charge_values q (length idx)) (values3 side) x (map (site natoms) drift) (map (site natoms) idx) n (Z.to_nat (Z.of_nat m)))).
    { intros m r Im. rewrite Nat2Z.id. apply filter_In in Im as [Im _]. rewrite Forall_forall in FH. apply (chain_charge side n natoms x Y drift idx); auto. now apply charge_values_length. }
    revert C F2. generalize (filter (fun m => Z.of_nat m <? Z.of_nat n) hs), (b_n b). clear. intros l r C F2.
    assert (G : Forall2 (fun m r => charge_accurate (n - Z.to_nat (Z.of_nat m) + 1) (length idx) (total_charge_size (charge_values q (length idx)) * chain_error n (length drift) * sqrt (sqlen all_axes (values3 side)))
          (exact_single (charge_values q (length idx)) (values3 side) x (map (site natoms) drift) (map (site natoms) idx) n (Z.to_nat (Z.of_nat m))) r
          (exact_mscd (charge_values q (length idx)) (values3 side) x (map (site natoms) drift) (map (site natoms) idx) n (Z.to_nat (Z.of_nat m)))) l r).
    { exact (forall2_in _ _ _ _ C F2). }
    clear C F2. induction G; constructor; auto.
Qed.
Lemma C123_box_proof {G Seed RS} (X : Ext spec_float G Seed RS) (side : V3 spec_float) (n natoms : nat) (c : nat -> nat -> V3 spec_float) (x : nat -> nat -> V3 R)
    gs idx drift ts ss (o : Options spec_float) d p u q g b g' :
  (forall i, usual_length (part side i)) -> (forall i, (value (part side i) <= powerRZ 2 170)%R) ->
  (forall f a i, (f <= n)%nat -> (a < natoms)%nat -> finite_double (part (c f a) i) /\ (Rabs (value (part (c f a) i)) <= 2)%R /\ is_integer (value (part (c f a) i) - part (x f a) i)) ->
  (forall f a i, (f < n)%nat -> (a < natoms)%nat -> (Rabs (part (x (S f) a) i - part (x f a) i) <= / 2 - / 2 ^ 47)%R) ->
  Z.of_nat n <= 2 ^ 20 -> Z.of_nat (length drift) <= 2 ^ 20 -> Z.of_nat (length idx) <= 2 ^ 20 ->
  Forall (valid_site natoms) idx -> Forall (valid_site natoms) drift ->
  get_disp (tab (S n) (fun f => tab natoms (c f))) (tab (S n) (fun _ => box side)) = Ok d ->
  parser_init gs d idx drift ts ss o = Ok p -> o_sampling o = "multi-origin"%string -> Forall (fun m => 0 < m <= Z.of_nat n) (p_intervals p) ->
  (forall l, q = QArray l -> length l = length idx) -> Forall (fun c => finite_double c /\ (Rabs (value c) <= powerRZ 2 100)%R) (charge_doubles q) ->
  0 < u_sub_sample_dt u -> u_block u = false -> mscd_bootstrap X u (p_delta_t p) (p_disp_3d p) q (p_n_o p) g = Ok (b, g') ->
  exists used, sub_sample (Z.to_nat (u_sub_sample_dt u)) (filter (fun m => enough (length idx) n (Z.to_nat m)) (p_intervals p)) used
    /\ Forall2 (fun m r => charge_accurate (n - Z.to_nat m + 1) (length idx) (total_charge_size (charge_values q (length idx)) * chain_error n (length drift) * sqrt (sqlen all_axes (values3 side)))
          (exact_single (charge_values q (length idx)) (values3 side) x (map (site natoms) drift) (map (site natoms) idx) n (Z.to_nat m)) r
          (exact_mscd (charge_values q (length idx)) (values3 side) x (map (site natoms) drift) (map (site natoms) idx) n (Z.to_nat m)))
         (filter (fun m => m <? Z.of_nat n) (firstn (Nat.div (length used) 2) used)) (b_n b).
Proof.
  intros Hs Hs2 Hc Hx Hn HF HN Vi Vd Hg. destruct (C74_proof side n natoms c x Hs Hc Hx Hn) as (d' & Hg' & Eo & Sh & HE). rewrite Hg in Hg'. injection Hg' as <-.
  apply charge_run; try assumption.
  - intros f a i Hf Ha. eapply Rle_trans; [now apply Hx|]. assert (0 < / 2 ^ 47)%R by (apply Rinv_0_lt_compat, pow_lt; lra). lra.
  - intros a t v i E. destruct (HE a t v i E) as [Fy Ey]. split; [exact Fy|]. unfold moved. rewrite part_values. cbn [Nat.add].
    replace (16 * (INR (S t) * INR (S t)) * (eps * value (part side i)))%R with (INR (S t) ^ 2 * / 2 ^ 49 * value (part side i))%R; [exact Ey|]. unfold eps. cbn [pow]. field.
Qed.

(** ** Cells of any shape *)
Lemma power_above3 M : (powerRZ 2 (-300) <= M <= powerRZ 2 160)%R -> exists l, usual_length l /\ (value l <= powerRZ 2 170)%R /\ (16 * M <= value l <= 32 * M)%R.
Proof.
  intros [H K]. destruct (power_above M) as (l & U & B).
  { split; [exact H|]. eapply Rle_trans; [exact K|]. rewrite <- !(bpow_powerRZ radix2). apply bpow_le. lia. }
  exists l. split; [exact U|]. split; [|exact B]. rewrite <- (bpow_powerRZ radix2) in K |- *. apply Rle_trans with (bpow radix2 5 * bpow radix2 160)%R; [change (bpow radix2 5) with 32%R; lra|].
  rewrite <- bpow_plus. apply bpow_le. lia.
Qed.
Lemma moved_rel_scale l (pos : nat -> nat -> V3 R) fw o m a : l <> 0%R -> moved_rel (mkV l l l) (fun f a => scale3 (/ l) (pos f a)) fw o m a = moved_rel ones pos fw o m a.
Proof.
  intros Hl. assert (E : forall o m a i, moved (mkV l l l) (fun f a => scale3 (/ l) (pos f a)) o m a i = moved ones pos o m a i).
  { intros o' m' a' i. unfold moved, ones. destruct i; cbn [part scale3 vx vy vz]; field; exact Hl. }
  unfold moved_rel. destruct fw as [|f fw]; [now rewrite !E|]. rewrite !E. rewrite !(map_ext _ _ (fun f => E o m f _)). reflexivity.
Qed.
Lemma exact_mscd_scale q l (pos : nat -> nat -> V3 R) fw ids n m : l <> 0%R ->
  exact_mscd q (mkV l l l) (fun f a => scale3 (/ l) (pos f a)) fw ids n m = exact_mscd q ones pos fw ids n m.
Proof.
  intros Hl. unfold exact_mscd. f_equal. apply tab_ext. intros o _. f_equal. f_equal. apply map_ext. intros p. unfold dipole_of. now rewrite moved_rel_scale.
Qed.
Lemma exact_single_scale q l (pos : nat -> nat -> V3 R) fw ids n m : l <> 0%R ->
  exact_single q (mkV l l l) (fun f a => scale3 (/ l) (pos f a)) fw ids n m = exact_single q ones pos fw ids n m.
Proof.
  intros Hl. unfold exact_single. f_equal. f_equal. apply map_ext. intros p. apply tab_ext. intros o _. unfold dipole_of. now rewrite moved_rel_scale.
Qed.
Lemma charge_weaken k a e e' s r ex : (e <= e')%R -> charge_accurate k a e s r ex -> charge_accurate k a e' s r ex.
Proof. intros H (A & B & C). split; [exact A|]. split; [exact B|]. eapply Rle_trans; [exact C|]. lra. Qed.
Lemma charge_path_run {G Seed RS} (X : Ext spec_float G Seed RS) (M : R) (n natoms : nat) (pos : nat -> nat -> V3 R)
    gs idx drift ts ss (o : Options spec_float) d p u q g b g' :
  (powerRZ 2 (-300) <= M <= powerRZ 2 160)%R ->
  (forall f a i, (f < n)%nat -> (a < natoms)%nat -> (Rabs (part (pos (S f) a) i - part (pos f a) i) <= 3 / 2 * M)%R) ->
  Z.of_nat n <= 2 ^ 20 -> Z.of_nat (length drift) <= 2 ^ 20 -> Z.of_nat (length idx) <= 2 ^ 20 ->
  Forall (valid_site natoms) idx -> Forall (valid_site natoms) drift ->
  a_obs d = n -> shape (a_rows d) natoms n ->
  (forall a t v i, arr_entry d a t = Some v -> finite_double (part v i)
    /\ (Rabs (value (part v i) - (part (pos (S t) a) i - part (pos 0%nat a) i)) <= INR (S t) ^ 2 * / 2 ^ 45 * M)%R) ->
  parser_init gs d idx drift ts ss o = Ok p -> o_sampling o = "multi-origin"%string -> Forall (fun m => 0 < m <= Z.of_nat n) (p_intervals p) ->
  (forall l, q = QArray l -> length l = length idx) -> Forall (fun c => finite_double c /\ (Rabs (value c) <= powerRZ 2 100)%R) (charge_doubles q) ->
  0 < u_sub_sample_dt u -> u_block u = false -> mscd_bootstrap X u (p_delta_t p) (p_disp_3d p) q (p_n_o p) g = Ok (b, g') ->
  exists used, sub_sample (Z.to_nat (u_sub_sample_dt u)) (filter (fun m => enough (length idx) n (Z.to_nat m)) (p_intervals p)) used
    /\ Forall2 (fun m r => charge_accurate (n - Z.to_nat m + 1) (length idx) (total_charge_size (charge_values q (length idx)) * (56 * chain_error n (length drift) * M))
          (exact_single (charge_values q (length idx)) ones pos (map (site natoms) drift) (map (site natoms) idx) n (Z.to_nat m)) r
          (exact_mscd (charge_values q (length idx)) ones pos (map (site natoms) drift) (map (site natoms) idx) n (Z.to_nat m)))
         (filter (fun m => m <? Z.of_nat n) (firstn (Nat.div (length used) 2) used)) (b_n b).
Proof.
  intros HM Hx Hn HF HN Vi Vd Eo Sh HE Hp HS HI HQ BQ Hk HB Hm. destruct (power_above3 M HM) as (l & Hl & L0 & L1 & L2).
  assert (PM : (0 < M)%R). { destruct HM as [H _]. rewrite <- (bpow_powerRZ radix2) in H. pose proof (bpow_gt_0 radix2 (-300)). lra. }
  assert (PL : (0 < value l)%R) by lra. assert (IL : (0 < / value l)%R) by (apply Rinv_0_lt_compat, PL).
  assert (ML : (M * / value l <= / 16)%R). { apply Rmult_le_reg_r with (value l); [exact PL|]. rewrite Rmult_assoc, Rinv_l by lra. lra. }
  destruct eps_small as [E0 _].
  destruct (charge_run X (mkV l l l) n natoms (fun f a => scale3 (/ value l) (pos f a)) gs idx drift ts ss o d p u q g b g') as (used & A2 & A3); auto.
  - intros []; exact Hl.
  - intros []; exact L0.
  - intros f a i Hf Ha. specialize (Hx f a i Hf Ha). replace (part (scale3 (/ value l) (pos (S f) a)) i - part (scale3 (/ value l) (pos f a)) i)%R
      with ((part (pos (S f) a) i - part (pos f a) i) * / value l)%R by (destruct i; cbn [part scale3 vx vy vz]; ring).
    rewrite Rabs_mult, (Rabs_pos_eq (/ value l)) by lra. apply Rle_trans with (3 / 2 * M * / value l)%R; [apply Rmult_le_compat_r; lra|]. lra.
  - intros a t v i E. destruct (HE a t v i E) as [F B]. split; [exact F|].
    replace (moved (values3 (mkV l l l)) (fun f a0 => scale3 (/ value l) (pos f a0)) 0 (S t) a i) with (part (pos (S t) a) i - part (pos 0%nat a) i)%R
      by (unfold moved, values3; cbn [Nat.add]; destruct i; cbn [part scale3 vx vy vz]; field; lra).
    eapply Rle_trans; [exact B|]. replace (INR (S t) ^ 2 * / 2 ^ 45 * M)%R with (16 * (INR (S t) * INR (S t)) * (eps * (16 * M)))%R by (unfold eps; field).
    apply Rmult_le_compat_l; [apply Rmult_le_pos; [lra|]; apply Rmult_le_pos; apply pos_INR|]. apply Rmult_le_compat_l; [lra|]. destruct i; cbn [part vx vy vz]; lra.
  - exists used. split; [exact A2|]. eapply Forall2_imp; [|exact A3]. cbv beta. intros m r Q.
    unfold values3 in Q. cbn [vx vy vz] in Q. rewrite exact_mscd_scale, exact_single_scale in Q by lra. eapply charge_weaken; [|exact Q]. rewrite sqlen_equal by lra.
    pose proof (chain_error_nonneg n (length drift)) as CE. pose proof (size_nonneg (charge_values q (length idx))).
    rewrite !Rmult_assoc. apply Rmult_le_compat_l; [lra|].
    assert (S3 : (sqrt (INR (length all_axes)) <= 7 / 4)%R). { rewrite <- (sqrt_square (7 / 4)) by lra. apply sqrt_le_1_alt. cbn. lra. }
    pose proof (sqrt_pos (INR (length all_axes))) as S0.
    apply Rle_trans with (chain_error n (length drift) * (7 / 4 * (32 * M)))%R; [|replace (chain_error n (length drift) * (7 / 4 * (32 * M)))%R with (56 * (chain_error n (length drift) * M))%R by field; lra].
    apply Rmult_le_compat_l; [exact CE|]. apply Rmult_le_compat; lra.
Qed.
Lemma C123_fixed_proof {G Seed RS} (X : Ext spec_float G Seed RS) (M rho : R) (n natoms : nat) (cell : M3 spec_float)
    (c : nat -> nat -> V3 spec_float) (x : nat -> nat -> V3 R) gs idx drift ts ss (o : Options spec_float) d p u q g b g' :
  (powerRZ 2 (-300) <= M <= powerRZ 2 160)%R -> (1 <= rho <= 100)%R -> compact_cell rho M cell ->
  (forall f a, (f <= n)%nat -> (a < natoms)%nat -> near_origin (c f a) /\ forall i, is_integer (value (part (c f a) i) - part (x f a) i)) ->
  (forall f a i, (f < n)%nat -> (a < natoms)%nat -> (Rabs (part (x (S f) a) i - part (x f a) i) <= / 2 - 68 * rho ^ 2 * / 2 ^ 44)%R) ->
  Z.of_nat n <= 2 ^ 20 -> Z.of_nat (length drift) <= 2 ^ 20 -> Z.of_nat (length idx) <= 2 ^ 20 ->
  Forall (valid_site natoms) idx -> Forall (valid_site natoms) drift ->
  get_disp (tab (S n) (fun f => tab natoms (c f))) (tab (S n) (fun _ => cell)) = Ok d ->
  parser_init gs d idx drift ts ss o = Ok p -> o_sampling o = "multi-origin"%string -> Forall (fun m => 0 < m <= Z.of_nat n) (p_intervals p) ->
  (forall l, q = QArray l -> length l = length idx) -> Forall (fun c => finite_double c /\ (Rabs (value c) <= powerRZ 2 100)%R) (charge_doubles q) ->
  0 < u_sub_sample_dt u -> u_block u = false -> mscd_bootstrap X u (p_delta_t p) (p_disp_3d p) q (p_n_o p) g = Ok (b, g') ->
  exists used, sub_sample (Z.to_nat (u_sub_sample_dt u)) (filter (fun m => enough (length idx) n (Z.to_nat m)) (p_intervals p)) used
    /\ Forall2 (fun m r => charge_accurate (n - Z.to_nat m + 1) (length idx) (total_charge_size (charge_values q (length idx)) * (56 * chain_error n (length drift) * M))
          (exact_single (charge_values q (length idx)) ones (fun f a => cart (stored_cell cell) (x f a)) (map (site natoms) drift) (map (site natoms) idx) n (Z.to_nat m)) r
          (exact_mscd (charge_values q (length idx)) ones (fun f a => cart (stored_cell cell) (x f a)) (map (site natoms) drift) (map (site natoms) idx) n (Z.to_nat m)))
         (filter (fun m => m <? Z.of_nat n) (firstn (Nat.div (length used) 2) used)) (b_n b).
Proof.
  intros HM HR Hc Ho Hx Hn HF HN Vi Vd Hg Hp HS HI HQ BQ Hk HB Hm.
  assert (HM' : (powerRZ 2 (-300) <= M <= powerRZ 2 300)%R).
  { split; [apply HM|]. eapply Rle_trans; [apply HM|]. rewrite <- !(bpow_powerRZ radix2). apply bpow_le. lia. }
  assert (R2 : (0 <= 68 * rho ^ 2 * / 2 ^ 44)%R) by (repeat apply Rmult_le_pos; try lra; apply pow_le; lra).
  destruct (C97_fixed_proof M rho n natoms cell c x HM' HR Hn Hc Ho Hx) as (d' & Hg' & Eo & Sh & HE). rewrite Hg in Hg'. injection Hg' as <-.
  apply (charge_path_run X M n natoms _ gs idx drift ts ss o d p u q g b g' HM); auto.
  - intros f a i Hf Ha. rewrite <- part_minus3, <- cart_minus. apply (cart_bound cell M); [apply Hc|]. intros j. rewrite part_minus3. eapply Rle_trans; [now apply Hx|]. lra.
  - intros a t v i E. rewrite <- part_minus3, <- cart_minus. exact (HE a t v i E).
Qed.
Lemma C123_changing_proof {G Seed RS} (X : Ext spec_float G Seed RS) (M rho : R) (n natoms : nat) (cell : nat -> M3 spec_float)
    (c : nat -> nat -> V3 spec_float) gs idx drift ts ss (o : Options spec_float) d p u q g b g' :
  (powerRZ 2 (-300) <= M <= powerRZ 2 160)%R -> (1 <= rho <= 100)%R -> (forall f, (f <= n)%nat -> compact_cell rho M (cell f)) ->
  (forall f a, (f <= n)%nat -> (a < natoms)%nat -> near_origin (c f a)) ->
  (forall f a, (f < n)%nat -> (a < natoms)%nat -> clear_step (68 * rho ^ 2 * / 2 ^ 44) (cell f) (cell (S f)) (c f a) (c (S f) a)) ->
  Z.of_nat n <= 2 ^ 20 -> Z.of_nat (length drift) <= 2 ^ 20 -> Z.of_nat (length idx) <= 2 ^ 20 ->
  Forall (valid_site natoms) idx -> Forall (valid_site natoms) drift ->
  get_disp (tab (S n) (fun f => tab natoms (c f))) (tab (S n) cell) = Ok d ->
  parser_init gs d idx drift ts ss o = Ok p -> o_sampling o = "multi-origin"%string -> Forall (fun m => 0 < m <= Z.of_nat n) (p_intervals p) ->
  (forall l, q = QArray l -> length l = length idx) -> Forall (fun c => finite_double c /\ (Rabs (value c) <= powerRZ 2 100)%R) (charge_doubles q) ->
  0 < u_sub_sample_dt u -> u_block u = false -> mscd_bootstrap X u (p_delta_t p) (p_disp_3d p) q (p_n_o p) g = Ok (b, g') ->
  exists y used, get_disp (tab (S n) (fun f => tab natoms (fun a => stored (c f a)))) (tab (S n) (fun f => stored_cell (cell f))) = Ok y
    /\ sub_sample (Z.to_nat (u_sub_sample_dt u)) (filter (fun m => enough (length idx) n (Z.to_nat m)) (p_intervals p)) used
    /\ Forall2 (fun m r => charge_accurate (n - Z.to_nat m + 1) (length idx) (total_charge_size (charge_values q (length idx)) * (56 * chain_error n (length drift) * M))
          (exact_single (charge_values q (length idx)) ones (path_of y) (map (site natoms) drift) (map (site natoms) idx) n (Z.to_nat m)) r
          (exact_mscd (charge_values q (length idx)) ones (path_of y) (map (site natoms) drift) (map (site natoms) idx) n (Z.to_nat m)))
         (filter (fun m => m <? Z.of_nat n) (firstn (Nat.div (length used) 2) used)) (b_n b).
Proof.
  intros HM HR Hc Ho Hx Hn HF HN Vi Vd Hg Hp HS HI HQ BQ Hk HB Hm.
  assert (HM' : (powerRZ 2 (-300) <= M <= powerRZ 2 300)%R).
  { split; [apply HM|]. eapply Rle_trans; [apply HM|]. rewrite <- !(bpow_powerRZ radix2). apply bpow_le. lia. }
  assert (R2 : (0 < 68 * rho ^ 2 * / 2 ^ 44)%R) by (repeat apply Rmult_lt_0_compat; try lra; apply pow_lt; lra).
  destruct (C97_proof M rho n natoms cell c HM' HR Hn Hc Ho Hx) as (d' & y & Hg' & Hy & Eo & _ & Sh & Sy & HE). rewrite Hg in Hg'. injection Hg' as <-.
  exists y. assert (HL : len M) by (unfold len; rewrite <- !(bpow_powerRZ radix2) in HM'; exact HM').
  destruct (mapM_minv_fun (fun f => stored_cell (cell f)) (S n)) as (ri & ER & Hri).
  { intros f Hf. destruct (det_bounds M rho (cell f) HL HR (Hc f ltac:(lia))) as (z & _ & _ & _ & B0). intros E. rewrite E, Rabs_R0 in B0.
    pose proof (len_pos M HL). assert (0 < M ^ 3 / rho)%R by (apply Rdiv_lt_0_compat; [apply pow_lt; lra|lra]). lra. }
  pose proof Hy as Hy0. rewrite (get_disp_fun natoms n (fun f a => stored (c f a)) (fun f => stored_cell (cell f)) ri ER) in Hy.
  match type of Hy with Ok ?z = Ok _ => assert (Z : y = z) by congruence end.
  set (s := fun a f => tor_step (stored_cell (cell (S f))) (ri (S f)) (cart (stored_cell (cell f)) (stored (c f a))) (cart (stored_cell (cell (S f))) (stored (c (S f) a)))).
  assert (PE : forall a t, (a < natoms)%nat -> (t < n)%nat -> arr_entry y a t = Some (vsum (s a) (S t))).
  { intros a t Ha Ht. rewrite Z. unfold arr_entry. cbn [a_rows]. exact (tab_entry natoms n (fun a t => vsum (s a) (S t)) a t Ha Ht). }
  assert (PP : forall a f, (a < natoms)%nat -> (f <= n)%nat -> path_of y f a = vsum (s a) f).
  { intros a [|t] Ha Hf; [reflexivity|]. unfold path_of. now rewrite PE. }
  assert (IN : forall a t v, arr_entry d a t = Some v -> (a < natoms)%nat /\ (t < n)%nat).
  { intros a t v E. unfold arr_entry, entry in E. destruct Sh as [L F]. destruct (nth_error (a_rows d) a) as [r|] eqn:Er; [|discriminate].
    split; [rewrite <- L; apply nth_error_Some; congruence|]. rewrite Forall_forall in F. rewrite <- (F r (nth_error_In _ _ Er)). apply nth_error_Some. congruence. }
  destruct (charge_path_run X M n natoms (path_of y) gs idx drift ts ss o d p u q g b g' HM) as (used & A); auto.
  - intros f a i Hf Ha. rewrite !PP by (auto; lia). cbn [vsum].
    replace (part (plus3 (vsum (s a) f) (s a f)) i - part (vsum (s a) f) i)%R with (part (s a f) i) by (destruct i; cbn [part plus3 vx vy vz]; ring).
    destruct (Hx f a Hf Ha) as (e & k & He & Hk'). unfold s. rewrite (clear_real _ _ _ _ _ _ e k R2 (Hri (S f) ltac:(lia)) He (fun i => proj2 (Hk' i))).
    apply (cart_bound (cell (S f)) M); [apply Hc; lia|]. intros j. rewrite part_minus3, part_ivec. eapply Rle_trans; [apply Hk'|]. lra.
  - intros a t v i E. destruct (IN a t v E) as [Ha Ht]. destruct (HE a t v _ i E (PE a t Ha Ht)) as [F B]. split; [exact F|].
    rewrite (PP a (S t)) by (auto; lia). cbn [path_of]. replace (part zero3 i) with 0%R by now destruct i. rewrite Rminus_0_r. exact B.
  - exists used. split; [exact Hy0|exact A].
Qed.

(** ** Cases *)
Lemma C123_example_proof {G Seed RS} (X : Ext spec_float G Seed RS) (g : G) :
  (forall f a i, (f <= 3)%nat -> finite_double (part (pairing f a) i) /\ (Rabs (value (part (pairing f a) i)) <= 2)%R
     /\ is_integer (value (part (pairing f a) i) - part (paired f a) i))
  /\ (forall f a i, (f < 3)%nat -> (Rabs (part (paired (S f) a) i - part (paired f a) i) <= / 2 - / 2 ^ 47)%R)
  /\ Forall (fun c => finite_double c /\ (Rabs (value c) <= powerRZ 2 100)%R) (charge_doubles (QArray [SFofZ 3; SFofZ (-1)]))
  /\ exists d p b, get_disp (tab 4 (fun f => tab 2 (pairing f))) (tab 4 (fun _ => box ten3)) = Ok d
    /\ parser_init (fun _ _ _ => Raise ValueError) d [0; 1] [] (SFofZ 1) 1 coll_opts = Ok p /\ p_intervals p = [1; 2; 3]
    /\ mscd_bootstrap X (mkBootParams 1 false false 0 0 (PyStr "xyz") (SFofZ 0)) (p_delta_t p) (p_disp_3d p) (QArray [SFofZ 3; SFofZ (-1)]) (p_n_o p) g = Ok (b, g)
    /\ map value (b_n b) = [25]%R
    /\ exact_mscd [3; -1]%R (values3 ten3) paired [] [0%nat; 1%nat] 3 1 = 25%R.
Proof.
  destruct (C98_chain_example_proof X g) as (A & B & _). split; [exact A|]. split; [exact B|].
  split; [repeat first [apply Forall_nil|apply Forall_cons]; apply below_int; cbn; lia|].
  do 3 eexists. split; [vm_compute; reflexivity|]. split; [vm_compute; reflexivity|]. split; [reflexivity|]. split; [reflexivity|]. split.
  - match goal with |- map value ?l = _ => let v := eval vm_compute in l in change l with v end. cbn [map value]. f_equal. rewrite powers. cbn. lra.
  - unfold exact_mscd, dipole_of, moved_rel, moved, all_axes, sqlen, average, values3, ten3, sum3. destruct ten_value as [_ V].
    cbn [map tab seq Nat.sub Nat.add List.concat app length rsum coord vx vy vz part paired combine fst snd scale3]. rewrite V. cbn. field.
Qed.

(** Two atoms of charge 1 that move apart by exactly the same amounts. *)
Definition place (f a : nat) : Z :=
  match a, f with
  | O, O => 1000000000000003 | O, S (S O) => 5503599627370499 | O, _ => 3251799813685251
  | _, O => 8000000000000007 | _, S (S O) => 3496400372629511 | _, _ => 5748200186314759
  end.
Definition placed (f a : nat) : V3 spec_float := mkV (SFdiv fprec femax (SFofZ (place f a)) (SFofZ (2 ^ 53))) (S754_zero false) (S754_zero false).
Definition placing (f a : nat) : V3 R := mkV (IZR (place f a) / 2 ^ 53)%R 0%R 0%R.
Lemma placed_value f a : fv (SFdiv fprec femax (SFofZ (place f a)) (SFofZ (2 ^ 53))) (IZR (place f a) / 2 ^ 53).
Proof.
  destruct a as [|a], f as [|[|[|f]]]; cbn [place]; (split; [apply finite_compute; vm_compute; auto|]);
    match goal with |- value ?l = _ => let v := eval vm_compute in l in change l with v end; cbn [value]; rewrite powers; cbn; lra.
Qed.
Lemma placing_bound f a : (0 <= IZR (place f a) / 2 ^ 53 <= 1)%R.
Proof. destruct a as [|a], f as [|[|[|f]]]; cbn [place pow]; lra. Qed.
Lemma C123_relative_proof {G Seed RS} (X : Ext spec_float G Seed RS) (g : G) :
  (forall f a i, (f <= 3)%nat -> finite_double (part (placed f a) i) /\ (Rabs (value (part (placed f a) i)) <= 2)%R
     /\ is_integer (value (part (placed f a) i) - part (placing f a) i))
  /\ (forall f a i, (f < 3)%nat -> (Rabs (part (placing (S f) a) i - part (placing f a) i) <= / 2 - / 2 ^ 47)%R)
  /\ exists d p b r, get_disp (tab 4 (fun f => tab 2 (placed f))) (tab 4 (fun _ => box ten3)) = Ok d
    /\ parser_init (fun _ _ _ => Raise ValueError) d [0; 1] [] (SFofZ 1) 1 coll_opts = Ok p /\ p_intervals p = [1; 2; 3]
    /\ mscd_bootstrap X (mkBootParams 1 false false 0 0 (PyStr "xyz") (SFofZ 0)) (p_delta_t p) (p_disp_3d p) (QScalar (SFofZ 1)) (p_n_o p) g = Ok (b, g)
    /\ b_n b = [r]
    /\ exact_mscd [1; 1]%R (values3 ten3) placing [] [0%nat; 1%nat] 3 1 = 0%R
    /\ (0 < value r)%R
    /\ forall k, ~ (Rabs (sqrt (value r) - sqrt (exact_mscd [1; 1]%R (values3 ten3) placing [] [0%nat; 1%nat] 3 1))
          <= k * sqrt (exact_mscd [1; 1]%R (values3 ten3) placing [] [0%nat; 1%nat] 3 1))%R.
Proof.
  split.
  { intros f a i Hf. destruct (placed_value f a) as [F V]. pose proof (placing_bound f a). destruct zero_fv as [F0 V0].
    destruct i; cbn [part placed placing vx vy vz]; rewrite ?V, ?V0; (split; [assumption|]); (split; [apply abs_le; lra|]); exists 0; lra. }
  split.
  { intros f a i Hf. destruct i; cbn [part placing vx vy vz]; rewrite ?Rminus_diag_eq, ?Rabs_R0 by reflexivity; try lra.
    destruct a as [|a], f as [|[|[|f]]]; try lia; cbn [place pow]; apply abs_le; lra. }
  do 4 eexists. split; [vm_compute; reflexivity|]. split; [vm_compute; reflexivity|]. split; [reflexivity|]. split; [reflexivity|]. split; [reflexivity|].
  match goal with |- ?e = _ /\ _ => assert (Z0 : e = 0%R) end.
  { unfold exact_mscd, dipole_of, moved_rel, moved, all_axes, sqlen, average, values3, ten3, sum3. destruct ten_value as [_ V].
    cbn [map tab seq Nat.sub Nat.add List.concat app length rsum coord vx vy vz part placing place combine fst snd scale3]. rewrite V. cbn. field. }
  match goal with |- _ /\ (0 < value ?l)%R /\ _ => assert (P : (0 < value l)%R) end.
  { match goal with |- (0 < value ?l)%R => let v := eval vm_compute in l in change l with v end. cbn [value]. rewrite powers. cbn. lra. }
  split; [exact Z0|]. split; [exact P|]. intros k H. rewrite Z0, sqrt_0, Rminus_0_r, Rmult_0_r in H. pose proof (sqrt_lt_R0 _ P). rewrite Rabs_pos_eq in H by lra. lra.
Qed.
