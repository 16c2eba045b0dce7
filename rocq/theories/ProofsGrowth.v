(** * ProofsGrowth: displacement curves cannot grow faster than ballistic motion (C117) *)
From Verif Require Import Base Spec SpecParser SpecStats SpecRun SpecPool SpecTrue SpecLive SpecColl SpecGrowth
  ModelParser ModelDiffusion ModelHdf ModelAnalyzer Lemmas ProofsDisp ProofsParser ProofsWindows ProofsStats ProofsStats2 ProofsTraj ProofsAnalyzer ProofsBoot ProofsGrid ProofsCollective ProofsTrue ProofsColl ProofsLive ProofsChain ProofsCaged.
From Coq Require Import Reals Lra Lia Psatz.
Open Scope nat_scope.

(** Paths [z] of particles, [T] steps; all windows of [m] steps. *)
Definition window_sum axes (ps : list (nat -> V3 R)) (T m : nat) : R :=
  rsum (map (fun z => rsum (map (fun o => sqlen axes (minus3 (z (o + m)%nat) (z o))) (seq 0 (T - m + 1)))) ps).
Definition some_windows axes (ps : list (nat -> V3 R)) (lo len m : nat) : R :=
  rsum (map (fun z => rsum (map (fun o => sqlen axes (minus3 (z (o + m)%nat) (z o))) (seq lo len))) ps).
Lemma rsum_map_le {T} (f h : T -> R) l : (forall x, In x l -> (f x <= h x)%R) -> (rsum (map f l) <= rsum (map h l))%R.
Proof. induction l as [|x l IH]; intros H; [cbn; lra|]. cbn [map]. rewrite !rsum_cons. pose proof (H x (or_introl eq_refl)). pose proof (IH (fun y Hy => H y (or_intror Hy))). lra. Qed.
Lemma rsum_map_pos {T} (f : T -> R) l : (forall x, (0 <= f x)%R) -> (0 <= rsum (map f l))%R.
Proof. intros H. induction l as [|x l IH]; [cbn; lra|]. cbn [map]. rewrite rsum_cons. pose proof (H x). lra. Qed.
Lemma some_le axes ps T m lo len : lo + len <= T - m + 1 -> (some_windows axes ps lo len m <= window_sum axes ps T m)%R.
Proof.
  intros H. apply rsum_map_le. intros z _. replace (T - m + 1) with (lo + (len + (T - m + 1 - lo - len))) by lia. rewrite !seq_app, !map_app, !rsum_app. cbn [Nat.add].
  pose proof (rsum_map_pos (fun o => sqlen axes (minus3 (z (o + m)%nat) (z o))) (seq 0 lo) ltac:(intros; apply sqlen_nonneg)).
  pose proof (rsum_map_pos (fun o => sqlen axes (minus3 (z (o + m)%nat) (z o))) (seq (lo + len) (T - m + 1 - lo - len)) ltac:(intros; apply sqlen_nonneg)). lra.
Qed.
Definition triples (axes : list axis) (ps : list (nat -> V3 R)) (lo len : nat) : list ((nat -> V3 R) * nat * axis) :=
  List.concat (map (fun z => List.concat (map (fun o => map (fun d => (z, o, d)) axes) (seq lo len))) ps).
Lemma triples_ssq axes ps lo len (w : (nat -> V3 R) -> nat -> V3 R) :
  ssq (fun q => coord (w (fst (fst q)) (snd (fst q))) (snd q)) (triples axes ps lo len) = rsum (map (fun z => rsum (map (fun o => sqlen axes (w z o)) (seq lo len))) ps).
Proof.
  unfold triples. rewrite ssq_concat, map_map. f_equal. apply map_ext. intros z. rewrite ssq_concat, map_map. f_equal. apply map_ext. intros o.
  unfold ssq, sqlen. now rewrite map_map.
Qed.
Lemma ssq_ext {T} (f h : T -> R) l : (forall x, f x = h x) -> ssq f l = ssq h l.
Proof. intros H. unfold ssq. f_equal. apply map_ext. intros x. now rewrite H. Qed.
Lemma window_triangle axes ps T a c : a + c <= T -> (sqrt (window_sum axes ps T (a + c)) <= sqrt (window_sum axes ps T a) + sqrt (window_sum axes ps T c))%R.
Proof.
  intros H. set (len := T - (a + c) + 1).
  pose proof (minkowski (fun q : (nat -> V3 R) * nat * axis => coord (minus3 (fst (fst q) (snd (fst q) + (a + c))%nat) (fst (fst q) (snd (fst q)))) (snd q))
    (fun q => coord (minus3 (fst (fst q) (snd (fst q) + a)%nat) (fst (fst q) (snd (fst q)))) (snd q)) (triples axes ps 0 len)) as M.
  rewrite (triples_ssq axes ps 0 len (fun z o => minus3 (z (o + (a + c))%nat) (z o))), (triples_ssq axes ps 0 len (fun z o => minus3 (z (o + a)%nat) (z o))) in M.
  assert (E : ssq (fun q : (nat -> V3 R) * nat * axis => (coord (minus3 (fst (fst q) (snd (fst q) + (a + c))%nat) (fst (fst q) (snd (fst q)))) (snd q)
     - coord (minus3 (fst (fst q) (snd (fst q) + a)%nat) (fst (fst q) (snd (fst q)))) (snd q))%R) (triples axes ps 0 len) = some_windows axes ps a len c).
  { transitivity (ssq (fun q : (nat -> V3 R) * nat * axis => coord (minus3 (fst (fst q) (snd (fst q) + a + c)%nat) (fst (fst q) (snd (fst q) + a)%nat)) (snd q)) (triples axes ps 0 len)).
    { apply ssq_ext. intros [[z o] d]. cbn [fst snd]. rewrite Nat.add_assoc. destruct d; cbn; lra. }
    rewrite (triples_ssq axes ps 0 len (fun z o => minus3 (z (o + a + c)%nat) (z (o + a)%nat))). unfold some_windows. f_equal. apply map_ext. intros z. f_equal.
    rewrite <- (map_map (fun o => o + a) (fun o => sqlen axes (minus3 (z (o + c)%nat) (z o)))). f_equal.
    assert (G : forall l s, map (fun o => o + a) (seq s l) = seq (s + a) l) by (induction l; intros; cbn; [reflexivity|now rewrite IHl]). now rewrite G. }
  rewrite E in M. eapply Rle_trans; [exact M|]. apply Rplus_le_compat; apply sqrt_le_1_alt.
  - apply (some_le axes ps T a 0 len). unfold len. lia.
  - apply some_le. unfold len. lia.
Qed.
Lemma multiple axes ps T c m : 0 < c -> c * m <= T -> (sqrt (window_sum axes ps T (c * m)) <= INR c * sqrt (window_sum axes ps T m))%R.
Proof.
  intros Hc. induction c as [|c IH]; [lia|]. intros H. destruct (Nat.eq_dec c 0) as [->|Hc'].
  - rewrite Nat.mul_1_l. cbn. lra.
  - rewrite Nat.mul_succ_l in *. eapply Rle_trans; [apply window_triangle; lia|]. specialize (IH ltac:(lia) ltac:(lia)). rewrite !S_INR. lra.
Qed.
Lemma window_sum_nonneg axes ps T m : (0 <= window_sum axes ps T m)%R.
Proof. unfold window_sum. apply rsum_map_pos. intros z. apply rsum_map_pos. intros o. apply sqlen_nonneg. Qed.

(** Displacements start from the first frame, kept twice. *)
Definition padded (x : nat -> V3 R) (t : nat) : V3 R := match t with O => zero3 | S j => x j end.
Lemma padded_window x m o : 0 < m -> window_obs x m o = minus3 (padded x (o + m)) (padded x o).
Proof. intros Hm. destruct o as [|o]; cbn [padded Nat.add window_obs]; [|reflexivity]. destruct m as [|m]; [lia|]. cbn [padded Nat.sub]. rewrite Nat.sub_0_r. destruct (x m). unfold minus3, zero3. cbn. f_equal; lra. Qed.
Lemma sum3_minus {T} (f h : T -> V3 R) l : sum3 (map (fun t => minus3 (f t) (h t)) l) = minus3 (sum3 (map f l)) (sum3 (map h l)).
Proof. induction l as [|t l IH]; cbn [map]; [unfold sum3, minus3; cbn; f_equal; lra|]. unfold sum3, minus3 in *. cbn [map rsum vx vy vz] in *. injection IH as E1 E2 E3. f_equal; lra. Qed.
Lemma combine_map_r {A B C} (f : B -> C) (q : list A) l : combine q (map f l) = map (fun p => (fst p, f (snd p))) (combine q l).
Proof. revert l. induction q as [|a q IH]; intros [|b l]; cbn; [reflexivity..|]. now rewrite IH. Qed.

Lemma msd_sum axes N T x I m : I <> [] -> 0 < m ->
  average (msd_values axes (multi_window N T x I m)) = (window_sum axes (map (fun i => padded (x (site N i))) I) T m / (INR (length I) * INR (T - m + 1)))%R.
Proof.
  intros HI Hm. unfold average, msd_values, entries, window_sum. cbn [multi_window a_rows]. rewrite rsum_concat_map, !map_map. f_equal.
  - f_equal. apply map_ext. intros i. unfold tab. rewrite map_map. f_equal. apply map_ext. intros o. now rewrite padded_window.
  - rewrite map_length, <- mult_INR. f_equal. clear. induction I as [|i I IH]; [reflexivity|]. cbn [map List.concat]. rewrite app_length, tab_length, IH. cbn [length]. lia.
Qed.
Lemma mstd_sum axes N T x I m : 0 < m ->
  average (mstd_values axes (multi_window N T x I m)) = (window_sum axes [fun t => sum3 (map (fun i => padded (x (site N i)) t) I)] T m / (1 * INR (T - m + 1)))%R.
Proof.
  intros Hm. unfold average, mstd_values, window_sum. cbn [map rsum]. rewrite Rplus_0_r, Rmult_1_l, tab_length. cbn [multi_window a_obs]. fold (multi_window N T x I m). f_equal.
  unfold tab. f_equal. apply map_ext_in. intros o Ho. apply in_seq in Ho. rewrite multi_at by lia. rewrite <- sum3_minus. do 2 f_equal. apply map_ext. intros i. now apply padded_window.
Qed.
Lemma mscd_sum q N T x I m : 0 < m ->
  average (mscd_values q (multi_window N T x I m))
  = (window_sum all_axes [fun t => sum3 (map (fun p => scale3 (fst p) (padded (x (site N (snd p))) t)) (combine q I))] T m / (1 * INR (T - m + 1)))%R.
Proof.
  intros Hm. unfold average, mscd_values, window_sum. cbn [map rsum]. rewrite Rplus_0_r, Rmult_1_l, tab_length. cbn [multi_window a_obs]. fold (multi_window N T x I m). f_equal.
  unfold tab. f_equal. apply map_ext_in. intros o Ho. apply in_seq in Ho. rewrite multi_at by lia. rewrite <- sum3_minus, combine_map_r, map_map. do 2 f_equal. apply map_ext.
  intros [c i]. cbn [fst snd]. rewrite padded_window by exact Hm. unfold scale3, minus3. cbn. f_equal; ring.
Qed.

Section Growth.
  Context {G Seed RS : Type} (X : Ext R G Seed RS).
  Lemma growth_from T p s b axes ps K : (0 < K)%R ->
    (forall j m v, shown p s b j m v -> 0 < m <= T /\ v = (window_sum axes ps T m / (K * INR (T - m + 1)))%R) -> grows_slowly T p s b.
  Proof.
    intros HK H. assert (P : forall m, (0 < INR (T - m + 1))%R) by (intros; apply lt_0_INR; lia).
    assert (TR : forall j m v, shown p s b j m v -> travel T m v = (sqrt (window_sum axes ps T m) * sqrt (/ K))%R).
    { intros j m v Hs. destruct (H _ _ _ Hs) as [_ ->]. unfold travel. rewrite <- sqrt_mult_alt by apply window_sum_nonneg. f_equal. field. split; [apply Rgt_not_eq, HK|apply Rgt_not_eq, P]. }
    split.
    - intros j m v Hs. destruct (H _ _ _ Hs) as [Hm ->]. split; [|exact Hm]. apply Rmult_le_pos; [apply window_sum_nonneg|]. apply Rlt_le, Rinv_0_lt_compat, Rmult_lt_0_compat; [exact HK|apply P].
    - intros j j' j'' a c v v' v'' H1 H2 H3. rewrite (TR _ _ _ H1), (TR _ _ _ H2), (TR _ _ _ H3). rewrite <- Rmult_plus_distr_r. apply Rmult_le_compat_r; [apply sqrt_pos|].
      apply window_triangle. now destruct (H _ _ _ H3).
    - intros j j' c m v v' H1 H2. destruct (H _ _ _ H1) as [Hm ->]. destruct (H _ _ _ H2) as [Hm' ->].
      assert (Hc : 0 < c) by (destruct c; [cbn in Hm'; lia|lia]). pose proof (multiple axes ps T c m Hc ltac:(lia)) as M.
      assert (M2 : (window_sum axes ps T (c * m) <= INR c * INR c * window_sum axes ps T m)%R).
      { pose proof (sqrt_sqrt _ (window_sum_nonneg axes ps T (c * m))) as Q1. pose proof (sqrt_sqrt _ (window_sum_nonneg axes ps T m)) as Q2. rewrite <- Q1, <- Q2.
        replace (INR c * INR c * (sqrt (window_sum axes ps T m) * sqrt (window_sum axes ps T m)))%R with ((INR c * sqrt (window_sum axes ps T m)) * (INR c * sqrt (window_sum axes ps T m)))%R by ring.
        apply Rmult_le_compat; try apply sqrt_pos; exact M. }
      replace (INR c * INR c * (INR (T - m + 1) / INR (T - c * m + 1)) * (window_sum axes ps T m / (K * INR (T - m + 1))))%R
        with ((INR c * INR c * window_sum axes ps T m) / (K * INR (T - c * m + 1)))%R.
      2:{ field. pose proof (P m). pose proof (P (c * m)). repeat split; lra. }
      apply Rmult_le_compat_r; [|exact M2]. apply Rlt_le, Rinv_0_lt_compat, Rmult_lt_0_compat; [exact HK|apply P].
  Qed.
  Lemma shown_entry i frames types a p N x I tis axes s ns Qf b : outcome i frames types a p N x I tis -> o_sampling (a_opts a) = "multi-origin"%string ->
    entry_of X axes (of_parsed p) s ns Qf b -> forall j m v, shown p s b j m v -> let T := kept (length frames) (Z.to_nat (a_sub_sample_traj a)) in
    0 < m <= T /\ v = average (Qf (multi_window N T x I m)).
  Proof.
    intros [NF NI F1 F2 F3 EI ED EF] Em E j m v (S1 & S2 & t & S3). cbv zeta in *. destruct (E j t S3) as (d & no & E1 & E2 & E3 & _). cbn [of_parsed an_disp_3d] in E1.
    destruct EF as [(_ & EP & _)|(Em' & _)]; [|congruence]. set (T := kept _ _) in *. rewrite EI, nth_error_map in S1.
    destruct (nth_error tis (j * s)) as [m'|] eqn:E0; [|discriminate]. injection S1 as S1. apply Nat2Z.inj in S1. subst m'.
    rewrite Forall_forall in F1. split; [exact (F1 m (nth_error_In _ _ E0))|].
    rewrite enough_prefix in EP; [|exact F2|apply Forall_forall; intros n Hn; specialize (F1 n Hn); lia].
    rewrite EP, nth_error_map in E1. destruct (nth_error (firstn _ tis) (j * s)) as [m'|] eqn:E4; [|discriminate]. injection E1 as <-.
    apply ProofsStats2.firstn_nth_error in E4. assert (m' = m) by congruence. subst m'. congruence.
  Qed.
  Lemma outcome_shape i frames types a p N x I tis : outcome i frames types a p N x I tis -> o_sampling (a_opts a) = "multi-origin"%string ->
    Forall arr_wf (p_disp_3d p) /\ Forall (fun d => length (a_rows d) = length I) (p_disp_3d p).
  Proof.
    intros [NF NI F1 F2 F3 EI ED EF] Em. cbv zeta in EF. destruct EF as [(_ & -> & _)|(Em' & _)]; [|congruence]. split; apply Forall_forall; intros d Hd; apply in_map_iff in Hd as (m & <- & _).
    - apply multi_wf.
    - apply map_length.
  Qed.
  Lemma C117_msd_proof i frames types a p u g an g' : documented i frames types a -> o_sampling (a_opts a) = "multi-origin"%string ->
    parser_by i geomspace_R circular_mean_R frames a = Ok p -> (0 < u_sub_sample_dt u)%Z -> u_block u = false -> diffusion_analyzer X (of_parsed p) u g = Ok (an, g') ->
    grows_slowly (kept (length frames) (Z.to_nat (a_sub_sample_traj a))) p (Z.to_nat (u_sub_sample_dt u)) (an_diff an).
  Proof.
    intros Hd Em H Hk Hb HA. destruct (outcome_of _ _ _ _ _ Hd H) as (N & x & I & tis & O). destruct (diffusion_entry X _ _ _ _ _ Hk Hb HA) as (axes & _ & E).
    pose proof (out_some _ _ _ _ _ _ _ _ _ O) as NI. apply (growth_from _ _ _ _ axes (map (fun i => padded (x (site N i))) I) (INR (length I))).
    - apply lt_0_INR. destruct I; [congruence|cbn; lia].
    - intros j m v Hs. destruct (shown_entry _ _ _ _ _ _ _ _ _ _ _ _ _ _ O Em E j m v Hs) as [Hm ->]. split; [exact Hm|]. apply msd_sum; [exact NI|lia].
  Qed.
  Lemma C117_mstd_proof i frames types a p u g an g' : documented i frames types a -> o_sampling (a_opts a) = "multi-origin"%string ->
    parser_by i geomspace_R circular_mean_R frames a = Ok p -> (0 < u_sub_sample_dt u)%Z -> u_block u = false -> jump_diffusion_analyzer X (of_parsed p) u g = Ok (an, g') ->
    grows_slowly (kept (length frames) (Z.to_nat (a_sub_sample_traj a))) p (Z.to_nat (u_sub_sample_dt u)) (an_diff an).
  Proof.
    intros Hd Em H Hk Hb HA. destruct (outcome_of _ _ _ _ _ Hd H) as (N & x & I & tis & O). destruct (outcome_shape _ _ _ _ _ _ _ _ _ O Em) as [W _].
    destruct (jump_entry X (of_parsed p) _ _ _ _ Hk Hb W HA) as (axes & _ & E). eapply growth_from; [exact Rlt_0_1|].
    intros j m v Hs. destruct (shown_entry _ _ _ _ _ _ _ _ _ _ _ _ _ _ O Em E j m v Hs) as [Hm ->]. split; [exact Hm|]. apply mstd_sum. lia.
  Qed.
  Lemma C117_mscd_proof i frames types types' a p q u g an g' : documented i frames types a -> types_read i types types' a -> o_sampling (a_opts a) = "multi-origin"%string ->
    parser_by i geomspace_R circular_mean_R frames a = Ok p -> (forall l, q = QArray l -> length l = followed types' a) -> (0 < u_sub_sample_dt u)%Z -> u_block u = false ->
    conductivity_analyzer X (of_parsed p) q u g = Ok (an, g') ->
    grows_slowly (kept (length frames) (Z.to_nat (a_sub_sample_traj a))) p (Z.to_nat (u_sub_sample_dt u)) (an_diff an).
  Proof.
    intros Hd Ht Em H Hq Hk Hb HA. destruct (outcome_of _ _ _ _ _ Hd H) as (N & x & I & tis & O). destruct (outcome_shape _ _ _ _ _ _ _ _ _ O Em) as [W L].
    destruct (conductivity_entry X (of_parsed p) q u g an g' (length I) Hk Hb W L) as (axes & _ & E); [|exact HA|].
    { intros l El. rewrite (out_followed _ _ _ _ _ _ _ _ _ O _ Ht). now apply Hq. }
    eapply growth_from; [exact Rlt_0_1|].
    intros j m v Hs. destruct (shown_entry _ _ _ _ _ _ _ _ _ _ _ _ _ _ O Em E j m v Hs) as [Hm ->]. split; [exact Hm|]. apply mscd_sum. lia.
  Qed.
End Growth.

(** ** Without the numbers of windows the bound fails *)
Definition spurt (f : nat) : R := match f with O => 0 | 1 => 1 / 5 | 2 => 2 / 5 | _ => 1 / 2 end%R.
Lemma spurt_gentle : gentle spurt.
Proof. intros [|[|[|f]]]; unfold spurt; lra. Qed.
Lemma walk_documented (y : nat -> nat -> V3 R) : documented Ase (handed_over Ase unit_cell ["Li"; "O"]%string 1%R 4 2 y) ["Li"; "O"]%string walk_params.
Proof.
  split; cbn [walk_params hop_params a_sub_sample_traj a_sub_sample_atoms a_specie_indices a_time_step a_opts o_sampling a_step_skip pynum_val].
  - discriminate.
  - apply Forall_forall. intros f Hf. unfold handed_over, frames_of, tab in Hf. apply in_map_iff in Hf as (j & <- & _). cbn [f_types f_pos f_cell].
    split; [reflexivity|]. split; [reflexivity|]. exact unit_cell_volume.
  - lia.
  - lia.
  - exists ["Li"; "O"]%string. split; [|split].
    + unfold types_read. intros j; cbn [atom_stride walk_params hop_params a_sub_sample_atoms]; change (Z.to_nat 1) with 1%nat; now rewrite Nat.mul_1_r.
    + apply (by_species _ _ ["Li"%string] "Li"); [reflexivity|now left|now left|]. intros l. discriminate.
    + intros _ C. now contradiction C.
  - intros _. now exists 1%R.
  - now left.
  - cbv zeta. change (Z.to_nat 1) with 1%nat. unfold handed_over, frames_of. rewrite tab_length, kept_one.
    change (steps_by Ase walk_params) with 1%Z. split; [|split; [cbn; lia|]].
    + split; unfold min_time, max_time; cbn [walk_params upto hop_params a_opts o_min_dt o_max_dt o_n_steps o_spacing]; cbn [INR]; try lra; try lia. now left.
    + unfold min_time. cbn [walk_params upto hop_params a_opts o_min_dt INR]. lra.
Qed.
Lemma spurt_run : forall G Seed RS (X : Ext R G Seed RS) (g : G), exists frames p an,
  documented Ase frames ["Li"; "O"]%string walk_params /\ length frames = 4 /\ parser_by Ase geomspace_R circular_mean_R frames walk_params = Ok p
  /\ diffusion_analyzer X (of_parsed p) (demo_boot 1 "xyz") g = Ok (an, g)
  /\ shown p 1 (an_diff an) 0 1 (9 / 400)%R /\ shown p 1 (an_diff an) 1 2 (29 / 300)%R.
Proof.
  intros G Seed RS X g. destruct (walk_run G Seed RS X circular_mean_R g spurt spurt_gentle) as (p & an & W).
  destruct (walked_values X circular_mean_R g spurt p an W) as [V1 V2]. destruct W as (F & E1 & E2 & E3 & H & Ht). destruct (fr_read _ _ _ _ _ _ _ _ _ _ _ F) as (img & K).
  exists (handed_over Ase unit_cell ["Li"; "O"]%string 1%R 4 2 (fun f a => plus3 (walk spurt f a) (ivec (img f a)))), p, an.
  split; [apply walk_documented|]. split; [unfold handed_over, frames_of; apply tab_length|]. split; [exact K|]. split; [exact H|]. unfold shown. rewrite E1, Ht. split.
  - split; [reflexivity|]. split; [|now exists 1%R]. rewrite V1. f_equal. unfold spurt. cbn [Nat.add]. field.
  - split; [reflexivity|]. split; [|now exists 2%R]. rewrite V2. f_equal. unfold spurt. cbn [Nat.add]. field.
Qed.
Lemma C117_refuted_proof : forall G Seed RS (X : Ext R G Seed RS) (g : G), exists frames types a p an j j' m v v',
  documented Ase frames types a /\ o_sampling (a_opts a) = "multi-origin"%string /\ parser_by Ase geomspace_R circular_mean_R frames a = Ok p
  /\ diffusion_analyzer X (of_parsed p) (demo_boot 1 "xyz") g = Ok (an, g)
  /\ shown p 1 (an_diff an) j m v /\ shown p 1 (an_diff an) j' (2 * m) v' /\ (2 * 2 * v < v')%R.
Proof.
  intros G Seed RS X g. destruct (spurt_run G Seed RS X g) as (frames & p & an & D & _ & P & A & S1 & S2).
  exists frames, ["Li"; "O"]%string, walk_params, p, an, 0, 1, 1, (9 / 400)%R, (29 / 300)%R.
  split; [exact D|]. split; [reflexivity|]. split; [exact P|]. split; [exact A|]. split; [exact S1|]. split; [exact S2|]. lra.
Qed.
