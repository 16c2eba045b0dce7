(** * ProofsUneven: frames stored at uneven times (C120) *)
From Verif Require Import Base Spec SpecParser SpecStats SpecFit SpecAnalyzer ModelParser ModelDiffusion ModelHdf ModelAnalyzer
  Lemmas ProofsDisp ProofsIntervals ProofsWindows ProofsParser ProofsTraj ProofsBoot ProofsStats ProofsStats2 ProofsFit ProofsShape ProofsAnalyzer
  SpecRun SpecSym ProofsSym SpecGrid ProofsGrid SpecPool ProofsCollective ProofsPool SpecTrue ProofsTrue SpecColl ProofsColl ProofsUnwrap ProofsChain SpecStable ProofsStable SpecNoise ProofsNoise SpecUneven.
From Coq Require Import Reals Lra Lia Sorting.Sorted.
Open Scope R_scope.

(** ** The average report *)
Lemma over_time_total T m (B : nat -> nat -> R) : INR (T - m) * over_time T m B = rsum (map (fun j => B j (j + m)%nat) (seq 0 (T - m))).
Proof. unfold over_time, average. rewrite tab_length. destruct (T - m)%nat eqn:E; [cbn; ring|]. rewrite <- E. unfold tab. field. apply not_0_INR. lia. Qed.
Lemma expected_reported {E} (es : list E) w T m (B : E -> nat -> nat -> R) :
  expected es w (fun e => reported T m (B e)) = reported T m (fun f g => expected es w (fun e => B e f g)).
Proof.
  unfold reported. rewrite over_time_total.
  rewrite (ex_ext _ _ _ (fun e => / INR (T - m + 1) * (rsum (map (fun j => B e j (j + m)%nat) (seq 0 (T - m))) + B e 0%nat (m - 1)%nat)))
    by (intros e _; rewrite over_time_total; unfold Rdiv; ring).
  rewrite ex_scale, ex_plus, ex_sum. unfold Rdiv. ring.
Qed.
Lemma reported_ext T m (B B' : nat -> nat -> R) : (0 < m <= T)%nat -> (forall f g, (f <= g)%nat -> (g < T)%nat -> B f g = B' f g) -> reported T m B = reported T m B'.
Proof.
  intros Hm H. unfold reported. rewrite !over_time_total. rewrite (H 0%nat (m - 1)%nat) by lia.
  rewrite (map_ext_in (fun j => B j (j + m)%nat) (fun j => B' j (j + m)%nat)); [reflexivity|]. intros j Hj. apply in_seq in Hj. apply H; lia.
Qed.
Lemma reported_spanned T m c tau : reported T m (fun f g => c * (tau g - tau f)) = c * spanned T m tau.
Proof. unfold reported, spanned. rewrite over_time_total. rewrite (rsum_map_scal c (fun j => tau (j + m)%nat - tau j)). unfold tab, Rdiv. ring. Qed.

(** ** The time spanned *)
Lemma spanned_bounds T m tau lo hi : (0 < m <= T)%nat -> (forall f, (S f < T)%nat -> lo <= tau (S f) - tau f <= hi) ->
  lo * evenly T m <= spanned T m tau <= hi * evenly T m.
Proof.
  intros Hm H.
  assert (W : forall l f, (f + l < T)%nat -> lo * INR l <= tau (f + l)%nat - tau f <= hi * INR l).
  { induction l as [|l IH]; intros f Hf; [rewrite Nat.add_0_r; cbn; lra|]. rewrite S_INR, <- plus_n_Sm. specialize (IH f ltac:(lia)). specialize (H (f + l)%nat ltac:(lia)). lra. }
  assert (P : 0 < INR (T - m + 1)) by (apply lt_0_INR; lia).
  assert (A : forall z, evenly T m * z = (INR (T - m) * (z * INR m) + z * INR (m - 1)) / INR (T - m + 1)).
  { intros z. unfold evenly. rewrite !minus_INR by lia. rewrite plus_INR, minus_INR in * by lia. cbn [INR] in *. field. lra. }
  rewrite !(Rmult_comm _ (evenly T m)), !A. unfold spanned. unfold tab.
  pose proof (W (m - 1)%nat 0%nat ltac:(lia)) as W0. cbn [Nat.add] in W0.
  assert (L : INR (T - m) * (lo * INR m) <= rsum (map (fun f => tau (f + m)%nat - tau f) (seq 0 (T - m))) <= INR (T - m) * (hi * INR m)).
  { assert (Q : forall N, (N <= T - m)%nat -> INR N * (lo * INR m) <= rsum (map (fun f => tau (f + m)%nat - tau f) (seq 0 N)) <= INR N * (hi * INR m)).
    { induction N as [|N IH]; intros HN; [cbn; lra|]. rewrite seq_S, map_app, rsum_app, S_INR. cbn [map rsum]. specialize (IH ltac:(lia)). specialize (W m N ltac:(lia)). cbn [Nat.add]. lra. }
    now apply Q. }
  unfold Rdiv. split; apply Rmult_le_compat_r; try lra; left; now apply Rinv_0_lt_compat.
Qed.
Lemma spanned_even T m delta : (0 < m <= T)%nat -> spanned T m (fun f => delta * INR f) = delta * evenly T m.
Proof.
  intros Hm. pose proof (spanned_bounds T m (fun f => delta * INR f) delta delta Hm) as [A B].
  { intros f _. rewrite S_INR. lra. } lra.
Qed.
Lemma rep_mono T rep : repeats T rep -> forall l f, (f + l < T)%nat -> (rep f <= rep (f + l))%nat.
Proof. intros [_ H]. induction l as [|l IH]; intros f Hf; [rewrite Nat.add_0_r; lia|]. specialize (IH f ltac:(lia)). rewrite <- plus_n_Sm. specialize (H (f + l)%nat ltac:(lia)). lia. Qed.
Lemma rep_telescope (h : nat -> R) m N : rsum (map (fun f => h (f + m)%nat - h f) (seq 0 N)) = rsum (map (fun j => h (N + j)%nat - h j) (seq 0 m)).
Proof.
  induction N as [|N IH].
  - cbn [seq map rsum Nat.add]. rewrite (map_ext _ (fun _ => 0)) by (intros; ring). rewrite rsum_const. ring.
  - rewrite seq_S, map_app, rsum_app, IH. cbn [map rsum]. rewrite Nat.add_0_l, Rplus_0_r. clear IH.
    induction m as [|m IH]; [cbn; rewrite Nat.add_0_r; ring|]. rewrite !seq_S, !map_app, !rsum_app. cbn [map rsum]. rewrite !Nat.add_0_l, !Rplus_0_r.
    replace (N + S m)%nat with (S N + m)%nat by lia. rewrite <- IH. ring_simplify. replace (N + m)%nat with (N + m)%nat by lia. ring.
Qed.
Lemma spanned_repeats T m delta rep : (0 < m <= T)%nat -> 0 <= delta -> repeats T rep ->
  delta * (evenly T m - INR (rep (T - 1)%nat) * (INR m + 1) / INR (T - m + 1)) <= spanned T m (with_repeats delta rep) <= delta * evenly T m.
Proof.
  intros Hm Hd HR. assert (P : 0 < INR (T - m + 1)) by (apply lt_0_INR; lia). split.
  - assert (S1 : spanned T m (with_repeats delta rep) = delta * evenly T m - delta * ((rsum (map (fun f => INR (rep (f + m)%nat) - INR (rep f)) (seq 0 (T - m))) + (INR (rep (m - 1)%nat) - INR (rep 0%nat))) / INR (T - m + 1))).
    { rewrite <- spanned_even by exact Hm. unfold spanned, with_repeats, tab.
      rewrite (map_ext (fun f => delta * (INR (f + m) - INR (rep (f + m)%nat)) - delta * (INR f - INR (rep f)))
        (fun f => (delta * INR (f + m) - delta * INR f) + (- delta) * (INR (rep (f + m)%nat) - INR (rep f)))) by (intros; ring).
      rewrite rsum_map_plus, rsum_map_scal. unfold Rdiv. ring. }
    rewrite S1, (rep_telescope (fun f => INR (rep f))). set (R := INR (rep (T - 1)%nat)).
    assert (B : forall f g, (f <= g)%nat -> (g < T)%nat -> INR (rep g) - INR (rep f) <= R).
    { intros f g Hfg Hg. pose proof (rep_mono T rep HR (T - 1 - g)%nat g ltac:(lia)) as Q. replace (g + (T - 1 - g))%nat with (T - 1)%nat in Q by lia. apply le_INR in Q.
      pose proof (pos_INR (rep f)). unfold R. lra. }
    assert (L : rsum (map (fun j => INR (rep (T - m + j)%nat) - INR (rep j)) (seq 0 m)) <= INR m * R).
    { assert (Q : forall N, (N <= m)%nat -> rsum (map (fun j => INR (rep (T - m + j)%nat) - INR (rep j)) (seq 0 N)) <= INR N * R).
      { induction N as [|N IH]; intros HN; [cbn; lra|]. rewrite seq_S, map_app, rsum_app, S_INR. cbn [map rsum]. specialize (IH ltac:(lia)). cbn [Nat.add].
        pose proof (B N (T - m + N)%nat ltac:(lia) ltac:(lia)). lra. }
      now apply Q. }
    pose proof (B 0%nat (m - 1)%nat ltac:(lia) ltac:(lia)) as L0. unfold Rdiv. rewrite <- Rmult_minus_distr_l. apply Rmult_le_compat_l; [exact Hd|].
    assert (Q : (rsum (map (fun j => INR (rep (T - m + j)%nat) - INR (rep j)) (seq 0 m)) + (INR (rep (m - 1)%nat) - INR (rep 0%nat))) * / INR (T - m + 1)
      <= R * (INR m + 1) * / INR (T - m + 1)).
    { apply Rmult_le_compat_r; [left; now apply Rinv_0_lt_compat|lra]. }
    lra.
  - apply (spanned_bounds T m (with_repeats delta rep) 0 delta Hm). intros f Hf. unfold with_repeats. destruct HR as [_ HR]. specialize (HR f Hf) as [A B].
    apply le_INR in A, B. rewrite S_INR in *. split; [|nra]. assert (0 <= delta * (INR f + 1 - INR (rep (S f)) - (INR f - INR (rep f)))) by (apply Rmult_le_pos; lra). lra.
Qed.

(** ** The analysers *)
Open Scope Z_scope.
Section Analysers.
  Context {G Seed RS : Type} (X : Ext R G Seed RS) {E : Type} (es : list E) (w : E -> R) (x : E -> nat -> nat -> V3 R) (p : E -> Parsed R) (an : E -> Analyzer R) (v : E -> R).
  Context (i : interface) (circ : option (list R) -> list R -> Res R) (cell : M3 R) (types : list string) (vol : R) (n natoms k : nat) (a : ModelParser.Params R) (u : BootParams R).
  Hypotheses (NE : es <> []) (F : forall e, In e es -> faithful_read i circ cell types vol n natoms k (x e) a (p e)) (Hk : 0 < u_sub_sample_dt u) (Hb : u_block u = false).
  Notation T := (kept n k).
  Notation pos e := (fun f b => cart cell (x e f b)).
  Lemma expected_entry j (B : E -> nat -> nat -> R) (c : R) (tau : nat -> R) :
    (forall e, In e es -> exists m t, nth_error (p_intervals (p e)) (j * Z.to_nat (u_sub_sample_dt u)) = Some (Z.of_nat m)
       /\ nth_error (p_delta_t (p e)) (j * Z.to_nat (u_sub_sample_dt u)) = Some t /\ (0 < m <= T)%nat /\ v e = reported T m (B e)) ->
    (forall f g, (f <= g)%nat -> (g < T)%nat -> expected es w (fun e => B e f g) = (c * (tau g - tau f))%R) ->
    exists m, (0 < m <= T)%nat /\ (forall e, In e es -> nth_error (p_intervals (p e)) (j * Z.to_nat (u_sub_sample_dt u)) = Some (Z.of_nat m)) /\ expected es w v = (c * spanned T m tau)%R.
  Proof.
    intros R HB. assert (K : exists m, (0 < m <= T)%nat /\ (forall e, In e es -> nth_error (p_intervals (p e)) (j * Z.to_nat (u_sub_sample_dt u)) = Some (Z.of_nat m))).
    { destruct es as [|e0 l]; [congruence|]. destruct (R e0 (or_introl eq_refl)) as (m & t & E1 & _ & Hm & _). exists m. split; [exact Hm|]. intros e He. rewrite <- E1. f_equal.
      exact (proj1 (same_reading _ _ _ _ _ _ _ _ _ _ _ _ _ _ _ (F e He) (F e0 (or_introl eq_refl)))). }
    destruct K as (m & Hm & K). exists m. split; [exact Hm|]. split; [exact K|].
    rewrite (ex_ext _ _ _ (fun e => reported T m (B e))).
    2:{ intros e He. destruct (R e He) as (m' & t & E1 & _ & _ & ->). rewrite (K e He) in E1. injection E1 as E1. apply Nat2Z.inj in E1. now subst m'. }
    rewrite expected_reported, <- reported_spanned. apply reported_ext; [exact Hm|exact HB].
  Qed.
  Lemma C120_msd_proof axes j c tau : names (pystr_text (u_dimension u)) axes ->
    (forall f g, (f <= g)%nat -> (g < T)%nat -> expected es w (fun e => square_between axes natoms k (pos e) (p_indices (p e)) (p_drift_indices (p e)) f g) = (c * (tau g - tau f))%R) ->
    (forall e, In e es -> exists g g' t, diffusion_analyzer X (of_parsed (p e)) u g = Ok (an e, g') /\ nth_error (b_dt (an_diff (an e))) j = Some t
       /\ nth_error (b_n (an_diff (an e))) j = Some (v e)) ->
    exists m, (0 < m <= T)%nat /\ (forall e, In e es -> nth_error (p_intervals (p e)) (j * Z.to_nat (u_sub_sample_dt u)) = Some (Z.of_nat m)) /\ expected es w v = (c * spanned T m tau)%R.
  Proof.
    intros Hn HB R. eapply expected_entry; [|exact HB]. intros e He. destruct (R e He) as (g & g' & t & R1 & R2 & R3).
    destruct (C81_reported_proof X _ _ _ _ _ _ _ _ _ _ _ _ _ _ _ _ (F e He) Hk Hb Hn R1 j t R2) as (m & E1 & E2 & Hm & E3). exists m, t. split; [exact E1|]. split; [exact E2|]. split; [exact Hm|].
    cbv zeta in E3. rewrite R3 in E3. injection E3 as E3. exact E3.
  Qed.
  Lemma C120_mstd_proof axes j c tau : names (pystr_text (u_dimension u)) axes ->
    (forall f g, (f <= g)%nat -> (g < T)%nat -> expected es w (fun e => total_between axes natoms k (pos e) (p_indices (p e)) (p_drift_indices (p e)) f g) = (c * (tau g - tau f))%R) ->
    (forall e, In e es -> exists g g' t, jump_diffusion_analyzer X (of_parsed (p e)) u g = Ok (an e, g') /\ nth_error (b_dt (an_diff (an e))) j = Some t
       /\ nth_error (b_n (an_diff (an e))) j = Some (v e)) ->
    exists m, (0 < m <= T)%nat /\ (forall e, In e es -> nth_error (p_intervals (p e)) (j * Z.to_nat (u_sub_sample_dt u)) = Some (Z.of_nat m)) /\ expected es w v = (c * spanned T m tau)%R.
  Proof.
    intros Hn HB R. eapply expected_entry; [|exact HB]. intros e He. destruct (R e He) as (g & g' & t & R1 & R2 & R3).
    destruct (C85_mstd_proof X _ _ _ _ _ _ _ _ _ _ _ _ _ _ _ _ (F e He) Hk Hb Hn R1 j t R2) as (m & E1 & E2 & Hm & E3). exists m, t. split; [exact E1|]. split; [exact E2|]. split; [exact Hm|].
    cbv zeta in E3. rewrite R3 in E3. injection E3 as E3. exact E3.
  Qed.
  Lemma C120_mscd_proof q j c tau : (forall e l, In e es -> q = QArray l -> length l = length (p_indices (p e))) ->
    (forall f g, (f <= g)%nat -> (g < T)%nat -> expected es w (fun e => charge_between (charges q (length (p_indices (p e)))) natoms k (pos e) (p_indices (p e)) (p_drift_indices (p e)) f g) = (c * (tau g - tau f))%R) ->
    (forall e, In e es -> exists g g' t, conductivity_analyzer X (of_parsed (p e)) q u g = Ok (an e, g') /\ nth_error (b_dt (an_diff (an e))) j = Some t
       /\ nth_error (b_n (an_diff (an e))) j = Some (v e)) ->
    exists m, (0 < m <= T)%nat /\ (forall e, In e es -> nth_error (p_intervals (p e)) (j * Z.to_nat (u_sub_sample_dt u)) = Some (Z.of_nat m)) /\ expected es w v = (c * spanned T m tau)%R.
  Proof.
    intros Hq HB R. eapply expected_entry; [|exact HB]. intros e He. destruct (R e He) as (g & g' & t & R1 & R2 & R3).
    destruct (C85_mscd_proof X _ _ _ _ _ _ _ _ _ _ _ _ _ _ _ _ (F e He) Hk Hb (fun l => Hq e l He) R1 j t R2) as (m & E1 & E2 & Hm & E3). exists m, t. split; [exact E1|]. split; [exact E2|]. split; [exact Hm|].
    cbv zeta in E3. rewrite R3 in E3. injection E3 as E3. exact E3.
  Qed.
End Analysers.

(** ** An example: random walks whose second frame is stored twice *)
Definition stuttering (e : bool * bool * bool) (f : nat) : R := random_walk e (match f with O => 0 | S O => 1 | S (S g) => S g end)%nat.
Definition once (f : nat) : nat := match f with S (S _) => 1 | _ => 0 end%nat.
Lemma stuttering_gentle e : gentle (stuttering e).
Proof. destruct e as [[a b] c]. intros f. unfold stuttering, random_walk, toss. destruct f as [|[|[|[|f]]]], a, b, c; lra. Qed.
Lemma once_repeats : repeats 4 once.
Proof. split; [reflexivity|]. intros [|[|f]] Hf; cbn; lia. Qed.
Lemma C120_example_proof : forall G Seed RS (X : Ext R G Seed RS) circ (g : G), exists p an,
  (forall e, In e tosses -> faithful_read Ase circ unit_cell ["Li"; "O"]%string 1%R 4 2 1 (walk (stuttering e)) walk_params (p e)
     /\ diffusion_analyzer X (of_parsed (p e)) (demo_boot 1 "xyz") g = Ok (an e, g) /\ b_dt (an_diff (an e)) = [1; 2]%R /\ p_intervals (p e) = [1; 2])
  /\ (forall f h, (f <= h)%nat -> (h < 4)%nat -> expected tosses (fun _ => 1 / 8)%R (fun e =>
        square_between all_axes 2 1 (fun f b => cart unit_cell (walk (stuttering e) f b)) (p_indices (p e)) (p_drift_indices (p e)) f h)
      = (1 / 100 * (with_repeats 1 once h - with_repeats 1 once f))%R)
  /\ repeats 4 once.
Proof.
  intros G Seed RS X circ g.
  assert (L : forall es, exists p an, forall e, In e es -> walked X circ g (stuttering e) (p e) (an e)).
  { induction es as [|e0 es (p & an & IH)].
    - destruct (walk_run G Seed RS X circ g ProofsTrue.steady steady_gentle) as (p & an & _). exists (fun _ => p), (fun _ => an). intros e [].
    - destruct (walk_run G Seed RS X circ g _ (stuttering_gentle e0)) as (p0 & an0 & W).
      assert (D : forall e : bool * bool * bool, {e = e0} + {e <> e0}) by (intros; repeat decide equality).
      exists (fun e => if D e then p0 else p e), (fun e => if D e then an0 else an e). intros e [<-|He].
      + destruct (D e0); [exact W|congruence].
      + destruct (D e) as [->|_]; [exact W|now apply IH]. }
  destruct (L tosses) as (p & an & K). exists p, an. split; [|split; [|exact once_repeats]].
  - intros e He. destruct (K e He) as (F & I & _ & _ & H & Ht). auto.
  - intros f h Hf Hh. rewrite (ex_ext _ _ _ (fun e => (stuttering e h - stuttering e f) * (stuttering e h - stuttering e f))%R).
    2:{ intros e He. destruct (K e He) as (_ & _ & E2 & E3 & _). now rewrite E2, E3, walk_square. }
    unfold expected, with_repeats, tosses. destruct f as [|[|[|[|f]]]], h as [|[|[|[|h]]]]; try (exfalso; lia); cbn [map stuttering random_walk toss rsum once INR]; lra.
Qed.
Lemma C120_refuted_proof : forall G Seed RS (X : Ext R G Seed RS) circ (g : G), exists p an v,
  (forall e, In e tosses -> faithful_read Ase circ unit_cell ["Li"; "O"]%string 1%R 4 2 1 (walk (stuttering e)) walk_params (p e)
     /\ diffusion_analyzer X (of_parsed (p e)) (demo_boot 1 "xyz") g = Ok (an e, g) /\ nth_error (b_dt (an_diff (an e))) 1 = Some 2%R /\ nth_error (b_n (an_diff (an e))) 1 = Some (v e))
  /\ (forall f h, (f <= h)%nat -> (h < 4)%nat -> expected tosses (fun _ => 1 / 8)%R (fun e =>
        square_between all_axes 2 1 (fun f b => cart unit_cell (walk (stuttering e) f b)) (p_indices (p e)) (p_drift_indices (p e)) f h)
      = (1 / 100 * (with_repeats 1 once h - with_repeats 1 once f))%R)
  /\ expected tosses (fun _ => 1 / 8)%R v = (1 / 100)%R /\ (1 / 100 * evenly 4 2 = 1 / 60)%R.
Proof.
  intros G Seed RS X circ g. destruct (C120_example_proof G Seed RS X circ g) as (p & an & K & HB & _).
  assert (N : forall e, In e tosses -> exists z, nth_error (b_n (an_diff (an e))) 1 = Some z).
  { intros e He. destruct (K e He) as (F & A & Ht & _).
    destruct (C81_reported_proof X _ _ _ _ _ _ _ _ _ _ _ (demo_boot 1 "xyz") _ _ _ _ F eq_refl eq_refl names_xyz A 1%nat 2%R ltac:(now rewrite Ht)) as (m' & _ & _ & _ & V). eexists. exact V. }
  set (v := fun e => match nth_error (b_n (an_diff (an e))) 1 with Some z => z | None => 0%R end).
  assert (V : forall e, In e tosses -> nth_error (b_n (an_diff (an e))) 1 = Some (v e)) by (intros e He; unfold v; destruct (N e He) as (z & ->); reflexivity).
  exists p, an, v. split; [|split; [exact HB|split]].
  - intros e He. destruct (K e He) as (F & A & Ht & _). split; [exact F|]. split; [exact A|]. split; [now rewrite Ht|now apply V].
  - destruct (C120_msd_proof X tosses (fun _ => 1 / 8)%R (fun e => walk (stuttering e)) p an v Ase circ unit_cell ["Li"; "O"]%string 1%R 4%nat 2%nat 1%nat walk_params (demo_boot 1 "xyz")
      ltac:(discriminate) (fun e He => proj1 (K e He)) eq_refl eq_refl all_axes 1%nat (1 / 100)%R (with_repeats 1 once) names_xyz) as (m & Hm & I & D).
    + rewrite kept_one. exact HB.
    + intros e He. destruct (K e He) as (_ & A & Ht & _). exists g, g, 2%R. rewrite Ht. split; [exact A|]. split; [reflexivity|now apply V].
    + specialize (I (true, true, true) (or_introl eq_refl)). destruct (K (true, true, true) (or_introl eq_refl)) as (_ & _ & _ & I'). rewrite I' in I. cbn in I. injection I as I.
      assert (m = 2%nat) by lia. subst m. rewrite D, kept_one. unfold spanned, with_repeats, tab. cbn. lra.
  - unfold evenly. cbn. lra.
Qed.
