(** * ProofsPersist: steps with memory (C124) *)
From Verif Require Import Base Spec SpecParser SpecStats SpecFit SpecAnalyzer ModelParser ModelDiffusion ModelHdf ModelAnalyzer
  Lemmas ProofsDisp ProofsIntervals ProofsWindows ProofsParser ProofsTraj ProofsBoot ProofsStats ProofsStats2 ProofsFit ProofsShape ProofsAnalyzer
  SpecRun SpecSym ProofsSym SpecGrid ProofsGrid SpecPool ProofsCollective ProofsPool SpecTrue ProofsTrue SpecColl ProofsColl ProofsUnwrap ProofsChain SpecStable ProofsStable SpecNoise ProofsNoise SpecUneven ProofsUneven SpecGls SpecMarkov SpecLong SpecFitErr SpecPersist.
From Coq Require Import Reals Lra Lia Sorting.Sorted.
Open Scope R_scope.

(** ** The curve *)
Lemma memory_step C m : with_memory C (S m) = with_memory C m + memory_slope C (S m).
Proof.
  unfold with_memory, memory_slope. rewrite S_INR. rewrite !Nat.sub_succ, !Nat.sub_0_r.
  assert (E : rsum (map (fun j => INR (S m - j) * C j) (seq 1 m)) = rsum (map (fun j => INR (m - j) * C j) (seq 1 m)) + rsum (map C (seq 1 m))).
  { rewrite <- rsum_map_plus. f_equal. apply map_ext_in. intros j Hj. apply in_seq in Hj. replace (S m - j)%nat with (S (m - j)) by lia. rewrite S_INR. ring. }
  assert (F : rsum (map (fun j => INR (m - j) * C j) (seq 1 m)) = rsum (map (fun j => INR (m - j) * C j) (seq 1 (m - 1)))).
  { destruct m as [|m]; [reflexivity|]. rewrite seq_S, map_app, rsum_app. cbn [map rsum]. replace (S m - (1 + m))%nat with 0%nat by lia. replace (S m - 1)%nat with m by lia. cbn [INR]. ring. }
  rewrite E, F. ring.
Qed.
Lemma slope_past C J m : (1 <= J)%nat -> (forall j, (J <= j)%nat -> C j = 0) -> (J <= m)%nat -> memory_slope C m = memory_slope C J.
Proof.
  intros HJ HC Hm. unfold memory_slope. do 2 f_equal. replace (m - 1)%nat with ((J - 1) + (m - J))%nat by lia. rewrite seq_app, map_app, rsum_app.
  rewrite (map_ext_in C (fun _ => 0) (seq (1 + (J - 1)) (m - J))); [rewrite rsum_const; ring|]. intros j Hj. apply in_seq in Hj. apply HC. lia.
Qed.
Lemma memory_at C J : (1 <= J)%nat -> with_memory C (J - 1) = memory_slope C J * INR (J - 1) - memory_offset C J.
Proof.
  intros HJ. unfold with_memory, memory_slope, memory_offset.
  assert (F : rsum (map (fun j => INR (J - 1 - j) * C j) (seq 1 (J - 1 - 1))) = rsum (map (fun j => INR (J - 1 - j) * C j) (seq 1 (J - 1)))).
  { destruct J as [|[|m]]; [lia|reflexivity|]. replace (S (S m) - 1)%nat with (S m) by lia. rewrite (seq_S m 1), map_app, rsum_app. cbn [map rsum].
    replace (S m - (1 + m))%nat with 0%nat by lia. replace (S m - 1)%nat with m by lia. cbn [INR]. ring. }
  rewrite F. rewrite (map_ext_in (fun j => INR (J - 1 - j) * C j) (fun j => INR (J - 1) * C j + (- 1) * (INR j * C j))).
  2:{ intros j Hj. apply in_seq in Hj. rewrite minus_INR by lia. ring. }
  rewrite rsum_map_plus, (rsum_map_scal (INR (J - 1)) C), (rsum_map_scal (- 1) (fun j => INR j * C j)). ring.
Qed.
Lemma memory_line C J m : (1 <= J)%nat -> (forall j, (J <= j)%nat -> C j = 0) -> (J - 1 <= m)%nat -> with_memory C m = memory_slope C J * INR m - memory_offset C J.
Proof.
  intros HJ HC Hm. replace m with ((J - 1) + (m - (J - 1)))%nat by lia. generalize (m - (J - 1))%nat. clear Hm m. induction n as [|l IH]; [rewrite Nat.add_0_r; now apply memory_at|].
  rewrite <- plus_n_Sm, memory_step, IH. rewrite (slope_past C J (S (J - 1 + l)) HJ HC) by lia. rewrite S_INR. ring.
Qed.

(** ** Squares of sums *)
Definition grown (B P : nat -> nat -> R) : Prop :=
  (forall f, B f f = 0) /\ forall f l, B f (f + S l)%nat = B f (f + l)%nat + 2 * rsum (map (fun h => P (f + h)%nat (f + l)%nat) (seq 0 l)) + P (f + l)%nat (f + l)%nat.
Lemma scalar_plus axes a b c : scalar axes (plus3 a b) c = scalar axes a c + scalar axes b c.
Proof. unfold scalar. rewrite <- rsum_map_plus. f_equal. apply map_ext. intros []; cbn; ring. Qed.
Lemma scalar_zero axes c : scalar axes zero3 c = 0.
Proof. unfold scalar. rewrite (map_ext _ (fun _ => 0)) by (intros []; cbn; ring). rewrite rsum_const. ring. Qed.
Lemma sqlen_sum axes a b : sqlen axes (plus3 a b) = sqlen axes a + 2 * scalar axes a b + scalar axes b b.
Proof.
  unfold scalar. rewrite <- rsum_map_scal. unfold sqlen. rewrite <- !rsum_map_plus. f_equal. apply map_ext. intros []; cbn; ring.
Qed.
Definition joined (D : nat -> nat -> V3 R) : Prop := (forall f, D f f = zero3) /\ forall f l, D f (f + S l)%nat = plus3 (D f (f + l)%nat) (D (f + l)%nat (S (f + l))).
Lemma joined_grown axes D : joined D -> grown (fun f g => sqlen axes (D f g)) (fun f g => scalar axes (D f (S f)) (D g (S g))).
Proof.
  intros [D0 D1]. split.
  - intros f. rewrite D0. unfold sqlen. rewrite (map_ext _ (fun _ => 0)) by (intros []; cbn; ring). rewrite rsum_const. ring.
  - intros f l. rewrite D1, sqlen_sum. do 3 f_equal. generalize (D (f + l)%nat (S (f + l))). intros c.
    induction l as [|l IH]; [rewrite Nat.add_0_r, D0; apply scalar_zero|]. rewrite D1, scalar_plus, IH, seq_S, map_app, rsum_app. cbn [map rsum]. cbn [Nat.add]. ring.
Qed.
Lemma grown_average {T} (B P : T -> nat -> nat -> R) (l : list T) : (forall t, grown (B t) (P t)) ->
  grown (fun f g => average (map (fun t => B t f g) l)) (fun f g => average (map (fun t => P t f g) l)).
Proof.
  intros H. split.
  - intros f. rewrite (map_ext _ (fun _ => 0)) by (intros t; apply H). unfold average. rewrite rsum_const. unfold Rdiv. ring.
  - intros f m. cbv beta.
    assert (Q : rsum (map (fun h => average (map (fun t => P t (f + h)%nat (f + m)%nat) l)) (seq 0 m)) = / INR (length l) * rsum (map (fun t => rsum (map (fun h => P t (f + h)%nat (f + m)%nat) (seq 0 m))) l)).
    { rewrite (rsum_swap (fun t h => P t (f + h)%nat (f + m)%nat) l (seq 0 m)), <- rsum_map_scal. f_equal. apply map_ext. intros h. unfold average. rewrite map_length. unfold Rdiv. ring. }
    rewrite Q. unfold average. rewrite !map_length. rewrite (map_ext _ _ (fun t => proj2 (H t) f m)). rewrite !rsum_map_plus.
    rewrite (rsum_map_scal 2 (fun t => rsum (map (fun h => P t (f + h)%nat (f + m)%nat) (seq 0 m)))). unfold Rdiv. ring.
Qed.
Lemma relative_joined natoms k pos fw a : joined (fun f g => relative_displacement natoms pos fw a (f * k) (g * k)).
Proof.
  split; [intros f; apply relative_same|]. intros f l. rewrite <- plus_n_Sm. generalize (f * k)%nat, ((f + l) * k)%nat, (S (f + l) * k)%nat. intros x y z.
  unfold relative_displacement. destruct fw as [|i fw]; [v3eq; cbn; ring|].
  set (q := i :: fw). rewrite (average3_minus (fun i => pos z (site natoms i)) (fun i => pos x (site natoms i)) q).
  rewrite (average3_minus (fun i => pos y (site natoms i)) (fun i => pos x (site natoms i)) q).
  rewrite (average3_minus (fun i => pos z (site natoms i)) (fun i => pos y (site natoms i)) q).
  unfold plus3, minus3. cbn [vx vy vz]. f_equal; ring.
Qed.
Lemma sum3_joined {T} (D : T -> nat -> nat -> V3 R) (l : list T) : (forall t, joined (D t)) -> joined (fun f g => sum3 (map (fun t => D t f g) l)).
Proof.
  intros H. split.
  - intros f. rewrite (map_ext _ (fun _ => zero3)) by (intros t; apply H). induction l as [|t l IH]; [reflexivity|]. cbn [map]. rewrite sum3_cons, IH. unfold plus3, zero3. cbn. f_equal; ring.
  - intros f m. rewrite (map_ext _ _ (fun t => proj2 (H t) f m)). induction l as [|t l IH]; [unfold plus3, sum3; cbn; f_equal; ring|].
    cbn [map]. rewrite !sum3_cons, IH. unfold plus3. cbn [vx vy vz]. f_equal; ring.
Qed.
Lemma scale_joined c D : joined D -> joined (fun f g => scale3 c (D f g)).
Proof. intros [D0 D1]. split; [intros f; rewrite D0; unfold scale3, zero3; cbn; f_equal; ring|]. intros f l. rewrite D1. unfold scale3, plus3. cbn. f_equal; ring. Qed.
Lemma square_grown axes natoms k pos idx fw : grown (square_between axes natoms k pos idx fw) (step_square axes natoms k pos idx fw).
Proof.
  apply (grown_average (fun i f g => sqlen axes (relative_displacement natoms pos fw (site natoms i) (f * k) (g * k)))
    (fun i f g => scalar axes (relative_displacement natoms pos fw (site natoms i) (f * k) (S f * k)) (relative_displacement natoms pos fw (site natoms i) (g * k) (S g * k)))).
  intros i. exact (joined_grown axes _ (relative_joined natoms k pos fw (site natoms i))).
Qed.
Lemma total_grown axes natoms k pos idx fw : grown (total_between axes natoms k pos idx fw) (step_total axes natoms k pos idx fw).
Proof. apply (joined_grown axes (fun f g => sum3 (moves natoms k pos idx fw f g))). unfold moves. apply sum3_joined. intros i. apply relative_joined. Qed.
Lemma combine_over {T U V} (f : U -> V) (a : list T) : forall b, combine a (map f b) = map (fun p => (fst p, f (snd p))) (combine a b).
Proof. induction a as [|x a IH]; intros [|y b]; cbn; [reflexivity..|]. now rewrite IH. Qed.
Lemma charge_grown q natoms k pos idx fw : grown (charge_between q natoms k pos idx fw) (step_charge q natoms k pos idx fw).
Proof.
  assert (J : joined (fun f g => sum3 (map (fun p => scale3 (fst p) (snd p)) (combine q (moves natoms k pos idx fw f g))))).
  { pose proof (sum3_joined (fun (p : R * Z) f g => scale3 (fst p) (relative_displacement natoms pos fw (site natoms (snd p)) (f * k) (g * k))) (combine q idx)) as S.
    destruct S as [S0 S1]; [intros p; apply scale_joined, relative_joined|].
    assert (E : forall f g, map (fun p => scale3 (fst p) (snd p)) (combine q (moves natoms k pos idx fw f g))
      = map (fun p => scale3 (fst p) (relative_displacement natoms pos fw (site natoms (snd p)) (f * k) (g * k))) (combine q idx)).
    { intros f g. unfold moves. now rewrite combine_over, map_map. }
    split; [intros f; rewrite E; apply S0|]. intros f l. rewrite !E. apply S1. }
  exact (joined_grown all_axes _ J).
Qed.

(** ** The average of the squares *)
Lemma expected_grown {E} (es : list E) w T (B P : E -> nat -> nat -> R) (C : nat -> R) :
  (forall e, In e es -> grown (B e) (P e)) -> (forall f j, (S (f + j) < T)%nat -> expected es w (fun e => P e f (f + j)%nat) = C j) ->
  forall f g, (f <= g)%nat -> (g < T)%nat -> expected es w (fun e => B e f g) = with_memory C (g - f).
Proof.
  intros HG HC f g Hfg. replace g with (f + (g - f))%nat by lia. generalize (g - f)%nat. clear Hfg g. intros l. replace (f + l - f)%nat with l by lia.
  induction l as [|l IH]; intros Hl.
  - rewrite Nat.add_0_r. rewrite (ex_ext _ _ _ (fun _ => 0 * 0)) by (intros e He; rewrite (proj1 (HG e He)); ring). rewrite ex_scale. unfold with_memory. cbn. ring.
  - rewrite (ex_ext _ _ _ (fun e => B e f (f + l)%nat + (2 * rsum (map (fun h => P e (f + h)%nat (f + l)%nat) (seq 0 l)) + P e (f + l)%nat (f + l)%nat))).
    2:{ intros e He. rewrite (proj2 (HG e He)). ring. }
    rewrite !ex_plus, ex_scale, ex_sum, IH by lia. pose proof (HC (f + l)%nat 0%nat ltac:(lia)) as C0. rewrite Nat.add_0_r in C0. rewrite C0, memory_step. unfold memory_slope.
    rewrite Nat.sub_succ, Nat.sub_0_r. replace (rsum (map C (seq 1 l))) with (rsum (map (fun h => expected es w (fun e => P e (f + h)%nat (f + l)%nat)) (seq 0 l))); [ring|].
    rewrite (map_ext_in _ (fun h => C (l - h)%nat)).
    2:{ intros h Hh. apply in_seq in Hh. pose proof (HC (f + h)%nat (l - h)%nat ltac:(lia)) as Q. replace (f + h + (l - h))%nat with (f + l)%nat in Q by lia. exact Q. }
    clear. assert (R : forall r s, (r <= s)%nat -> rsum (map (fun h => C (s - h)%nat) (seq 0 r)) = rsum (map C (seq (S s - r) r))).
    { induction r as [|r IH]; intros s Hs; [reflexivity|]. rewrite seq_S, map_app, rsum_app, IH by lia. cbn [map rsum Nat.add seq]. replace (S s - S r)%nat with (s - r)%nat by lia. replace (S (s - r)) with (S s - r)%nat by lia. cbn [rsum fold_right map]. ring. }
    rewrite R by lia. replace (S l - l)%nat with 1%nat by lia. reflexivity.
Qed.
Lemma reported_memory T m C : (0 < m <= T)%nat -> reported T m (fun f g => with_memory C (g - f)) = (INR (T - m) * with_memory C m + with_memory C (m - 1)) / INR (T - m + 1).
Proof.
  intros Hm. unfold reported. rewrite over_time_total. rewrite (map_ext_in _ (fun _ => with_memory C m)) by (intros j _; f_equal; lia). rewrite rsum_const, seq_length. rewrite Nat.sub_0_r. reflexivity.
Qed.
Lemma C124_straight_proof C J T m : (1 <= J)%nat -> (forall j, (J <= j)%nat -> C j = 0) -> (J <= m <= T)%nat ->
  (INR (T - m) * with_memory C m + with_memory C (m - 1)) / INR (T - m + 1) = memory_slope C J * evenly T m - memory_offset C J.
Proof.
  intros HJ HC Hm. rewrite !(memory_line C J) by (try assumption; lia). unfold evenly. rewrite (minus_INR m 1) by lia. rewrite plus_INR. cbn [INR]. field.
  pose proof (pos_INR (T - m)). lra.
Qed.
Lemma C124_increment_proof C m : with_memory C 0 = 0 /\ with_memory C 1 = C 0%nat /\ with_memory C (S m) - with_memory C m = memory_slope C (S m).
Proof. split; [unfold with_memory; cbn; ring|]. split; [unfold with_memory; cbn; ring|]. rewrite memory_step. ring. Qed.
Lemma C124_white_proof C m : (forall j, (1 <= j)%nat -> C j = 0) -> with_memory C m = INR m * C 0%nat.
Proof. intros H. rewrite (memory_line C 1) by (try assumption; lia). unfold memory_slope, memory_offset. cbn. ring. Qed.

(** ** The analysers *)
Open Scope Z_scope.
Section Analysers.
  Context {G Seed RS : Type} (X : Ext R G Seed RS) {E : Type} (es : list E) (w : E -> R) (x : E -> nat -> nat -> V3 R) (p : E -> Parsed R) (an : E -> Analyzer R) (v : E -> R).
  Context (i : interface) (circ : option (list R) -> list R -> Res R) (cell : M3 R) (types : list string) (vol : R) (n natoms k : nat) (a : ModelParser.Params R) (u : BootParams R).
  Hypotheses (NE : es <> []) (F : forall e, In e es -> faithful_read i circ cell types vol n natoms k (x e) a (p e)) (Hk : 0 < u_sub_sample_dt u) (Hb : u_block u = false).
  Notation T := (kept n k).
  Notation pos e := (fun f b => cart cell (x e f b)).
  Lemma memory_entry j (B P : E -> nat -> nat -> R) (C : nat -> R) :
    (forall e, In e es -> exists m t, nth_error (p_intervals (p e)) (j * Z.to_nat (u_sub_sample_dt u)) = Some (Z.of_nat m)
       /\ nth_error (p_delta_t (p e)) (j * Z.to_nat (u_sub_sample_dt u)) = Some t /\ (0 < m <= T)%nat /\ v e = reported T m (B e)) ->
    (forall e, In e es -> grown (B e) (P e)) -> (forall f l, (S (f + l) < T)%nat -> expected es w (fun e => P e f (f + l)%nat) = C l) ->
    exists m, (0 < m <= T)%nat /\ (forall e, In e es -> nth_error (p_intervals (p e)) (j * Z.to_nat (u_sub_sample_dt u)) = Some (Z.of_nat m))
      /\ expected es w v = ((INR (T - m) * with_memory C m + with_memory C (m - 1)) / INR (T - m + 1))%R.
  Proof.
    intros R HG HC. assert (K : exists m, (0 < m <= T)%nat /\ (forall e, In e es -> nth_error (p_intervals (p e)) (j * Z.to_nat (u_sub_sample_dt u)) = Some (Z.of_nat m))).
    { destruct es as [|e0 l]; [congruence|]. destruct (R e0 (or_introl eq_refl)) as (m & t & E1 & _ & Hm & _). exists m. split; [exact Hm|]. intros e He. rewrite <- E1. f_equal.
      exact (proj1 (same_reading _ _ _ _ _ _ _ _ _ _ _ _ _ _ _ (F e He) (F e0 (or_introl eq_refl)))). }
    destruct K as (m & Hm & K). exists m. split; [exact Hm|]. split; [exact K|].
    rewrite (ex_ext _ _ _ (fun e => reported T m (B e))).
    2:{ intros e He. destruct (R e He) as (m' & t & E1 & _ & _ & ->). rewrite (K e He) in E1. injection E1 as E1. apply Nat2Z.inj in E1. now subst m'. }
    rewrite expected_reported, <- reported_memory by exact Hm. apply ProofsUneven.reported_ext; [exact Hm|]. exact (expected_grown es w T B P C HG HC).
  Qed.
  Lemma C124_msd_proof axes j C : names (pystr_text (u_dimension u)) axes ->
    (forall f l, (S (f + l) < T)%nat -> expected es w (fun e => step_square axes natoms k (pos e) (p_indices (p e)) (p_drift_indices (p e)) f (f + l)) = C l) ->
    (forall e, In e es -> exists g g' t, diffusion_analyzer X (of_parsed (p e)) u g = Ok (an e, g') /\ nth_error (b_dt (an_diff (an e))) j = Some t
       /\ nth_error (b_n (an_diff (an e))) j = Some (v e)) ->
    exists m, (0 < m <= T)%nat /\ (forall e, In e es -> nth_error (p_intervals (p e)) (j * Z.to_nat (u_sub_sample_dt u)) = Some (Z.of_nat m))
      /\ expected es w v = ((INR (T - m) * with_memory C m + with_memory C (m - 1)) / INR (T - m + 1))%R.
  Proof.
    intros Hn HB R. eapply memory_entry; [|intros e He; apply square_grown|exact HB]. intros e He. destruct (R e He) as (g & g' & t & R1 & R2 & R3).
    destruct (C81_reported_proof X _ _ _ _ _ _ _ _ _ _ _ _ _ _ _ _ (F e He) Hk Hb Hn R1 j t R2) as (m & E1 & E2 & Hm & E3). exists m, t. split; [exact E1|]. split; [exact E2|]. split; [exact Hm|].
    cbv zeta in E3. rewrite R3 in E3. injection E3 as E3. exact E3.
  Qed.
  Lemma C124_mstd_proof axes j C : names (pystr_text (u_dimension u)) axes ->
    (forall f l, (S (f + l) < T)%nat -> expected es w (fun e => step_total axes natoms k (pos e) (p_indices (p e)) (p_drift_indices (p e)) f (f + l)) = C l) ->
    (forall e, In e es -> exists g g' t, jump_diffusion_analyzer X (of_parsed (p e)) u g = Ok (an e, g') /\ nth_error (b_dt (an_diff (an e))) j = Some t
       /\ nth_error (b_n (an_diff (an e))) j = Some (v e)) ->
    exists m, (0 < m <= T)%nat /\ (forall e, In e es -> nth_error (p_intervals (p e)) (j * Z.to_nat (u_sub_sample_dt u)) = Some (Z.of_nat m))
      /\ expected es w v = ((INR (T - m) * with_memory C m + with_memory C (m - 1)) / INR (T - m + 1))%R.
  Proof.
    intros Hn HB R. eapply memory_entry; [|intros e He; apply total_grown|exact HB]. intros e He. destruct (R e He) as (g & g' & t & R1 & R2 & R3).
    destruct (C85_mstd_proof X _ _ _ _ _ _ _ _ _ _ _ _ _ _ _ _ (F e He) Hk Hb Hn R1 j t R2) as (m & E1 & E2 & Hm & E3). exists m, t. split; [exact E1|]. split; [exact E2|]. split; [exact Hm|].
    cbv zeta in E3. rewrite R3 in E3. injection E3 as E3. exact E3.
  Qed.
  Lemma C124_mscd_proof q j C : (forall e l, In e es -> q = QArray l -> length l = length (p_indices (p e))) ->
    (forall f l, (S (f + l) < T)%nat -> expected es w (fun e => step_charge (charges q (length (p_indices (p e)))) natoms k (pos e) (p_indices (p e)) (p_drift_indices (p e)) f (f + l)) = C l) ->
    (forall e, In e es -> exists g g' t, conductivity_analyzer X (of_parsed (p e)) q u g = Ok (an e, g') /\ nth_error (b_dt (an_diff (an e))) j = Some t
       /\ nth_error (b_n (an_diff (an e))) j = Some (v e)) ->
    exists m, (0 < m <= T)%nat /\ (forall e, In e es -> nth_error (p_intervals (p e)) (j * Z.to_nat (u_sub_sample_dt u)) = Some (Z.of_nat m))
      /\ expected es w v = ((INR (T - m) * with_memory C m + with_memory C (m - 1)) / INR (T - m + 1))%R.
  Proof.
    intros Hq HB R. eapply memory_entry; [|intros e He; apply charge_grown|exact HB]. intros e He. destruct (R e He) as (g & g' & t & R1 & R2 & R3).
    destruct (C85_mscd_proof X _ _ _ _ _ _ _ _ _ _ _ _ _ _ _ _ (F e He) Hk Hb (fun l => Hq e l He) R1 j t R2) as (m & E1 & E2 & Hm & E3). exists m, t. split; [exact E1|]. split; [exact E2|]. split; [exact Hm|].
    cbv zeta in E3. rewrite R3 in E3. injection E3 as E3. exact E3.
  Qed.
End Analysers.

(** ** Fits *)
Open Scope R_scope.
Lemma C124_fit_proof C J ms dt delta : delta <> 0 -> (1 <= J)%nat -> (forall j, (J <= j)%nat -> C j = 0) -> length ms = length dt ->
  (forall i, (i < length dt)%nat -> (J - 1 <= nth i ms 0)%nat /\ vec_entry dt i = delta * INR (nth i ms 0%nat)) ->
  straight (with_memory C) ms dt (memory_slope C J / delta) (- memory_offset C J).
Proof. intros Hd HJ HC HL H. split; [exact HL|]. intros i Hi. destruct (H i Hi) as [H1 H2]. rewrite (memory_line C J) by assumption. rewrite H2. field. exact Hd. Qed.
Lemma C124_windows_proof {E} (es : list E) (w : E -> R) axes natoms k T (pos : E -> nat -> nat -> V3 R) (idx fw : E -> list Z) C :
  (forall f l, (S (f + l) < T)%nat -> mean_over es w (fun e => step_square axes natoms k (pos e) (idx e) (fw e) f (f + l)) = C l) ->
  forall f l, (f + l < T)%nat -> mean_over es w (fun e => square_between axes natoms k (pos e) (idx e) (fw e) f (f + l)) = with_memory C l.
Proof.
  intros H f l Hl. pose proof (expected_grown es w T (fun e => square_between axes natoms k (pos e) (idx e) (fw e)) (fun e => step_square axes natoms k (pos e) (idx e) (fw e)) C
    (fun e _ => square_grown axes natoms k (pos e) (idx e) (fw e)) H f (f + l)%nat ltac:(lia) Hl) as Q. replace (f + l - f)%nat with l in Q by lia. exact Q.
Qed.
Open Scope Z_scope.

(** ** Steps that are the mean of two tosses of a coin, one of them shared with the next step *)
Definition dragged (e : bool * (bool * bool * bool)) (f : nat) : R :=
  let '(a, (b, c, d)) := e in match f with O => 0 | S O => (toss a + toss b) / 2 | S (S O) => (toss a + toss b) / 2 + (toss b + toss c) / 2
    | _ => (toss a + toss b) / 2 + (toss b + toss c) / 2 + (toss c + toss d) / 2 end%R.
Lemma dragged_gentle e : gentle (dragged e).
Proof. destruct e as [a [[b c] d]]. intros [|[|[|f]]]; unfold dragged; destruct a, b, c, d; cbn [toss]; lra. Qed.
Definition shared (j : nat) : R := match j with O => 1 / 200 | S O => 1 / 400 | _ => 0 end%R.
Lemma shared_past j : (2 <= j)%nat -> shared j = 0%R.
Proof. destruct j as [|[|j]]; [lia|lia|reflexivity]. Qed.
Lemma walk_step_square s f g : step_square all_axes 2 1 (fun f b => cart unit_cell (walk s f b)) [0] [1] f g = ((s (S f) - s f) * (s (S g) - s g))%R.
Proof.
  unfold step_square. cbn [map]. unfold average. cbn [length]. change (site 2 0) with 0%nat. rewrite !Nat.mul_1_r.
  unfold relative_displacement, average3. cbn [map]. change (site 2 1) with 1%nat. unfold average.
  cbn [walk zero3 cart unit_cell minus3 vx vy vz length map rsum fold_right all_axes coord]. unfold scalar, all_axes. cbn. field.
Qed.
Lemma dragged_runs G Seed RS (X : Ext R G Seed RS) circ (g : G) : exists p an, forall e, In e four -> walked X circ g (dragged e) (p e) (an e).
Proof.
  assert (L : forall es, exists p an, forall e, In e es -> walked X circ g (dragged e) (p e) (an e)); [|apply L].
  induction es as [|e0 es (p & an & IH)].
  - destruct (walk_run G Seed RS X circ g steady steady_gentle) as (p & an & _). exists (fun _ => p), (fun _ => an). intros e [].
  - destruct (walk_run G Seed RS X circ g _ (dragged_gentle e0)) as (p0 & an0 & W).
    assert (D : forall e : bool * (bool * bool * bool), {e = e0} + {e <> e0}) by (intros; repeat decide equality).
    exists (fun e => if D e then p0 else p e), (fun e => if D e then an0 else an e). intros e [<-|He].
    + destruct (D e0); [exact W|congruence].
    + destruct (D e) as [->|_]; [exact W|now apply IH].
Qed.
Lemma dragged_steps (p : bool * (bool * bool * bool) -> Parsed R) : (forall e, In e four -> p_indices (p e) = [0] /\ p_drift_indices (p e) = [1]) ->
  forall f l, (S (f + l) < 4)%nat -> expected four (fun _ => 1 / 16)%R (fun e =>
    step_square all_axes 2 1 (fun f b => cart unit_cell (walk (dragged e) f b)) (p_indices (p e)) (p_drift_indices (p e)) f (f + l)) = shared l.
Proof.
  intros K f l Hl. rewrite (ex_ext _ _ _ (fun e => (dragged e (S f) - dragged e f) * (dragged e (S (f + l)) - dragged e (f + l)%nat))%R).
  2:{ intros e He. destruct (K e He) as [-> ->]. apply walk_step_square. }
  unfold expected. destruct f as [|[|[|f]]], l as [|[|[|l]]]; try (exfalso; lia); cbn [Nat.add]; unfold four, tosses; cbn [map app dragged toss rsum shared]; lra.
Qed.
Lemma C124_example_proof : forall G Seed RS (X : Ext R G Seed RS) circ (g : G), exists p an,
  (forall e, In e four -> faithful_read Ase circ unit_cell ["Li"; "O"]%string 1%R 4 2 1 (walk (dragged e)) walk_params (p e)
     /\ diffusion_analyzer X (of_parsed (p e)) (demo_boot 1 "xyz") g = Ok (an e, g) /\ b_dt (an_diff (an e)) = [1; 2]%R /\ p_intervals (p e) = [1; 2])
  /\ (forall f l, (S (f + l) < 4)%nat -> expected four (fun _ => 1 / 16)%R (fun e =>
        step_square all_axes 2 1 (fun f b => cart unit_cell (walk (dragged e) f b)) (p_indices (p e)) (p_drift_indices (p e)) f (f + l)) = shared l)
  /\ (forall j, (2 <= j)%nat -> shared j = 0%R) /\ memory_slope shared 2 = (1 / 100)%R /\ memory_offset shared 2 = (1 / 200)%R.
Proof.
  intros G Seed RS X circ g. destruct (dragged_runs G Seed RS X circ g) as (p & an & K). exists p, an. split.
  { intros e He. destruct (K e He) as (F & E1 & E2 & E3 & H & Ht). exact (conj F (conj H (conj Ht E1))). }
  split; [apply dragged_steps; intros e He; destruct (K e He) as (F & E1 & E2 & E3 & _); now split|]. split; [exact shared_past|].
  unfold memory_slope, memory_offset. cbn. split; lra.
Qed.
Lemma C124_refuted_proof : forall G Seed RS (X : Ext R G Seed RS) circ (g : G), exists p an v,
  (forall e, In e four -> faithful_read Ase circ unit_cell ["Li"; "O"]%string 1%R 4 2 1 (walk (dragged e)) walk_params (p e)
     /\ diffusion_analyzer X (of_parsed (p e)) (demo_boot 1 "xyz") g = Ok (an e, g) /\ nth_error (b_dt (an_diff (an e))) 1 = Some 2%R /\ nth_error (b_n (an_diff (an e))) 1 = Some (v e))
  /\ (forall f l, (S (f + l) < 4)%nat -> expected four (fun _ => 1 / 16)%R (fun e =>
        step_square all_axes 2 1 (fun f b => cart unit_cell (walk (dragged e) f b)) (p_indices (p e)) (p_drift_indices (p e)) f (f + l)) = shared l)
  /\ expected four (fun _ => 1 / 16)%R v = (7 / 600)%R /\ (memory_slope shared 2 * evenly 4 2 = 1 / 60)%R.
Proof.
  intros G Seed RS X circ g. destruct (dragged_runs G Seed RS X circ g) as (p & an & K).
  exists p, an, (fun e => (let d f l := (dragged e (f + l)%nat - dragged e f) * (dragged e (f + l)%nat - dragged e f) in (d 0%nat 1%nat + d 0%nat 2%nat + d 1%nat 2%nat) / 3)%R). split.
  { intros e He. destruct (walked_values X circ g _ _ _ (K e He)) as [_ V]. destruct (K e He) as (F & E1 & E2 & E3 & H & Ht). split; [exact F|]. split; [exact H|]. split; [now rewrite Ht|exact V]. }
  split; [apply dragged_steps; intros e He; destruct (K e He) as (F & E1 & E2 & E3 & _); now split|]. split.
  - unfold expected, four, tosses. cbn [map app dragged toss rsum Nat.add]. lra.
  - unfold memory_slope, evenly. cbn. lra.
Qed.
