(** * ProofsStable: small changes of the positions (C93) *)
From Verif Require Import Base Spec SpecParser SpecStats SpecFit SpecAnalyzer ModelParser ModelDiffusion ModelHdf ModelAnalyzer
  Lemmas ProofsDisp ProofsIntervals ProofsWindows ProofsParser ProofsTraj ProofsBoot ProofsStats ProofsStats2 ProofsShape ProofsAnalyzer
  SpecRun SpecSym ProofsSym SpecGrid ProofsGrid SpecPool ProofsCollective ProofsPool SpecTrue ProofsTrue SpecColl ProofsColl ProofsUnwrap ProofsChain SpecStable.
From Coq Require Import Reals Lra Lia Sorting.Sorted.
Open Scope Z_scope.

(** ** Lengths *)
Lemma ends_pos fw : (0 < ends fw)%R.
Proof. destruct fw; cbn; lra. Qed.
Section Length.
  Context (axes : list axis).
  Notation norm := (len axes).
  Lemma sqlen_nonneg' v : (0 <= sqlen axes v)%R.
  Proof. unfold sqlen. apply rsum_map_nonneg. intros a. apply Rle_0_sqr. Qed.
  Lemma len_nonneg v : (0 <= norm v)%R.
  Proof. apply sqrt_pos. Qed.
  Lemma len_ssq v : norm v = sqrt (ssq (coord v) axes).
  Proof. reflexivity. Qed.
  Lemma coord_minus u v a : coord (minus3 u v) a = (coord u a - coord v a)%R.
  Proof. destruct a; reflexivity. Qed.
  Lemma coord_plus u v a : coord (plus3 u v) a = (coord u a + coord v a)%R.
  Proof. destruct a; reflexivity. Qed.
  Lemma len_abs u v : (Rabs (norm u - norm v) <= norm (minus3 u v))%R.
  Proof.
    rewrite !len_ssq. eapply Rle_trans; [apply minkowski_abs|]. apply sqrt_le_1_alt. right. unfold ssq. f_equal. apply map_ext. intros a. now rewrite coord_minus.
  Qed.
  Lemma len_opposite v : norm (minus3 zero3 v) = norm v.
  Proof. unfold len. f_equal. unfold sqlen. f_equal. apply map_ext. intros a. rewrite coord_minus. destruct a; cbn; ring. Qed.
  Lemma len_zero : norm zero3 = 0%R.
  Proof. unfold len. rewrite <- sqrt_0. f_equal. unfold sqlen. rewrite (map_ext _ (fun _ => 0%R)) by (intros []; cbn; ring). rewrite rsum_const. ring. Qed.
  Lemma len_plus u v : (norm (plus3 u v) <= norm u + norm v)%R.
  Proof.
    pose proof (len_abs (plus3 u v) v) as H. replace (minus3 (plus3 u v) v) with u in H by v3eq. apply abs_le in H. lra.
  Qed.
  Lemma len_minus u v : (norm (minus3 u v) <= norm u + norm v)%R.
  Proof. replace (minus3 u v) with (plus3 u (minus3 zero3 v)) by v3eq. eapply Rle_trans; [apply len_plus|]. rewrite len_opposite. lra. Qed.
  Lemma len_scale c v : norm (scale3 c v) = (Rabs c * norm v)%R.
  Proof.
    unfold len. rewrite <- sqrt_Rsqr_abs, <- sqrt_mult by (try apply Rle_0_sqr; apply sqlen_nonneg'). f_equal. unfold sqlen. rewrite <- rsum_map_scal. f_equal. apply map_ext.
    intros []; unfold Rsqr; cbn; ring.
  Qed.
  Lemma len_sum3 {T} (h : T -> V3 R) e l : (forall t, In t l -> (norm (h t) <= e)%R) -> (norm (sum3 (map h l)) <= INR (length l) * e)%R.
  Proof.
    induction l as [|t l IH]; intros H.
    - change (sum3 (map h [])) with zero3. rewrite len_zero. cbn. lra.
    - replace (sum3 (map h (t :: l))) with (plus3 (h t) (sum3 (map h l))) by reflexivity. cbn [length]. rewrite S_INR.
      eapply Rle_trans; [apply len_plus|]. pose proof (H t (or_introl eq_refl)). specialize (IH (fun s Hs => H s (or_intror Hs))). lra.
  Qed.
  Lemma average3_sum l : average3 l = scale3 (/ INR (length l)) (sum3 l).
  Proof. unfold average3, average, scale3, sum3. cbn [vx vy vz]. rewrite !map_length. unfold Rdiv. f_equal; ring. Qed.
  Lemma len_average {T} (h : T -> V3 R) e l : l <> [] -> (forall t, In t l -> (norm (h t) <= e)%R) -> (norm (average3 (map h l)) <= e)%R.
  Proof.
    intros NE H. rewrite average3_sum, map_length, len_scale. assert (P : (0 < INR (length l))%R) by (apply lt_0_INR; destruct l; [congruence|cbn; lia]).
    rewrite Rabs_pos_eq by (apply Rlt_le, Rinv_0_lt_compat; exact P).
    apply Rle_trans with (/ INR (length l) * (INR (length l) * e))%R; [apply Rmult_le_compat_l; [apply Rlt_le, Rinv_0_lt_compat; exact P|now apply len_sum3]|].
    right. field. lra.
  Qed.

  (** ** Relative displacements *)
  Context (n natoms k : nat) (eps : R) (pos pos' : nat -> nat -> V3 R).
  Hypotheses (H0 : (0 <= eps)%R) (HN : near axes n natoms k eps pos pos').
  Lemma relative_close fw b f g : Forall (valid_site natoms) fw -> (b < natoms)%nat -> (f * k < n)%nat -> (g * k < n)%nat ->
    (norm (minus3 (relative_displacement natoms pos fw b (f * k) (g * k)) (relative_displacement natoms pos' fw b (f * k) (g * k))) <= ends fw * eps)%R.
  Proof.
    intros HF Hb Hf Hg. set (d := fun c => minus3 (minus3 (pos (g * k)%nat c) (pos (f * k)%nat c)) (minus3 (pos' (g * k)%nat c) (pos' (f * k)%nat c))).
    assert (D : forall c, (c < natoms)%nat -> (norm (d c) <= 2 * eps)%R).
    { intros c Hc. replace (d c) with (minus3 (minus3 (pos (g * k)%nat c) (pos' (g * k)%nat c)) (minus3 (pos (f * k)%nat c) (pos' (f * k)%nat c))) by (unfold d; v3eq).
      eapply Rle_trans; [apply len_minus|]. pose proof (HN f c Hf Hc). pose proof (HN g c Hg Hc). lra. }
    destruct fw as [|i0 fw]; cbn [relative_displacement ends]; [apply D; exact Hb|]. set (l := i0 :: fw) in *.
    match goal with |- (norm ?w <= _)%R => replace w with (minus3 (d b) (average3 (map (fun i => d (site natoms i)) l))) end.
    2:{ unfold d. rewrite (average3_minus (fun i => minus3 (pos (g * k)%nat (site natoms i)) (pos (f * k)%nat (site natoms i)))
                             (fun i => minus3 (pos' (g * k)%nat (site natoms i)) (pos' (f * k)%nat (site natoms i))) l). v3eq. }
    eapply Rle_trans; [apply len_minus|]. pose proof (D b Hb) as D1.
    assert (D2 : (norm (average3 (map (fun i => d (site natoms i)) l)) <= 2 * eps)%R).
    { apply (len_average (fun i => d (site natoms i))); [discriminate|]. intros i Hi. apply D. apply ProofsDisp.site_lt. rewrite Forall_forall in HF. now apply HF. }
    lra.
  Qed.

  (** ** One window *)
  Lemma rms_list {T} (u v : T -> V3 R) e l : l <> [] -> (0 <= e)%R -> (forall t, In t l -> (norm (minus3 (u t) (v t)) <= e)%R) ->
    (Rabs (sqrt (average (map (fun t => sqlen axes (u t)) l)) - sqrt (average (map (fun t => sqlen axes (v t)) l))) <= e)%R.
  Proof.
    intros NE E0 H. assert (P : (0 < INR (length l))%R) by (apply lt_0_INR; destruct l; [congruence|cbn; lia]). set (N := INR (length l)) in *.
    assert (IN : (0 < / N)%R) by (apply Rinv_0_lt_compat; exact P).
    assert (EA : forall h : T -> V3 R, sqrt (average (map (fun t => sqlen axes (h t)) l)) = (sqrt (ssq (fun t => norm (h t)) l) * sqrt (/ N))%R).
    { intros h. rewrite <- sqrt_mult by (try apply ssq_nonneg; lra). f_equal. unfold average, Rdiv. rewrite map_length. fold N. f_equal. unfold ssq. f_equal. apply map_ext.
      intros t. unfold len. now rewrite sqrt_sqrt by apply sqlen_nonneg'. }
    rewrite !EA, <- Rmult_minus_distr_r, Rabs_mult, (Rabs_pos_eq (sqrt (/ N))) by apply sqrt_pos.
    eapply Rle_trans; [apply Rmult_le_compat_r; [apply sqrt_pos|apply minkowski_abs]|].
    rewrite <- sqrt_mult by (try apply ssq_nonneg; lra). rewrite <- (sqrt_square e) by exact E0. apply sqrt_le_1_alt.
    apply (Rmult_le_reg_r N); [exact P|]. rewrite Rmult_assoc, Rinv_l, Rmult_1_r by lra. unfold N. clear - H E0.
    induction l as [|t l IH]; [cbn; lra|]. unfold ssq in *. cbn [map rsum length]. rewrite S_INR. specialize (IH (fun s Hs => H s (or_intror Hs))).
    pose proof (H t (or_introl eq_refl)) as Ht. pose proof (len_abs (u t) (v t)) as A. assert (B : (Rabs (norm (u t) - norm (v t)) <= e)%R) by lra. apply abs_le in B.
    assert ((norm (u t) - norm (v t)) * (norm (u t) - norm (v t)) <= e * e)%R by nra. lra.
  Qed.
  Context (idx fw : list Z).
  Hypotheses (HI : Forall (valid_site natoms) idx) (HF : Forall (valid_site natoms) fw).
  Lemma square_close f g : (f * k < n)%nat -> (g * k < n)%nat ->
    (Rabs (sqrt (square_between axes natoms k pos idx fw f g) - sqrt (square_between axes natoms k pos' idx fw f g)) <= ends fw * eps)%R.
  Proof.
    intros Hf Hg. destruct idx as [|i0 l0] eqn:El.
    - unfold square_between, average. cbn [map rsum length]. rewrite Rminus_diag_eq by reflexivity. rewrite Rabs_R0. apply Rmult_le_pos; [pose proof (ends_pos fw); lra|exact H0].
    - rewrite <- El in *. unfold square_between.
      apply (rms_list (fun i => relative_displacement natoms pos fw (site natoms i) (f * k) (g * k)) (fun i => relative_displacement natoms pos' fw (site natoms i) (f * k) (g * k))).
      + rewrite El. discriminate.
      + apply Rmult_le_pos; [pose proof (ends_pos fw); lra|exact H0].
      + intros i Hi. rewrite Forall_forall in HI. apply relative_close; auto. apply ProofsDisp.site_lt. now apply HI.
  Qed.
  Lemma total_close f g : (f * k < n)%nat -> (g * k < n)%nat ->
    (Rabs (sqrt (total_between axes natoms k pos idx fw f g) - sqrt (total_between axes natoms k pos' idx fw f g)) <= INR (length idx) * (ends fw * eps))%R.
  Proof.
    intros Hf Hg. unfold total_between, moves. eapply Rle_trans; [apply len_abs|].
    set (r := fun p i => relative_displacement natoms p fw (site natoms i) (f * k) (g * k)).
    replace (minus3 _ _) with (sum3 (map (fun i => minus3 (r pos i) (r pos' i)) idx)).
    2:{ fold (r pos). fold (r pos'). clear. induction idx as [|i l IH]; [v3eq|]. unfold sum3 in *. cbn [map rsum]. injection IH as E1 E2 E3. unfold minus3 in *. cbn [vx vy vz] in *. rewrite E1, E2, E3. f_equal; ring. }
    apply len_sum3. intros i Hi. rewrite Forall_forall in HI. apply relative_close; auto. apply ProofsDisp.site_lt. now apply HI.
  Qed.
End Length.
Lemma charge_close n natoms k eps pos pos' idx fw q : (0 <= eps)%R -> near all_axes n natoms k eps pos pos' -> Forall (valid_site natoms) idx -> Forall (valid_site natoms) fw ->
  length q = length idx -> forall f g, (f * k < n)%nat -> (g * k < n)%nat ->
  (Rabs (sqrt (charge_between q natoms k pos idx fw f g) - sqrt (charge_between q natoms k pos' idx fw f g)) <= rsum (map Rabs q) * (ends fw * eps))%R.
Proof.
  intros H0 HN HI HF L f g Hf Hg. unfold charge_between, moves. eapply Rle_trans; [apply len_abs|].
  set (r := fun p i => relative_displacement natoms p fw (site natoms i) (f * k) (g * k)).
  assert (C : forall i, In i idx -> (len all_axes (minus3 (r pos i) (r pos' i)) <= ends fw * eps)%R).
  { intros i Hi. rewrite Forall_forall in HI. apply (relative_close all_axes n); auto. apply ProofsDisp.site_lt. now apply HI. }
  fold (r pos). fold (r pos'). clear - C L. revert idx L C. induction q as [|c q IH]; intros [|i idx] L C; try discriminate.
  - cbn [map combine]. replace (minus3 _ _) with zero3 by v3eq. rewrite len_zero. cbn. lra.
  - cbn [map combine rsum]. specialize (IH idx ltac:(now injection L) (fun j Hj => C j (or_intror Hj))).
    match type of IH with (len all_axes (minus3 (sum3 ?a) (sum3 ?b)) <= _)%R =>
      match goal with |- (len all_axes ?w <= _)%R => replace w with (plus3 (scale3 c (minus3 (r pos i) (r pos' i))) (minus3 (sum3 a) (sum3 b))) end end.
    2:{ unfold sum3. cbn [map rsum fst snd]. v3eq. }
    eapply Rle_trans; [apply len_plus|]. rewrite len_scale. pose proof (C i (or_introl eq_refl)) as Ci. pose proof (Rabs_pos c).
    assert (Rabs c * len all_axes (minus3 (r pos i) (r pos' i)) <= Rabs c * (ends fw * eps))%R by (apply Rmult_le_compat_l; assumption). lra.
Qed.

(** ** All windows of an interval *)
Definition reported (T m : nat) (between : nat -> nat -> R) : R := ((INR (T - m) * over_time T m between + between 0%nat (m - 1)%nat) / INR (T - m + 1))%R.
Lemma reported_average T m between : (0 < m <= T)%nat ->
  reported T m between = average (map (fun o => between (match o with O => 0 | S j => j end)%nat (match o with O => m - 1 | S j => j + m end)%nat) (seq 0 (S (T - m)))).
Proof.
  intros Hm. unfold reported. assert (O : (INR (T - m) * over_time T m between = rsum (map (fun j => between j (j + m)%nat) (seq 0 (T - m))))%R).
  { unfold over_time, average. rewrite tab_length. destruct (T - m)%nat eqn:E; [cbn; ring|]. rewrite <- E. unfold tab. field. apply not_0_INR. lia. }
  rewrite O. unfold average. rewrite map_length, seq_length. rewrite Nat.add_1_r. f_equal.
  rewrite <- cons_seq, <- seq_shift. cbn [map rsum]. rewrite map_map. ring.
Qed.
Lemma reported_close T m B B' e : (0 < m <= T)%nat -> (0 <= e)%R -> (forall f g, (0 <= B f g)%R) -> (forall f g, (0 <= B' f g)%R) ->
  (forall f g, (f < T)%nat -> (g < T)%nat -> (Rabs (sqrt (B f g) - sqrt (B' f g)) <= e)%R) -> (Rabs (sqrt (reported T m B) - sqrt (reported T m B')) <= e)%R.
Proof.
  intros Hm E0 PB PB' H. rewrite !reported_average by exact Hm.
  set (w := fun o => (match o with O => 0 | S j => j end)%nat). set (z := fun o => (match o with O => m - 1 | S j => j + m end)%nat).
  assert (SQ : forall C : nat -> nat -> R, (forall f g, (0 <= C f g)%R) -> forall o, C (w o) (z o) = sqlen [AX] (mkV (sqrt (C (w o) (z o))) 0 0)%R).
  { intros C PC o. unfold sqlen. cbn [map rsum coord vx]. rewrite sqrt_sqrt by apply PC. ring. }
  rewrite (map_ext _ (fun o => sqlen [AX] (mkV (sqrt (B (w o) (z o))) 0 0)%R)) by (intros o; now apply SQ).
  rewrite (map_ext (fun o => B' (w o) (z o)) (fun o => sqlen [AX] (mkV (sqrt (B' (w o) (z o))) 0 0)%R)) by (intros o; now apply SQ).
  apply rms_list; [discriminate|exact E0|]. intros o Ho. apply in_seq in Ho. unfold len, sqlen. cbn [map rsum coord vx minus3]. rewrite Rplus_0_r.
  fold (Rsqr (sqrt (B (w o) (z o)) - sqrt (B' (w o) (z o)))). rewrite sqrt_Rsqr_abs. apply H; destruct o; cbn; lia.
Qed.

(** Positions that never change. *)
Lemma relative_still natoms (pos : nat -> nat -> V3 R) fw b f g : (forall f g c, pos f c = pos g c) -> relative_displacement natoms pos fw b f g = zero3.
Proof.
  intros H. unfold relative_displacement. destruct fw as [|i0 fw]; [rewrite (H g f); v3eq|]. set (l := i0 :: fw).
  rewrite (average3_minus (fun i => pos g (site natoms i)) (fun i => pos f (site natoms i)) l).
  rewrite (map_ext (fun i => pos g (site natoms i)) (fun i => pos f (site natoms i))) by (intros; apply H). rewrite (H g f). v3eq.
Qed.
Lemma sqlen_zero axes : sqlen axes zero3 = 0%R.
Proof. unfold sqlen. rewrite (map_ext _ (fun _ => 0%R)) by (intros []; cbn; ring). rewrite rsum_const. ring. Qed.
Lemma square_still axes natoms k (pos : nat -> nat -> V3 R) idx fw f g : (forall f g c, pos f c = pos g c) -> square_between axes natoms k pos idx fw f g = 0%R.
Proof.
  intros H. unfold square_between. rewrite (map_ext _ (fun _ => 0%R)) by (intros i; rewrite relative_still by exact H; apply sqlen_zero). unfold average. rewrite rsum_const. unfold Rdiv. ring.
Qed.
Lemma sum3_zero {T} (l : list T) : sum3 (map (fun _ => zero3) l) = zero3.
Proof. induction l as [|t l IH]; [reflexivity|]. unfold sum3 in *. cbn [map rsum]. injection IH as E1 E2 E3. rewrite E1, E2, E3. cbn. unfold zero3. f_equal; ring. Qed.
Lemma total_still axes natoms k (pos : nat -> nat -> V3 R) idx fw f g : (forall f g c, pos f c = pos g c) -> total_between axes natoms k pos idx fw f g = 0%R.
Proof. intros H. unfold total_between, moves. rewrite (map_ext _ (fun _ => zero3)) by (intros i; now apply relative_still). rewrite sum3_zero. apply sqlen_zero. Qed.
Lemma charge_still q natoms k (pos : nat -> nat -> V3 R) idx fw f g : (forall f g c, pos f c = pos g c) -> charge_between q natoms k pos idx fw f g = 0%R.
Proof.
  intros H. unfold charge_between, moves. rewrite (map_ext (fun i => relative_displacement natoms pos fw _ _ _) (fun _ => zero3)) by (intros i; now apply relative_still).
  rewrite (map_ext_in _ (fun _ => zero3)); [rewrite sum3_zero; apply sqlen_zero|]. intros [c v] Hp. apply in_combine_r in Hp. apply in_map_iff in Hp. destruct Hp as (i & <- & _). v3eq.
Qed.
Lemma reported_still T m B : (forall f g, B f g = 0%R) -> reported T m B = 0%R.
Proof.
  intros H. unfold reported. rewrite H. unfold over_time, average, tab. rewrite (map_ext _ (fun _ => 0%R)) by (intros; apply H). rewrite rsum_const. unfold Rdiv. ring.
Qed.
Lemma square_nonneg axes natoms k pos idx fw f g : (0 <= square_between axes natoms k pos idx fw f g)%R.
Proof.
  unfold square_between, average, Rdiv. apply Rmult_le_pos; [apply rsum_map_nonneg; intros; apply sqlen_nonneg'|]. rewrite map_length.
  destruct idx as [|i l]; [cbn; rewrite Rinv_0; lra|]. apply Rlt_le, Rinv_0_lt_compat, lt_0_INR. cbn. lia.
Qed.
Lemma caged T m B e : (0 < m <= T)%nat -> (0 <= e)%R -> (forall f g, (0 <= B f g)%R) ->
  (forall f g, (f < T)%nat -> (g < T)%nat -> (Rabs (sqrt (B f g) - sqrt 0) <= e)%R) -> (reported T m B <= e * e)%R.
Proof.
  intros Hm E0 PB H. pose proof (reported_close T m B (fun _ _ => 0%R) e Hm E0 PB (fun _ _ => Rle_refl 0) H) as C.
  rewrite (reported_still T m (fun _ _ => 0%R)) in C by reflexivity. rewrite sqrt_0, Rminus_0_r in C.
  assert (P : (0 <= reported T m B)%R).
  { rewrite reported_average by exact Hm. unfold average, Rdiv. apply Rmult_le_pos; [apply rsum_map_nonneg; intros; apply PB|]. rewrite map_length, seq_length. apply Rlt_le, Rinv_0_lt_compat, lt_0_INR. lia. }
  rewrite Rabs_pos_eq in C by apply sqrt_pos. rewrite <- (sqrt_sqrt _ P). pose proof (sqrt_pos (reported T m B)). nra.
Qed.

(** ** The analysers *)
Lemma same_reading i circ cell cell' types vol vol' n natoms k x x' a p p' :
  faithful_read i circ cell types vol n natoms k x a p -> faithful_read i circ cell' types vol' n natoms k x' a p' ->
  p_intervals p = p_intervals p' /\ p_delta_t p = p_delta_t p' /\ p_indices p = p_indices p' /\ p_drift_indices p = p_drift_indices p'.
Proof.
  intros F F'. destruct (read_forms _ _ _ _ _ _ _ _ _ _ _ F) as (tis & RF). destruct (read_forms _ _ _ _ _ _ _ _ _ _ _ F') as (tis' & RF').
  assert (ET := same_intervals _ _ _ _ _ _ _ _ _ _ _ _ _ _ _ _ _ _ _ F F' RF RF'). subst tis'.
  assert (C := rf_chosen _ _ _ _ _ _ _ _ _ _ RF). rewrite (rf_chosen _ _ _ _ _ _ _ _ _ _ RF') in C. injection C as C1 C2.
  rewrite (rf_intervals _ _ _ _ _ _ _ _ _ _ RF), (rf_intervals _ _ _ _ _ _ _ _ _ _ RF'), (rf_times _ _ _ _ _ _ _ _ _ _ RF), (rf_times _ _ _ _ _ _ _ _ _ _ RF'). auto.
Qed.
Lemma used_frames n k f : (0 < k)%nat -> (f < kept n k)%nat -> (f * k < n)%nat.
Proof. intros Hk Hf. now apply (kept_spec n k Hk f). Qed.
Section Analysers.
  Context {G Seed RS : Type} (X : Ext R G Seed RS).
  Context (i : interface) (circ : option (list R) -> list R -> Res R) (cell : M3 R) (types : list string) (vol : R) (n natoms k : nat) (x : nat -> nat -> V3 R) (a : ModelParser.Params R) (p : Parsed R) (u : BootParams R).
  Hypotheses (F : faithful_read i circ cell types vol n natoms k x a p) (Hk : 0 < u_sub_sample_dt u) (Hb : u_block u = false).
  Notation pos := (fun f b => cart cell (x f b)).
  Section Near.
    Context (cell' : M3 R) (vol' : R) (x' : nat -> nat -> V3 R) (p' : Parsed R) (eps : R).
    Hypotheses (F' : faithful_read i circ cell' types vol' n natoms k x' a p') (H0 : (0 <= eps)%R).
    Notation pos' := (fun f b => cart cell' (x' f b)).
    Lemma C93_msd_proof axes g g1 an h h1 an' : names (pystr_text (u_dimension u)) axes -> near axes n natoms k eps pos pos' ->
      diffusion_analyzer X (of_parsed p) u g = Ok (an, g1) -> diffusion_analyzer X (of_parsed p') u h = Ok (an', h1) ->
      forall j t t', nth_error (b_dt (an_diff an)) j = Some t -> nth_error (b_dt (an_diff an')) j = Some t' -> t = t' /\ exists v v',
        nth_error (b_n (an_diff an)) j = Some v /\ nth_error (b_n (an_diff an')) j = Some v' /\ (Rabs (sqrt v - sqrt v') <= ends (p_drift_indices p) * eps)%R.
    Proof.
      intros Hn HN H H' j t t' Ht Ht'. destruct (same_reading _ _ _ _ _ _ _ _ _ _ _ _ _ _ _ F F') as (S1 & S2 & S3 & S4).
      destruct (C81_reported_proof X _ _ _ _ _ _ _ _ _ _ _ _ _ _ _ _ F Hk Hb Hn H j t Ht) as (m & E1 & E2 & Hm & E3).
      destruct (C81_reported_proof X _ _ _ _ _ _ _ _ _ _ _ _ _ _ _ _ F' Hk Hb Hn H' j t' Ht') as (m' & E1' & E2' & _ & E3').
      rewrite <- S1, E1 in E1'. injection E1' as E1'. apply Nat2Z.inj in E1'. subst m'. rewrite <- S2, E2 in E2'. split; [congruence|].
      rewrite <- S3, <- S4 in E3'. cbv zeta in E3, E3'. do 2 eexists. split; [exact E3|]. split; [exact E3'|].
      pose proof (fr_k _ _ _ _ _ _ _ _ _ _ _ F) as K.
      apply (reported_close (kept n k) m (square_between axes natoms k pos (p_indices p) (p_drift_indices p)) (square_between axes natoms k pos' (p_indices p) (p_drift_indices p)));
        [exact Hm|apply Rmult_le_pos; [apply Rlt_le; exact (ends_pos _)|exact H0]|intros; apply square_nonneg|intros; apply square_nonneg|].
      intros f f' Hf Hf'. apply (square_close axes n); auto; try (now apply used_frames).
      - exact (fr_indices _ _ _ _ _ _ _ _ _ _ _ F).
      - exact (fr_drift _ _ _ _ _ _ _ _ _ _ _ F).
    Qed.
    Lemma C93_mstd_proof axes g g1 an h h1 an' : names (pystr_text (u_dimension u)) axes -> near axes n natoms k eps pos pos' ->
      jump_diffusion_analyzer X (of_parsed p) u g = Ok (an, g1) -> jump_diffusion_analyzer X (of_parsed p') u h = Ok (an', h1) ->
      forall j t t', nth_error (b_dt (an_diff an)) j = Some t -> nth_error (b_dt (an_diff an')) j = Some t' -> t = t' /\ exists v v',
        nth_error (b_n (an_diff an)) j = Some v /\ nth_error (b_n (an_diff an')) j = Some v'
        /\ (Rabs (sqrt v - sqrt v') <= INR (length (p_indices p)) * (ends (p_drift_indices p) * eps))%R.
    Proof.
      intros Hn HN H H' j t t' Ht Ht'. destruct (same_reading _ _ _ _ _ _ _ _ _ _ _ _ _ _ _ F F') as (S1 & S2 & S3 & S4).
      destruct (C85_mstd_proof X _ _ _ _ _ _ _ _ _ _ _ _ _ _ _ _ F Hk Hb Hn H j t Ht) as (m & E1 & E2 & Hm & E3).
      destruct (C85_mstd_proof X _ _ _ _ _ _ _ _ _ _ _ _ _ _ _ _ F' Hk Hb Hn H' j t' Ht') as (m' & E1' & E2' & _ & E3').
      rewrite <- S1, E1 in E1'. injection E1' as E1'. apply Nat2Z.inj in E1'. subst m'. rewrite <- S2, E2 in E2'. split; [congruence|].
      rewrite <- S3, <- S4 in E3'. cbv zeta in E3, E3'. do 2 eexists. split; [exact E3|]. split; [exact E3'|].
      pose proof (fr_k _ _ _ _ _ _ _ _ _ _ _ F) as K.
      apply (reported_close (kept n k) m (total_between axes natoms k pos (p_indices p) (p_drift_indices p)) (total_between axes natoms k pos' (p_indices p) (p_drift_indices p)));
        [exact Hm|apply Rmult_le_pos; [apply pos_INR|apply Rmult_le_pos; [apply Rlt_le; exact (ends_pos _)|exact H0]]|intros; apply sqlen_nonneg'|intros; apply sqlen_nonneg'|].
      intros f f' Hf Hf'. apply (total_close axes n); auto; try (now apply used_frames).
      - exact (fr_indices _ _ _ _ _ _ _ _ _ _ _ F).
      - exact (fr_drift _ _ _ _ _ _ _ _ _ _ _ F).
    Qed.
    Lemma C93_mscd_proof q g g1 an h h1 an' : (forall l, q = QArray l -> length l = length (p_indices p)) -> near all_axes n natoms k eps pos pos' ->
      conductivity_analyzer X (of_parsed p) q u g = Ok (an, g1) -> conductivity_analyzer X (of_parsed p') q u h = Ok (an', h1) ->
      forall j t t', nth_error (b_dt (an_diff an)) j = Some t -> nth_error (b_dt (an_diff an')) j = Some t' -> t = t' /\ exists v v',
        nth_error (b_n (an_diff an)) j = Some v /\ nth_error (b_n (an_diff an')) j = Some v'
        /\ (Rabs (sqrt v - sqrt v') <= rsum (map Rabs (charges q (length (p_indices p)))) * (ends (p_drift_indices p) * eps))%R.
    Proof.
      intros Hq HN H H' j t t' Ht Ht'. destruct (same_reading _ _ _ _ _ _ _ _ _ _ _ _ _ _ _ F F') as (S1 & S2 & S3 & S4).
      assert (Hq' : forall l, q = QArray l -> length l = length (p_indices p')) by (rewrite <- S3; exact Hq).
      destruct (C85_mscd_proof X _ _ _ _ _ _ _ _ _ _ _ _ _ _ _ _ F Hk Hb Hq H j t Ht) as (m & E1 & E2 & Hm & E3).
      destruct (C85_mscd_proof X _ _ _ _ _ _ _ _ _ _ _ _ _ _ _ _ F' Hk Hb Hq' H' j t' Ht') as (m' & E1' & E2' & _ & E3').
      rewrite <- S1, E1 in E1'. injection E1' as E1'. apply Nat2Z.inj in E1'. subst m'. rewrite <- S2, E2 in E2'. split; [congruence|].
      rewrite <- S3, <- S4 in E3'. cbv zeta in E3, E3'. do 2 eexists. split; [exact E3|]. split; [exact E3'|].
      pose proof (fr_k _ _ _ _ _ _ _ _ _ _ _ F) as K. set (c := charges q (length (p_indices p))) in *.
      assert (L : length c = length (p_indices p)) by (unfold c, charges; destruct q as [r|l]; [apply repeat_length|now apply Hq]).
      assert (P : (0 <= rsum (map Rabs c))%R) by (apply rsum_map_nonneg; intros; apply Rabs_pos).
      apply (reported_close (kept n k) m (charge_between c natoms k pos (p_indices p) (p_drift_indices p)) (charge_between c natoms k pos' (p_indices p) (p_drift_indices p)));
        [exact Hm|apply Rmult_le_pos; [exact P|apply Rmult_le_pos; [apply Rlt_le; exact (ends_pos _)|exact H0]]|intros; apply sqlen_nonneg'|intros; apply sqlen_nonneg'|].
      intros f f' Hf Hf'. apply (charge_close n); auto; try (now apply used_frames).
      - exact (fr_indices _ _ _ _ _ _ _ _ _ _ _ F).
      - exact (fr_drift _ _ _ _ _ _ _ _ _ _ _ F).
    Qed.
  End Near.
  Section Caged.
    Context (centre : nat -> V3 R) (r : R).
    Hypothesis H0 : (0 <= r)%R.
    Lemma C93_caged_msd_proof axes g g1 an : names (pystr_text (u_dimension u)) axes -> near axes n natoms k r pos (fun _ b => centre b) ->
      diffusion_analyzer X (of_parsed p) u g = Ok (an, g1) -> forall j t, nth_error (b_dt (an_diff an)) j = Some t ->
      exists v, nth_error (b_n (an_diff an)) j = Some v /\ (v <= (ends (p_drift_indices p) * r) * (ends (p_drift_indices p) * r))%R.
    Proof.
      intros Hn HN H j t Ht. destruct (C81_reported_proof X _ _ _ _ _ _ _ _ _ _ _ _ _ _ _ _ F Hk Hb Hn H j t Ht) as (m & E1 & E2 & Hm & E3).
      cbv zeta in E3. eexists. split; [exact E3|]. pose proof (fr_k _ _ _ _ _ _ _ _ _ _ _ F) as K.
      apply (caged (kept n k) m (square_between axes natoms k pos (p_indices p) (p_drift_indices p)));
        [exact Hm|apply Rmult_le_pos; [apply Rlt_le; exact (ends_pos _)|exact H0]|intros; apply square_nonneg|].
      intros f f' Hf Hf'. rewrite <- (square_still axes natoms k (fun _ b => centre b) (p_indices p) (p_drift_indices p) f f') by reflexivity.
      apply (square_close axes n); auto; try (now apply used_frames).
      - exact (fr_indices _ _ _ _ _ _ _ _ _ _ _ F).
      - exact (fr_drift _ _ _ _ _ _ _ _ _ _ _ F).
    Qed.
    Lemma C93_caged_mstd_proof axes g g1 an : names (pystr_text (u_dimension u)) axes -> near axes n natoms k r pos (fun _ b => centre b) ->
      jump_diffusion_analyzer X (of_parsed p) u g = Ok (an, g1) -> forall j t, nth_error (b_dt (an_diff an)) j = Some t ->
      exists v, nth_error (b_n (an_diff an)) j = Some v
        /\ (v <= (INR (length (p_indices p)) * (ends (p_drift_indices p) * r)) * (INR (length (p_indices p)) * (ends (p_drift_indices p) * r)))%R.
    Proof.
      intros Hn HN H j t Ht. destruct (C85_mstd_proof X _ _ _ _ _ _ _ _ _ _ _ _ _ _ _ _ F Hk Hb Hn H j t Ht) as (m & E1 & E2 & Hm & E3).
      cbv zeta in E3. eexists. split; [exact E3|]. pose proof (fr_k _ _ _ _ _ _ _ _ _ _ _ F) as K.
      apply (caged (kept n k) m (total_between axes natoms k pos (p_indices p) (p_drift_indices p)));
        [exact Hm|apply Rmult_le_pos; [apply pos_INR|apply Rmult_le_pos; [apply Rlt_le; exact (ends_pos _)|exact H0]]|intros; apply sqlen_nonneg'|].
      intros f f' Hf Hf'. rewrite <- (total_still axes natoms k (fun _ b => centre b) (p_indices p) (p_drift_indices p) f f') by reflexivity.
      apply (total_close axes n); auto; try (now apply used_frames).
      - exact (fr_indices _ _ _ _ _ _ _ _ _ _ _ F).
      - exact (fr_drift _ _ _ _ _ _ _ _ _ _ _ F).
    Qed.
  End Caged.
End Analysers.

(** ** Steps of half a cell *)
Definition half_step (h : R) (f a : nat) : V3 R := mkV (INR f * h)%R 0%R 0%R.
Lemma half_read h (img : nat -> nat -> V3 Z) : (- / 2 <= h < / 2)%R ->
  displacements 1 (frames_of ["Li"]%string 1%R 2 1 (fun f a => plus3 (half_step h f a) (ivec (img f a))) (fun _ => unit_cell))
  = Ok (table 1 2 (fun a f => cart unit_cell (minus3 (half_step h f a) (half_step h 0%nat a)))).
Proof.
  intros Hh. pose proof (C01_proof unit_cell ["Li"]%string 1%R 2 1 1 (half_step h) img unit_cell_volume ltac:(lia) ltac:(lia)) as H.
  rewrite kept_one in H. etransitivity; [apply H|].
  { intros f a Hf Ha. rewrite !Nat.mul_1_r. assert (f = 0%nat) by lia. subst f. unfold half_step, within_half. cbn [vx vy vz minus3 INR]. lra. }
  f_equal.
Qed.
Lemma C93_refuted_proof : forall eps, (0 < eps < 1)%R -> exists c c' : nat -> nat -> V3 R,
  near all_axes 2 1 1 eps (fun f b => cart unit_cell (c f b)) (fun f b => cart unit_cell (c' f b))
  /\ exists d d', displacements 1 (frames_of ["Li"]%string 1%R 2 1 c (fun _ => unit_cell)) = Ok d
    /\ displacements 1 (frames_of ["Li"]%string 1%R 2 1 c' (fun _ => unit_cell)) = Ok d'
    /\ arr_entry d 0 1 = Some (mkV ((1 - eps) / 2) 0 0)%R /\ arr_entry d' 0 1 = Some (mkV (- ((1 - eps) / 2)) 0 0)%R.
Proof.
  intros eps He. exists (fun f a => plus3 (half_step ((1 - eps) / 2) f a) (ivec (no_image f a))).
  exists (fun f a => plus3 (half_step (- ((1 - eps) / 2)) f a) (ivec (mkV (Z.of_nat f) 0 0))). split.
  - intros f b Hf Hb. rewrite Nat.mul_1_r in *. assert (Ef : f = 0%nat \/ f = 1%nat) by lia.
    unfold len, sqlen, all_axes. cbn [map rsum coord]. unfold half_step. destruct Ef as [-> | ->].
    + match goal with |- (sqrt ?w <= _)%R => replace w with 0%R by (cbn; field) end. rewrite sqrt_0. lra.
    + match goal with |- (sqrt ?w <= _)%R => replace w with (eps * eps)%R by (cbn; field) end. rewrite sqrt_square; lra.
  - do 2 eexists. split; [apply half_read; lra|]. split; [apply (half_read (- ((1 - eps) / 2)) (fun f _ => mkV (Z.of_nat f) 0 0)); lra|].
    unfold arr_entry, table, entry, tab. cbn [a_rows map seq nth_error]. unfold half_step. split; f_equal; apply V3_eq; cbn; field.
Qed.
(** ** Example *)
Lemma C93_example_proof : forall G Seed RS (X : Ext R G Seed RS) circ (g : G) s s' eps, gentle s -> gentle s' -> (forall f, (Rabs (s f - s' f) <= eps)%R) -> exists p p' an an',
  faithful_read Ase circ unit_cell ["Li"; "O"]%string 1%R 4 2 1 (walk s) walk_params p /\ faithful_read Ase circ unit_cell ["Li"; "O"]%string 1%R 4 2 1 (walk s') walk_params p'
  /\ near all_axes 4 2 1 eps (fun f b => cart unit_cell (walk s f b)) (fun f b => cart unit_cell (walk s' f b))
  /\ diffusion_analyzer X (of_parsed p) (demo_boot 1 "xyz") g = Ok (an, g) /\ diffusion_analyzer X (of_parsed p') (demo_boot 1 "xyz") g = Ok (an', g)
  /\ b_dt (an_diff an) = [1; 2]%R /\ b_dt (an_diff an') = [1; 2]%R.
Proof.
  intros G Seed RS X circ g s s' eps Hs Hs' HE. destruct (walk_run G Seed RS X circ g s Hs) as (p & an & F & _ & _ & _ & H & D).
  destruct (walk_run G Seed RS X circ g s' Hs') as (p' & an' & F' & _ & _ & _ & H' & D'). exists p, p', an, an'.
  split; [exact F|]. split; [exact F'|]. split; [|auto]. intros f b _ _. rewrite Nat.mul_1_r. unfold len, sqlen, all_axes. cbn [map rsum coord].
  pose proof (Rabs_pos (s f - s' f)) as P0. destruct b as [|b]; cbn [walk].
  - match goal with |- (sqrt ?w <= _)%R => replace w with (Rsqr (s f - s' f)) by (unfold Rsqr; cbn; ring) end. rewrite sqrt_Rsqr_abs. apply HE.
  - match goal with |- (sqrt ?w <= _)%R => replace w with 0%R by (cbn; ring) end. rewrite sqrt_0. specialize (HE f). lra.
Qed.
