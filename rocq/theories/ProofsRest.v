(** * ProofsRest: displacements in the frame of the centre of mass (C121) *)
From Verif Require Import Base Spec SpecParser SpecStats SpecFit SpecAnalyzer ModelParser ModelDiffusion ModelHdf ModelAnalyzer
  Lemmas ProofsDisp ProofsIntervals ProofsWindows ProofsParser ProofsTraj ProofsBoot ProofsStats ProofsStats2 ProofsFit ProofsShape ProofsAnalyzer
  SpecRun SpecSym ProofsSym SpecGrid ProofsGrid SpecPool ProofsCollective ProofsPool SpecTrue ProofsTrue SpecColl ProofsColl ProofsUnwrap ProofsChain SpecStable ProofsStable
  SpecNoise ProofsNoise SpecUneven ProofsUneven SpecRest.
From Coq Require Import Reals Lra Lia Sorting.Sorted.
Open Scope R_scope.

Lemma weighted_coord c l d : coord (weighted c l) d = rsum (map (fun p => fst p * coord (snd p) d) (combine c l)).
Proof. unfold weighted. rewrite coord_sum3, map_map. f_equal. apply map_ext. intros p. apply coord_scale. Qed.
Lemma weighted_cons y c v l : weighted (y :: c) (v :: l) = plus3 (scale3 y v) (weighted c l).
Proof. reflexivity. Qed.
Lemma weighted_minus {T} (h h' : T -> V3 R) c : forall l, weighted c (map (fun t => minus3 (h t) (h' t)) l) = minus3 (weighted c (map h l)) (weighted c (map h' l)).
Proof. induction c as [|y c IH]; intros [|t l]; cbn [map]; [unfold weighted; v3eq..|]. rewrite !weighted_cons, IH. v3eq. Qed.
Lemma weighted_shift {T} (h : T -> V3 R) a c : forall l, length c = length l -> weighted c (map (fun t => minus3 (h t) a) l) = minus3 (weighted c (map h l)) (scale3 (rsum c) a).
Proof. induction c as [|y c IH]; intros [|t l] L; try discriminate; cbn [map]; [unfold weighted; v3eq|]. injection L as L. rewrite !weighted_cons, (IH l L), rsum_cons. v3eq. Qed.
Lemma weighted_add {T} (h : T -> V3 R) z c : forall mass l, length c = length l -> length mass = length l ->
  weighted (map (fun p => fst p + z * snd p) (combine c mass)) (map h l) = plus3 (weighted c (map h l)) (scale3 z (weighted mass (map h l))).
Proof.
  induction c as [|y c IH]; intros [|mu mass] [|t l] L L'; try discriminate; cbn [map combine]; [unfold weighted; v3eq|]. injection L as L. injection L' as L'.
  rewrite !weighted_cons, (IH mass l L L'). cbn [fst snd]. v3eq.
Qed.
Lemma sum3_minus {T} (h h' : T -> V3 R) l : sum3 (map (fun t => minus3 (h t) (h' t)) l) = minus3 (sum3 (map h l)) (sum3 (map h' l)).
Proof. induction l as [|t l IH]; cbn [map]; [v3eq|]. rewrite !sum3_cons, IH. v3eq. Qed.

Section Window.
  Context (axes : list axis) (natoms k T : nat) (pos : nat -> nat -> V3 R) (idx fw : list Z) (mass : list R) (M : R) (c : list R).
  Hypotheses (HR : centre_at_rest natoms k T pos idx fw mass M) (HM : M <> 0) (HF : fw <> []) (Lm : length mass = length idx) (Lc : length c = length idx).
  Lemma rest_moves f g : (f < T)%nat -> (g < T)%nat ->
    weighted c (moves natoms k pos idx fw f g)
    = weighted (dressed c mass (length fw) M) (map (fun i => minus3 (pos (g * k)%nat (site natoms i)) (pos (f * k)%nat (site natoms i))) idx).
  Proof.
    intros Hf Hg. set (h := fun i => minus3 (pos (g * k)%nat (site natoms i)) (pos (f * k)%nat (site natoms i))).
    assert (K : INR (length fw) <> 0) by (apply not_0_INR; destruct fw; [congruence|discriminate]).
    assert (A : scale3 (INR (length fw) * M) (average3 (map h fw)) = scale3 (-1) (weighted mass (map h idx))).
    { destruct HR as (C & H). pose proof (H f Hf) as Cf. pose proof (H g Hg) as Cg. rewrite <- Cg in Cf.
      unfold h. rewrite weighted_minus, average3_sum, sum3_minus, map_length.
      set (Wf := weighted mass (map (fun i => pos (f * k)%nat (site natoms i)) idx)) in *. set (Wg := weighted mass (map (fun i => pos (g * k)%nat (site natoms i)) idx)) in *.
      set (Sf := sum3 (map (fun i => pos (f * k)%nat (site natoms i)) fw)) in *. set (Sg := sum3 (map (fun i => pos (g * k)%nat (site natoms i)) fw)) in *.
      clearbody Wf Wg Sf Sg. clear H Hf Hg. destruct Wf, Wg, Sf, Sg. unfold plus3, minus3, scale3 in *. cbn in *. injection Cf as C1 C2 C3.
      f_equal; field_simplify; try assumption; lra. }
    unfold moves. rewrite (map_ext _ (fun i => minus3 (h i) (average3 (map h fw)))).
    2:{ intros i. unfold relative_displacement. destruct fw as [|j0 l]; [congruence|]. reflexivity. }
    rewrite weighted_shift by exact Lc. unfold dressed.
    rewrite (map_ext (fun p => fst p + rsum c * snd p / (INR (length fw) * M)) (fun p => fst p + (rsum c / (INR (length fw) * M)) * snd p)) by (intros p; field; auto).
    rewrite (weighted_add h (rsum c / (INR (length fw) * M)) c mass idx Lc Lm).
    set (W := weighted mass (map h idx)) in *. set (a := average3 (map h fw)) in *. set (S := weighted c (map h idx)). clearbody W a S.
    destruct W as [w1 w2 w3], a as [a1 a2 a3], S as [s1 s2 s3]. unfold plus3, minus3, scale3 in *. cbn in *. injection A as A1 A2 A3.
    assert (Q : forall a w, INR (length fw) * M * a = -1 * w -> a = - w / (INR (length fw) * M)) by (intros a w E; field_simplify_eq; [lra|auto]).
    rewrite (Q _ _ A1), (Q _ _ A2), (Q _ _ A3). f_equal; field; auto.
  Qed.
  Lemma rest_square f g : (f < T)%nat -> (g < T)%nat -> sqlen axes (weighted c (moves natoms k pos idx fw f g)) = free_between axes (dressed c mass (length fw) M) natoms k pos idx f g.
  Proof. intros Hf Hg. unfold free_between. now rewrite rest_moves. Qed.
End Window.
Lemma combine_repeat {A B} (x : A) (y : B) N : combine (repeat x N) (repeat y N) = repeat (x, y) N.
Proof. induction N as [|N IH]; [reflexivity|]. cbn. now rewrite IH. Qed.
Lemma rsum_repeat z N : rsum (repeat z N) = INR N * z.
Proof. induction N as [|N IH]; [cbn; ring|]. rewrite S_INR. cbn [repeat]. rewrite rsum_cons, IH. ring. Qed.
Lemma dressed_equal z mu N K M : dressed (repeat z N) (repeat mu N) K M = repeat (z * (1 + INR N * mu / (INR K * M))) N.
Proof.
  unfold dressed. rewrite combine_repeat, rsum_repeat. set (y := INR N). clearbody y. induction N as [|N IH]; [reflexivity|]. cbn [repeat map fst snd]. rewrite IH. f_equal. unfold Rdiv. ring.
Qed.
Lemma weighted_repeat z (l : list (V3 R)) : weighted (repeat z (length l)) l = scale3 z (sum3 l).
Proof. induction l as [|v l IH]; [unfold weighted; v3eq|]. cbn [length repeat]. rewrite weighted_cons, IH, sum3_cons. v3eq. Qed.
Lemma sqlen_scaled axes z v : sqlen axes (scale3 z v) = z * z * sqlen axes v.
Proof. unfold sqlen. rewrite <- rsum_map_scal. f_equal. apply map_ext. intros d. rewrite coord_scale. ring. Qed.
Lemma C121_equal_masses_proof axes natoms k pos idx z mu K M f g :
  free_between axes (dressed (repeat z (length idx)) (repeat mu (length idx)) K M) natoms k pos idx f g
  = (z * (1 + INR (length idx) * mu / (INR K * M))) * (z * (1 + INR (length idx) * mu / (INR K * M))) * total_between axes natoms k pos idx [] f g.
Proof.
  rewrite dressed_equal. unfold free_between, total_between, moves, relative_displacement. set (l := map _ idx).
  replace (length idx) with (length l) at 2 by apply map_length. now rewrite weighted_repeat, sqlen_scaled.
Qed.

(** ** The analysers *)
Open Scope Z_scope.
Section Analysers.
  Context {G Seed RS : Type} (X : Ext R G Seed RS) (i : interface) (circ : option (list R) -> list R -> Res R) (cell : M3 R) (types : list string) (vol : R) (n natoms k : nat)
    (x : nat -> nat -> V3 R) (a : ModelParser.Params R) (p : Parsed R) (u : BootParams R) (mass : list R) (M : R).
  Notation T := (kept n k).
  Notation pos := (fun f b => cart cell (x f b)).
  Hypotheses (F : faithful_read i circ cell types vol n natoms k x a p) (Hk : 0 < u_sub_sample_dt u) (Hb : u_block u = false)
    (HR : centre_at_rest natoms k T pos (p_indices p) (p_drift_indices p) mass M) (HM : M <> 0%R) (HF : p_drift_indices p <> []) (Lm : length mass = length (p_indices p)).
  Lemma C121_mstd_proof axes g an g' : names (pystr_text (u_dimension u)) axes ->
    jump_diffusion_analyzer X (of_parsed p) u g = Ok (an, g') -> forall j t, nth_error (b_dt (an_diff an)) j = Some t ->
    exists m, nth_error (p_intervals p) (j * Z.to_nat (u_sub_sample_dt u)) = Some (Z.of_nat m) /\ (0 < m <= T)%nat
      /\ let between := free_between axes (dressed (repeat 1%R (length (p_indices p))) mass (length (p_drift_indices p)) M) natoms k pos (p_indices p) in
         nth_error (b_n (an_diff an)) j = Some ((INR (T - m) * over_time T m between + between 0%nat (m - 1)%nat) / INR (T - m + 1))%R.
  Proof.
    intros Hn H j t Ht. destruct (C85_mstd_proof X _ _ _ _ _ _ _ _ _ _ _ _ _ _ _ _ F Hk Hb Hn H j t Ht) as (m & E1 & _ & Hm & E3). exists m. split; [exact E1|]. split; [exact Hm|].
    cbv zeta in *. rewrite E3. f_equal. refine (reported_ext T m _ _ Hm _). intros f h Hf Hh.
    rewrite <- (rest_square axes natoms k T pos (p_indices p) (p_drift_indices p) mass M (repeat 1%R (length (p_indices p))) HR HM HF Lm (repeat_length _ _)) by lia.
    unfold total_between, weighted. f_equal. replace (length (p_indices p)) with (length (moves natoms k pos (p_indices p) (p_drift_indices p) f h)) by apply map_length.
    now rewrite weigh_ones.
  Qed.
  Lemma C121_mscd_proof q g an g' : (forall l, q = QArray l -> length l = length (p_indices p)) ->
    conductivity_analyzer X (of_parsed p) q u g = Ok (an, g') -> forall j t, nth_error (b_dt (an_diff an)) j = Some t ->
    exists m, nth_error (p_intervals p) (j * Z.to_nat (u_sub_sample_dt u)) = Some (Z.of_nat m) /\ (0 < m <= T)%nat
      /\ let between := free_between all_axes (dressed (charges q (length (p_indices p))) mass (length (p_drift_indices p)) M) natoms k pos (p_indices p) in
         nth_error (b_n (an_diff an)) j = Some ((INR (T - m) * over_time T m between + between 0%nat (m - 1)%nat) / INR (T - m + 1))%R.
  Proof.
    intros Hq H j t Ht. destruct (C85_mscd_proof X _ _ _ _ _ _ _ _ _ _ _ _ _ _ _ _ F Hk Hb Hq H j t Ht) as (m & E1 & _ & Hm & E3). exists m. split; [exact E1|]. split; [exact Hm|].
    cbv zeta in *. rewrite E3. f_equal. set (c := charges q (length (p_indices p))) in *.
    assert (L : length c = length (p_indices p)) by (unfold c, charges; destruct q as [r|l]; [apply repeat_length|now apply Hq]).
    refine (reported_ext T m _ _ Hm _). intros f h Hf Hh.
    now rewrite <- (rest_square all_axes natoms k T pos (p_indices p) (p_drift_indices p) mass M c HR HM HF Lm L) by lia.
  Qed.
End Analysers.

(** ** An example: a Li atom and an O atom of twice its mass, moving apart *)
Definition recoil (s : nat -> R) (f a : nat) : V3 R := match a with O => mkV (s f) 0%R 0%R | _ => mkV (- s f / 2)%R 0%R 0%R end.
Lemma recoil_small s n : gentle s -> small_steps n 2 1 (recoil s).
Proof.
  intros H f a _ Ha. rewrite !Nat.mul_1_r. unfold recoil, within_half. specialize (H f). destruct a; cbn [vx vy vz minus3]; lra.
Qed.
Lemma recoil_read circ s : gentle s -> exists p,
  faithful_read Ase circ unit_cell ["Li"; "O"]%string 1%R 4 2 1 (recoil s) walk_params p
  /\ p_intervals p = [1; 2] /\ p_indices p = [0] /\ p_drift_indices p = [1] /\ p_delta_t p = [1; 2]%R /\ length (p_disp_3d p) = 2%nat /\ length (p_n_o p) = 2%nat
  /\ Forall (fun d => 1 < length (entries d))%nat (p_disp_3d p) /\ Forall (fun d => 1 < a_obs d)%nat (p_disp_3d p).
Proof.
  intros HG.
  assert (K : exists p, ase_parser geomspace_R circ (frames_of ["Li"; "O"]%string 1%R 4 2 (recoil s) (fun _ => unit_cell)) walk_params = Ok p
    /\ p_intervals p = [1; 2] /\ p_indices p = [0] /\ p_drift_indices p = [1] /\ p_delta_t p = [1; 2]%R /\ length (p_disp_3d p) = 2%nat /\ length (p_n_o p) = 2%nat
    /\ Forall (fun d => 1 < length (entries d))%nat (p_disp_3d p) /\ Forall (fun d => 1 < a_obs d)%nat (p_disp_3d p)).
  { rewrite (ase_run geomspace_R circ unit_cell _ _ 4 2 1 (recoil s) _ ["Li"%string] [0] [1])
      by (first [exact unit_cell_volume | now apply recoil_small | lia | reflexivity]).
    unfold walk_params, upto. cbn [hop_params a_time_step pynum_val a_step_skip a_opts]. rewrite kept_one.
    rewrite (parser_init_ints geomspace_R 2 4 _ [0] [1] 1 2 2 "multi-origin" 8 8) by (first [repeat constructor; cbn; lia | lia]).
    change (tab _ (lin _ 2 _)) with (map Z.of_nat [1;2]%nat).
    rewrite get_disps_multi' by (repeat constructor; cbn; lia).
    assert (E' : Rltb 8 (in_gigabytes (fold_right Z.add 0 (map (estimate (length [0]) 4 8) [1;2]%nat))) = false).
    { apply Rltb_false. unfold in_gigabytes. cbn. lra. }
    rewrite E'. cbn [bind]. eexists. split; [reflexivity|]. do 3 (split; [reflexivity|]).
    split; [cbn; repeat f_equal; lra|]. split; [reflexivity|]. split; [reflexivity|]. split; repeat constructor. }
  destruct K as (p & H & E1 & E2 & E3 & E4). exists p. split; [|auto].
  split; try (first [exact unit_cell_volume | reflexivity | lia | now apply recoil_small]).
  - left. discriminate.
  - rewrite kept_one. split; unfold min_time, max_time; cbn; try lra; try lia. now left.
  - rewrite E2. repeat constructor; cbn; lia.
  - rewrite E3. repeat constructor; cbn; lia.
  - exists no_image. cbn [parser_by handed_over]. rewrite (frames_of_ext _ _ _ _ _ _ _ (no_image_id (recoil s))). exact H.
Qed.
Definition recoiled {G Seed RS} (X : Ext R G Seed RS) circ (g : G) (s : nat -> R) (p : Parsed R) (an cn : Analyzer R) : Prop :=
  faithful_read Ase circ unit_cell ["Li"; "O"]%string 1%R 4 2 1 (recoil s) walk_params p
  /\ p_intervals p = [1; 2] /\ p_indices p = [0] /\ p_drift_indices p = [1] /\ jump_diffusion_analyzer X (of_parsed p) (demo_boot 1 "xyz") g = Ok (an, g)
  /\ conductivity_analyzer X (of_parsed p) (QScalar 1%R) (demo_boot 1 "xyz") g = Ok (cn, g)
  /\ nth_error (b_dt (an_diff an)) 0 = Some 1%R /\ nth_error (b_dt (an_diff cn)) 0 = Some 1%R.
Lemma recoiled_run {G Seed RS} (X : Ext R G Seed RS) circ (g : G) s : gentle s -> exists p an cn, recoiled X circ g s p an cn.
Proof.
  intros HG. destruct (recoil_read circ s HG) as (p & F & E1 & E2 & E3 & E4 & E5 & E6 & E7 & E8).
  destruct (read_forms _ _ _ _ _ _ _ _ _ _ _ F) as (tis & RF). destruct (form_shape _ _ _ _ _ _ _ _ _ _ RF) as [W L].
  destruct (three_run X p (QScalar 1%R) g ltac:(now rewrite E4) E5 E6 E7 E8 W L ltac:(discriminate)) as (_ & jn & cn & _ & A & B & _ & T & T'). rewrite E4 in T, T'.
  exists p, jn, cn. split; [exact F|]. repeat (split; [assumption|]). rewrite T, T'. auto.
Qed.
Lemma recoil_rest s : centre_at_rest 2 1 4 (fun f b => cart unit_cell (recoil s f b)) [0] [1] [1%R] 2%R.
Proof.
  exists zero3. intros f _. cbn [map]. change (site 2 0) with 0%nat. change (site 2 1) with 1%nat. unfold weighted, sum3, recoil, cart, unit_cell, plus3, scale3, zero3. cbn.
  f_equal; field.
Qed.
Lemma recoil_between c s f h : free_between all_axes [c] 2 1 (fun f b => cart unit_cell (recoil s f b)) [0] f h = (c * c * ((s h - s f) * (s h - s f)))%R.
Proof.
  unfold free_between. cbn [map]. change (site 2 0) with 0%nat. rewrite !Nat.mul_1_r. unfold weighted, sum3, recoil, cart, unit_cell, minus3, scale3, sqlen, all_axes. cbn. ring.
Qed.
Lemma C121_refuted_proof : forall G Seed RS (X : Ext R G Seed RS) circ (g : G), exists x p an,
  faithful_read Ase circ unit_cell ["Li"; "O"]%string 1%R 4 2 1 x walk_params p
  /\ centre_at_rest 2 1 4 (fun f b => cart unit_cell (x f b)) (p_indices p) (p_drift_indices p) [1%R] 2%R
  /\ jump_diffusion_analyzer X (of_parsed p) (demo_boot 1 "xyz") g = Ok (an, g)
  /\ nth_error (p_intervals p) 0 = Some 1 /\ nth_error (b_dt (an_diff an)) 0 = Some 1%R
  /\ nth_error (b_n (an_diff an)) 0 = Some (27 / 1600)%R
  /\ (let between := free_between all_axes [1%R] 2 1 (fun f b => cart unit_cell (x f b)) (p_indices p) in
      (INR (4 - 1) * over_time 4 1 between + between 0%nat (1 - 1)%nat) / INR (4 - 1 + 1) = 3 / 400)%R.
Proof.
  intros G Seed RS X circ g. destruct (recoiled_run X circ g steady steady_gentle) as (p & an & cn & F & E1 & E2 & E3 & H & _ & Ht & _).
  exists (recoil steady), p, an. split; [exact F|]. split; [rewrite E2, E3; apply recoil_rest|]. split; [exact H|]. split; [now rewrite E1|]. split; [exact Ht|]. split.
  - destruct (C121_mstd_proof X Ase circ unit_cell ["Li"; "O"]%string 1%R 4 2 1 (recoil steady) walk_params p (demo_boot 1 "xyz") [1%R] 2%R F eq_refl eq_refl) with (axes := all_axes) (g := g) (an := an) (g' := g) (j := 0%nat) (t := 1%R) as (m & D1 & _ & D).
    + rewrite E2, E3, kept_one. apply recoil_rest.
    + lra.
    + rewrite E3. discriminate.
    + now rewrite E2.
    + exact names_xyz.
    + exact H.
    + exact Ht.
    + rewrite E1 in D1. injection D1 as D1. assert (m = 1%nat) by (cbn in D1; lia). subst m. cbv zeta in D. rewrite D. f_equal.
      rewrite E2, E3, kept_one. cbn [length repeat]. unfold dressed. cbn [combine map fst snd]. unfold over_time, tab. cbn [Nat.sub seq map Nat.add].
      rewrite !recoil_between. unfold average, steady. cbn [length map rsum fold_right Nat.add INR]. field.
  - cbv zeta. rewrite E2. unfold over_time, tab. cbn [Nat.sub seq map Nat.add]. rewrite !recoil_between. unfold average, steady. cbn [length map rsum fold_right Nat.add INR]. field.
Qed.
Lemma C121_example_proof : forall G Seed RS (X : Ext R G Seed RS) circ (g : G), exists x p an cn,
  faithful_read Ase circ unit_cell ["Li"; "O"]%string 1%R 4 2 1 x walk_params p
  /\ centre_at_rest 2 1 4 (fun f b => cart unit_cell (x f b)) (p_indices p) (p_drift_indices p) [1%R] 2%R
  /\ p_drift_indices p <> [] /\ length [1%R] = length (p_indices p)
  /\ jump_diffusion_analyzer X (of_parsed p) (demo_boot 1 "xyz") g = Ok (an, g) /\ conductivity_analyzer X (of_parsed p) (QScalar 1%R) (demo_boot 1 "xyz") g = Ok (cn, g)
  /\ nth_error (b_dt (an_diff an)) 0 = Some 1%R /\ nth_error (b_dt (an_diff cn)) 0 = Some 1%R
  /\ x 3%nat 0%nat <> x 0%nat 0%nat /\ x 3%nat 1%nat <> x 0%nat 1%nat.
Proof.
  intros G Seed RS X circ g. destruct (recoiled_run X circ g steady steady_gentle) as (p & an & cn & F & E1 & E2 & E3 & H & H' & Ht & Ht').
  exists (recoil steady), p, an, cn. split; [exact F|]. split; [rewrite E2, E3; apply recoil_rest|]. split; [now rewrite E3|]. split; [now rewrite E2|].
  do 4 (split; [assumption|]). unfold recoil, steady. split; intros C; injection C as C; cbn in C; lra.
Qed.
