(** * ProofsThin: a run of which only some frames are used (C128) *)
From Verif Require Import Base Spec SpecParser SpecStats SpecFit SpecAnalyzer ModelParser ModelDiffusion ModelHdf ModelAnalyzer
  Lemmas ProofsDisp ProofsIntervals ProofsWindows ProofsParser ProofsTraj ProofsBoot ProofsStats ProofsStats2 ProofsFit ProofsShape ProofsAnalyzer
  SpecRun SpecSym ProofsSym SpecGrid ProofsGrid SpecPool ProofsCollective ProofsPool SpecTrue ProofsTrue SpecColl ProofsColl ProofsUnwrap ProofsChain SpecStable ProofsStable SpecNoise ProofsNoise SpecUneven ProofsUneven SpecPieces ProofsPieces SpecThin.
From Coq Require Import Reals Lra Lia.
Open Scope nat_scope.

(** ** Sums over every [s]-th frame *)
Lemma rsum_strides s N (F : nat -> R) : rsum (map (fun o => rsum (map (fun f => F (o + s * f)) (seq 0 N))) (seq 0 s)) = rsum (map F (seq 0 (s * N))).
Proof.
  rewrite (rsum_swap (fun o f => F (o + s * f))). induction N as [|N IH]; [rewrite Nat.mul_0_r; reflexivity|].
  rewrite seq_S, map_app, rsum_app, IH. replace (s * S N) with (s * N + s) by lia. rewrite seq_app, map_app, rsum_app. f_equal. cbn [Nat.add map rsum].
  rewrite Rplus_0_r, (rsum_seq_shift F (s * N) s). f_equal. apply map_ext. intros o. f_equal. lia.
Qed.
Lemma wsum_strides s H m B : 0 < m <= H ->
  (wsum (s * H) (s * m) B - B 0%nat (s * m - 1)%nat)%R
  = rsum (map (fun o => wsum H m (fun f g => B (o + s * f)%nat (o + s * g)%nat) - B o (o + s * (m - 1))%nat)%R (seq 0 s)).
Proof.
  intros Hm. unfold wsum. replace (s * H - s * m) with (s * (H - m)) by nia. rewrite <- (rsum_strides s (H - m)).
  match goal with |- (?a + ?b - ?b)%R = _ => replace (a + b - b)%R with a by ring end. f_equal. apply map_ext. intros o.
  rewrite Nat.mul_0_r, Nat.add_0_r. match goal with |- _ = (?a + ?b - ?b)%R => replace (a + b - b)%R with a by ring end. f_equal. apply map_ext. intros f. f_equal. lia.
Qed.
Lemma kept_thin s H o k : 0 < k -> o < s -> kept ((s * H - o) * k) (s * k) = H.
Proof.
  intros Hk Ho. destruct H as [|H].
  - rewrite Nat.mul_0_r. cbn [Nat.sub Nat.mul Nat.add]. unfold kept. cbn [Nat.add]. apply Nat.div_small. nia.
  - unfold kept. symmetry. apply (Nat.div_unique _ _ _ ((s - o) * k - 1)); nia.
Qed.
Lemma move_thin w axes natoms k cell x idx fw s o f g :
  squared_move w axes natoms (s * k) (fun f b => cart cell (from_frame k x o f b)) idx fw f g
  = squared_move w axes natoms k (fun f b => cart cell (x f b)) idx fw (o + s * f) (o + s * g).
Proof.
  assert (M : moves natoms (s * k) (fun f b => cart cell (from_frame k x o f b)) idx fw f g = moves natoms k (fun f b => cart cell (x f b)) idx fw (o + s * f) (o + s * g)).
  { unfold moves, from_frame. apply map_ext. intros b. rewrite (shifted_relative natoms (fun f b => cart cell (x f b))). f_equal; lia. }
  destruct w as [| |q]; cbn [squared_move].
  - unfold square_between. f_equal. unfold moves in M. apply (f_equal (map (sqlen axes))) in M. rewrite !map_map in M. exact M.
  - unfold total_between. now rewrite M.
  - unfold charge_between. now rewrite M.
Qed.

Section Thin.
  Context {G Seed RS : Type} (X : Ext R G Seed RS).
  Context (w : analysis) (u : BootParams R) (axes : list axis) (i : interface) (circ : option (list R) -> list R -> Res R) (cell : M3 R) (types : list string) (vol : R)
    (natoms k : nat) (idx fw : list Z).
  Hypotheses (Hk : (0 < u_sub_sample_dt u)%Z) (Hb : u_block u = false) (Hn : names (pystr_text (u_dimension u)) axes) (Hq : enough_charges w idx).
  Notation moved x := (squared_move w axes natoms k (fun f b => cart cell (x f b)) idx fw).
  Lemma thin_reported s H o x a p m v : o < s -> faithful_read i circ cell types vol ((s * H - o) * k) natoms (s * k) (from_frame k x o) a p -> p_indices p = idx -> p_drift_indices p = fw -> gives X w u p m v ->
    0 < m <= H /\ v = reported H m (fun f g => moved x (o + s * f) (o + s * g)).
  Proof.
    intros Ho F E1 E2 Gv. rewrite <- E1 in Hq. destruct (gives_reported X _ _ _ _ _ _ _ _ _ _ _ _ _ _ _ _ F Hk Hb Hn Hq Gv) as [Hm ->].
    rewrite E1, E2 in *. pose proof (fr_k _ _ _ _ _ _ _ _ _ _ _ F) as K0. rewrite kept_thin in * by nia. split; [exact Hm|].
    apply ProofsUneven.reported_ext; [exact Hm|]. intros f g _ _. apply move_thin.
  Qed.
  Lemma whole_reported T x a p m v : faithful_read i circ cell types vol (T * k) natoms k x a p -> p_indices p = idx -> p_drift_indices p = fw -> gives X w u p m v ->
    0 < m <= T /\ v = reported T m (moved x).
  Proof.
    intros F E1 E2 Gv. rewrite <- E1 in Hq. destruct (gives_reported X _ _ _ _ _ _ _ _ _ _ _ _ _ _ _ _ F Hk Hb Hn Hq Gv) as [Hm ->].
    rewrite E1, E2 in *. pose proof (fr_k _ _ _ _ _ _ _ _ _ _ _ F) as K0. assert (KE : kept (T * k) k = T).
    { pose proof (kept_thin 1 T 0 k K0 ltac:(lia)) as Q. rewrite Nat.mul_1_l, Nat.sub_0_r, Nat.mul_1_l in Q. exact Q. }
    rewrite KE in *. split; [exact Hm|reflexivity].
  Qed.
  Lemma C128_identity_proof x s H aw pw vw a p v m :
    faithful_read i circ cell types vol (s * H * k) natoms k x aw pw -> p_indices pw = idx -> p_drift_indices pw = fw -> gives X w u pw (s * m) vw ->
    (forall o, o < s -> faithful_read i circ cell types vol ((s * H - o) * k) natoms (s * k) (from_frame k x o) (a o) (p o) /\ p_indices (p o) = idx /\ p_drift_indices (p o) = fw /\ gives X w u (p o) m (v o)) ->
    (INR (s * H - s * m + 1) * vw - moved x 0%nat (s * m - 1)%nat = rsum (tab s (fun o => INR (H - m + 1) * v o - moved x o (o + s * (m - 1))%nat)))%R.
  Proof.
    intros F E1 E2 Gv HT. destruct (whole_reported _ _ _ _ _ _ F E1 E2 Gv) as [Hm ->]. rewrite reported_wsum, wsum_strides by nia.
    unfold tab. f_equal. apply map_ext_in. intros o Ho. apply in_seq in Ho. destruct (HT o ltac:(lia)) as (F' & E1' & E2' & G').
    destruct (thin_reported s H o x _ _ _ _ ltac:(lia) F' E1' E2' G') as [Hm' ->]. now rewrite reported_wsum.
  Qed.
  Lemma C128_bound_proof x s H aw pw vw a p v m W :
    faithful_read i circ cell types vol (s * H * k) natoms k x aw pw -> p_indices pw = idx -> p_drift_indices pw = fw -> gives X w u pw (s * m) vw ->
    (forall o, o < s -> faithful_read i circ cell types vol ((s * H - o) * k) natoms (s * k) (from_frame k x o) (a o) (p o) /\ p_indices (p o) = idx /\ p_drift_indices (p o) = fw /\ gives X w u (p o) m (v o)) ->
    (forall f g, f <= g -> g < s * H -> (moved x f g <= W)%R) ->
    (Rabs (INR (s * H - s * m + 1) * vw - INR (H - m + 1) * rsum (tab s v)) <= INR s * W)%R.
  Proof.
    intros F E1 E2 Gv HT HW. pose proof (C128_identity_proof _ _ _ _ _ _ _ _ _ _ F E1 E2 Gv HT) as E. destruct (whole_reported _ _ _ _ _ _ F E1 E2 Gv) as [Hm _].
    assert (S0 : 0 < s) by nia. destruct (HT 0 S0) as (F' & E1' & E2' & G'). destruct (thin_reported s H 0 x _ _ _ _ S0 F' E1' E2' G') as [Hm' _].
    assert (SP : rsum (tab s (fun o => INR (H - m + 1) * v o - moved x o (o + s * (m - 1))%nat)%R) = (INR (H - m + 1) * rsum (tab s v) - rsum (tab s (fun o => moved x o (o + s * (m - 1))%nat)))%R).
    { rewrite <- rsum_scaled_tab. unfold tab. rewrite rsum_map_minus. reflexivity. }
    rewrite SP in E.
    assert (P : forall N, N <= s -> (0 <= rsum (map (fun o => moved x o (o + s * (m - 1))%nat) (seq 0 N)) <= INR N * W)%R).
    { induction N as [|N IH]; intros HN; [cbn; lra|]. rewrite seq_S, map_app, rsum_app, S_INR. cbn [map rsum Nat.add]. specialize (IH ltac:(lia)).
      pose proof (HW N (N + s * (m - 1)) (Nat.le_add_r _ _) ltac:(nia)). pose proof (move_nonneg w axes natoms k (fun f b => cart cell (x f b)) idx fw N (N + s * (m - 1))). lra. }
    specialize (P s (Nat.le_refl s)). unfold tab in *. pose proof (HW 0 (s * m - 1) ltac:(lia) ltac:(nia)) as W1. pose proof (move_nonneg w axes natoms k (fun f b => cart cell (x f b)) idx fw 0 (s * m - 1)) as W2.
    assert (M1 : (1 <= INR s)%R) by (apply (le_INR 1); lia). apply Rabs_le. assert (W <= INR s * W)%R by nra. lra.
  Qed.
  Lemma C128_diffusive_proof (E : Type) (es : list E) (wt : E -> R) (x : E -> nat -> nat -> V3 R) s H o aw pw vw a p v m c : es <> [] -> o < s ->
    (forall e, In e es -> faithful_read i circ cell types vol (s * H * k) natoms k (x e) aw (pw e) /\ p_indices (pw e) = idx /\ p_drift_indices (pw e) = fw /\ gives X w u (pw e) (s * m) (vw e)) ->
    (forall e, In e es -> faithful_read i circ cell types vol ((s * H - o) * k) natoms (s * k) (from_frame k (x e) o) a (p e) /\ p_indices (p e) = idx /\ p_drift_indices (p e) = fw /\ gives X w u (p e) m (v e)) ->
    (forall f l, f + l < s * H -> expected es wt (fun e => moved (x e) f (f + l)%nat) = (c * INR l)%R) ->
    let true_value := (c * INR (s * m))%R in
    (true_value - expected es wt vw = c / INR (s * H - s * m + 1) /\ true_value - expected es wt v = c * INR s / INR (H - m + 1)
     /\ (0 <= c -> INR s * (true_value - expected es wt vw) <= true_value - expected es wt v))%R.
  Proof.
    intros Hes Ho HW HT HB true_value. destruct es as [|e0 er] eqn:EE; [congruence|]. rewrite <- EE in *. assert (I0 : In e0 es) by (rewrite EE; now left).
    destruct (HT e0 I0) as (F & E1 & E2 & Gv). destruct (thin_reported _ _ _ _ _ _ _ _ Ho F E1 E2 Gv) as [Hm _].
    assert (P1 : (0 < INR (s * H - s * m + 1))%R) by (apply lt_0_INR; lia). assert (P2 : (0 < INR (H - m + 1))%R) by (apply lt_0_INR; lia).
    assert (L : forall T q d, 0 < q <= T -> reported T q (fun f g => d * INR (g - f))%R = (d * (INR q - 1 / INR (T - q + 1)))%R).
    { intros T q d Hq'. apply (Rmult_eq_reg_l (INR (T - q + 1))); [|apply not_0_INR; lia]. rewrite reported_wsum. unfold wsum.
      rewrite (map_ext _ (fun _ => d * INR q)%R) by (intros; f_equal; f_equal; lia). rewrite rsum_const, seq_length, Nat.sub_0_r, (minus_INR q 1), plus_INR by lia. cbn [INR].
      field. pose proof (pos_INR (T - q)). lra. }
    assert (A1 : expected es wt vw = (c * (INR (s * m) - 1 / INR (s * H - s * m + 1)))%R).
    { rewrite (ex_ext _ _ vw (fun e => reported (s * H) (s * m) (moved (x e)))) by (intros e He; destruct (HW e He) as (F' & E1' & E2' & G'); apply (whole_reported _ _ _ _ _ _ F' E1' E2' G')).
      rewrite expected_reported, <- L by nia. apply ProofsUneven.reported_ext; [nia|]. intros f g Hf Hg. pose proof (HB f (g - f) ltac:(lia)) as Q. replace (f + (g - f)) with g in Q by lia. exact Q. }
    assert (A2 : expected es wt v = (c * INR s * (INR m - 1 / INR (H - m + 1)))%R).
    { rewrite (ex_ext _ _ v (fun e => reported H m (fun f g => moved (x e) (o + s * f) (o + s * g)))) by (intros e He; destruct (HT e He) as (F' & E1' & E2' & G'); apply (thin_reported _ _ _ _ _ _ _ _ Ho F' E1' E2' G')).
      rewrite expected_reported, <- L by lia. apply ProofsUneven.reported_ext; [lia|]. intros f g Hf Hg. replace (o + s * g) with (o + s * f + s * (g - f)) by nia. rewrite HB by nia. rewrite mult_INR. ring. }
    unfold true_value. rewrite A1, A2, mult_INR. split; [field; lra|]. split; [field; lra|]. intros Hc.
    replace (INR s * (c * (INR s * INR m) - c * (INR s * INR m - 1 / INR (s * H - s * m + 1))))%R with (c * INR s * / INR (s * H - s * m + 1))%R by (field; lra).
    replace (c * (INR s * INR m) - c * INR s * (INR m - 1 / INR (H - m + 1)))%R with (c * INR s * / INR (H - m + 1))%R by (field; lra).
    apply Rmult_le_compat_l; [apply Rmult_le_pos; [exact Hc|apply pos_INR]|]. apply Rinv_le_contravar; [exact P2|]. apply le_INR. nia.
  Qed.
End Thin.

(** ** Examples: eight frames of a Li atom moving along x, every second one used *)
Definition gentle2 (s : nat -> R) : Prop := forall f, (- (1 / 2) < s (S (S f)) - s f < 1 / 2)%R.
Open Scope Z_scope.
Definition thin_params : ModelParser.Params R := hop_params 2 (PyFloat 1%R) (upto 2 2).
Lemma walk_small2 s n : gentle2 s -> small_steps n 2 2 (walk s).
Proof.
  intros H f a _ Ha. unfold walk, within_half. specialize (H (f * 2)%nat). replace (S f * 2)%nat with (S (S (f * 2))) by lia. destruct a; cbn [vx vy vz minus3 zero3]; lra.
Qed.
Lemma walk_thin_read circ s n : gentle2 s -> kept n 2 = 4%nat -> exists p,
  faithful_read Ase circ unit_cell ["Li"; "O"]%string 1%R n 2 2 (walk s) thin_params p
  /\ p_intervals p = [1; 2] /\ p_indices p = [0] /\ p_drift_indices p = [1] /\ p_delta_t p = [1; 2]%R /\ length (p_disp_3d p) = 2%nat /\ length (p_n_o p) = 2%nat
  /\ Forall (fun d => 1 < length (entries d))%nat (p_disp_3d p).
Proof.
  intros HG HN. assert (N0 : (0 < n)%nat) by (destruct n; [discriminate HN|lia]).
  assert (K : exists p, ase_parser geomspace_R circ (frames_of ["Li"; "O"]%string 1%R n 2 (walk s) (fun _ => unit_cell)) thin_params = Ok p
    /\ p_intervals p = [1; 2] /\ p_indices p = [0] /\ p_drift_indices p = [1] /\ p_delta_t p = [1; 2]%R /\ length (p_disp_3d p) = 2%nat /\ length (p_n_o p) = 2%nat
    /\ Forall (fun d => 1 < length (entries d))%nat (p_disp_3d p)).
  { rewrite (ase_run geomspace_R circ unit_cell _ _ n 2 2 (walk s) _ ["Li"%string] [0] [1])
      by (first [exact unit_cell_volume | now apply walk_small2 | lia | reflexivity]).
    unfold thin_params, upto. cbn [hop_params a_time_step pynum_val a_step_skip a_opts]. rewrite HN.
    rewrite (parser_init_ints geomspace_R 2 4 _ [0] [1] 1 2 2 "multi-origin" 8 8) by (first [repeat constructor; cbn; lia | lia]).
    change (tab _ (lin _ 2 _)) with (map Z.of_nat [1;2]%nat).
    rewrite get_disps_multi' by (repeat constructor; cbn; lia).
    assert (E' : Rltb 8 (in_gigabytes (fold_right Z.add 0 (map (estimate (length [0]) 4 8) [1;2]%nat))) = false).
    { apply Rltb_false. unfold in_gigabytes. cbn. lra. }
    rewrite E'. cbn [bind]. eexists. split; [reflexivity|]. do 3 (split; [reflexivity|]).
    split; [cbn; repeat f_equal; lra|]. split; [reflexivity|]. split; [reflexivity|]. repeat constructor. }
  destruct K as (p & H & E1 & E2 & E3 & E4). exists p. split; [|auto].
  split; try (first [exact unit_cell_volume | reflexivity | lia | now apply walk_small2]).
  - left. discriminate.
  - rewrite HN. split; unfold min_time, max_time; cbn; try lra; try lia. now left.
  - rewrite E2. repeat constructor; cbn; lia.
  - rewrite E3. repeat constructor; cbn; lia.
  - exists no_image. cbn [parser_by handed_over]. rewrite (frames_of_ext _ _ _ _ _ _ _ (no_image_id (walk s))). exact H.
Qed.
Definition step2 (s : nat -> R) (f : nat) : R := ((s (S (S f)) - s f) * (s (S (S f)) - s f))%R.
(** The value for an interval of one used frame. *)
Lemma walk_thin_gives G Seed RS (X : Ext R G Seed RS) circ (g : G) s n : gentle2 s -> kept n 2 = 4%nat -> exists p,
  faithful_read Ase circ unit_cell ["Li"; "O"]%string 1%R n 2 2 (walk s) thin_params p /\ p_indices p = [0] /\ p_drift_indices p = [1]
  /\ gives X Self (demo_boot 1 "xyz") p 1 ((step2 s 0 + step2 s 2 + step2 s 4) / 4)%R.
Proof.
  intros HG HN. destruct (walk_thin_read circ s n HG HN) as (p & F & E1 & E2 & E3 & E4 & E5 & E6 & E7). exists p. do 3 (split; [assumption|]).
  destruct (msd_total X (demo_boot 1 "xyz") (p_delta_t p) (p_disp_3d p) (p_n_o p) all_axes g eq_refl eq_refl names_xyz) as (b & B).
  { intros C. rewrite C in E5. discriminate. } { exact E7. } { rewrite E4, E5. cbn. lia. } { rewrite E5, E6. lia. }
  assert (Ht : b_dt b = [1; 2]%R) by (rewrite (dt_shown X (demo_boot 1 "xyz") _ _ _ _ _ _ eq_refl B E7), E4, E5; reflexivity).
  assert (H : diffusion_analyzer X (of_parsed p) (demo_boot 1 "xyz") g = Ok (mkAn (of_parsed p) b, g)) by (unfold diffusion_analyzer; cbn [of_parsed an_delta_t an_disp_3d an_n_o]; rewrite B; reflexivity).
  exists 0%nat, g, (mkAn (of_parsed p) b), g, 1%R. split; [exact H|]. split; [now rewrite E1|]. cbn [an_diff]. split; [now rewrite Ht|].
  destruct (C81_reported_proof X _ _ _ _ _ _ _ _ _ _ _ (demo_boot 1 "xyz") _ _ _ _ F eq_refl eq_refl names_xyz H 0%nat 1%R ltac:(cbn [an_diff]; now rewrite Ht)) as (m & D1 & _ & _ & D).
  rewrite E1 in D1. injection D1 as D1. assert (m = 1%nat) by (cbn in D1; lia). subst m. cbv zeta in D. cbn [an_diff] in D. rewrite D. f_equal.
  rewrite true_total, E2, E3, HN.
  assert (Q : forall f h, square_between all_axes 2 2 (fun f b => cart unit_cell (walk s f b)) [0] [1] f h = square_between all_axes 2 1 (fun f b => cart unit_cell (walk s f b)) [0] [1] (2 * f) (2 * h)).
  { intros f h. unfold square_between. f_equal. apply map_ext. intros z. f_equal. f_equal; lia. }
  cbn [Nat.sub seq map rsum]. rewrite !Q, !walk_square. unfold step2. cbn. field.
Qed.
(** The value of the whole run for an interval of two used frames. *)
Lemma walk_gives2 G Seed RS (X : Ext R G Seed RS) circ (g : G) s : gentle s -> exists p,
  faithful_read Ase circ unit_cell ["Li"; "O"]%string 1%R 8 2 1 (walk s) walk_params p /\ p_indices p = [0] /\ p_drift_indices p = [1]
  /\ gives X Self (demo_boot 1 "xyz") p 2 ((step2 s 0 + step2 s 1 + step2 s 2 + step2 s 3 + step2 s 4 + step2 s 5 + (s 1%nat - s 0%nat) * (s 1%nat - s 0%nat)) / 7)%R.
Proof.
  intros HG. destruct (walk_run8 G Seed RS X circ g s HG) as (p & an & F & E1 & E2 & E3 & H & Ht). exists p. do 3 (split; [assumption|]).
  exists 1%nat, g, an, g, 2%R. split; [exact H|]. split; [now rewrite E1|]. split; [now rewrite Ht|].
  destruct (C81_reported_proof X _ _ _ _ _ _ _ _ _ _ _ (demo_boot 1 "xyz") _ _ _ _ F eq_refl eq_refl names_xyz H 1%nat 2%R ltac:(now rewrite Ht)) as (m & D1 & _ & _ & D).
  rewrite E1 in D1. injection D1 as D1. assert (m = 2%nat) by (cbn in D1; lia). subst m. cbv zeta in D. rewrite D. f_equal.
  rewrite true_total, E2, E3, kept_one. cbn [Nat.sub seq map rsum]. rewrite !walk_square. unfold step2. cbn. field.
Qed.
(** A walk whose steps are below a quarter of the cell and its two thinned readings. *)
Definition calm (s : nat -> R) : Prop := forall f, (- (1 / 4) < s (S f) - s f < 1 / 4)%R.
Lemma calm_gentle s : calm s -> gentle s /\ gentle2 s.
Proof. intros H. split; intros f; pose proof (H f); pose proof (H (S f)); lra. Qed.
Lemma C128_example_proof G Seed RS (X : Ext R G Seed RS) circ (g : G) s : calm s -> exists pw p,
  faithful_read Ase circ unit_cell ["Li"; "O"]%string 1%R (2 * 4 * 1) 2 1 (walk s) walk_params pw /\ p_indices pw = [0] /\ p_drift_indices pw = [1]
  /\ gives X Self (demo_boot 1 "xyz") pw (2 * 1) ((step2 s 0 + step2 s 1 + step2 s 2 + step2 s 3 + step2 s 4 + step2 s 5 + (s 1%nat - s 0%nat) * (s 1%nat - s 0%nat)) / 7)%R
  /\ forall o, (o < 2)%nat -> faithful_read Ase circ unit_cell ["Li"; "O"]%string 1%R ((2 * 4 - o) * 1) 2 (2 * 1) (from_frame 1 (walk s) o) thin_params (p o)
       /\ p_indices (p o) = [0] /\ p_drift_indices (p o) = [1] /\ gives X Self (demo_boot 1 "xyz") (p o) 1 ((step2 s o + step2 s (o + 2) + step2 s (o + 4)) / 4)%R.
Proof.
  intros HC. destruct (calm_gentle _ HC) as [H1 H2]. assert (H3 : gentle2 (fun f => s (S f))) by (intros f; exact (H2 (S f))).
  destruct (walk_gives2 G Seed RS X circ g s H1) as (pw & Fw & I1 & I2 & Gw).
  destruct (walk_thin_gives G Seed RS X circ g s 8 H2 eq_refl) as (p0 & F0 & J1 & J2 & G0).
  destruct (walk_thin_gives G Seed RS X circ g _ 7 H3 eq_refl) as (p1 & F1 & K1 & K2 & G1).
  exists pw, (fun o => match o with O => p0 | _ => p1 end). split; [exact Fw|]. split; [exact I1|]. split; [exact I2|]. split; [exact Gw|].
  intros [|[|o]] Ho; [| |lia].
  - split; [exact F0|]. split; [exact J1|]. split; [exact J2|exact G0].
  - split; [exact F1|]. split; [exact K1|]. split; [exact K2|exact G1].
Qed.
(** The Li atom is somewhere else in one frame that is not used. *)
Definition blip (f : nat) : R := if (f =? 1)%nat then (1 / 8)%R else 0%R.
Lemma blip_calm : calm blip.
Proof. intros [|[|f]]; unfold blip; cbn; lra. Qed.
Lemma C128_refuted_proof : forall G Seed RS (X : Ext R G Seed RS) circ (g : G), exists x pw p,
  faithful_read Ase circ unit_cell ["Li"; "O"]%string 1%R 8 2 1 x walk_params pw /\ faithful_read Ase circ unit_cell ["Li"; "O"]%string 1%R 8 2 2 x thin_params p
  /\ gives X Self (demo_boot 1 "xyz") p 1 0%R /\ gives X Self (demo_boot 1 "xyz") pw 2 (1 / 224)%R.
Proof.
  intros. destruct (C128_example_proof G Seed RS X circ g blip blip_calm) as (pw & p & Fw & _ & _ & Gw & HT). destruct (HT 0%nat ltac:(lia)) as (F0 & _ & _ & G0).
  exists (walk blip), pw, (p 0%nat). split; [exact Fw|]. split; [exact F0|]. unfold step2, blip in Gw, G0. cbn in Gw, G0. split.
  - match type of G0 with gives _ _ _ _ _ ?a => replace 0%R with a by (cbn; field) end. exact G0.
  - match type of Gw with gives _ _ _ _ _ ?a => replace (1 / 224)%R with a by (cbn; field) end. exact Gw.
Qed.
(** Eight walks of seven steps of a tenth of the cell whose directions are pairwise uncorrelated. *)
Definition direction (e : bool * bool * bool) (j : nat) : R :=
  let '(a, b, c) := e in let t (d : bool) := if d then 1%R else (-1)%R in
  match j with 0%nat => t a | 1%nat => t b | 2%nat => t a * t b | 3%nat => t c | 4%nat => t a * t c | 5%nat => t b * t c | 6%nat => t a * t b * t c | _ => 0 end%R.
Fixpoint wandering (e : bool * bool * bool) (f : nat) : R := match f with O => 0%R | S j => (wandering e j + direction e j / 10)%R end.
Lemma wandering_calm e : calm (wandering e).
Proof.
  intros f. cbn [wandering]. assert (H : (-1 <= direction e f <= 1)%R); [|lra].
  destruct e as [[[] []] []]; unfold direction; do 7 (destruct f as [|f]; [lra|]); lra.
Qed.
Lemma C128_diffusive_example_proof : forall G Seed RS (X : Ext R G Seed RS) circ (g : G), exists pw vw p v,
  (forall e, In e tosses -> faithful_read Ase circ unit_cell ["Li"; "O"]%string 1%R (2 * 4 * 1) 2 1 (walk (wandering e)) walk_params (pw e)
     /\ p_indices (pw e) = [0] /\ p_drift_indices (pw e) = [1] /\ gives X Self (demo_boot 1 "xyz") (pw e) (2 * 1) (vw e))
  /\ (forall e, In e tosses -> faithful_read Ase circ unit_cell ["Li"; "O"]%string 1%R ((2 * 4 - 1) * 1) 2 (2 * 1) (from_frame 1 (walk (wandering e)) 1) thin_params (p e)
     /\ p_indices (p e) = [0] /\ p_drift_indices (p e) = [1] /\ gives X Self (demo_boot 1 "xyz") (p e) 1 (v e))
  /\ (forall f l, (f + l < 2 * 4)%nat -> expected tosses (fun _ => 1 / 8)%R
        (fun e => squared_move Self all_axes 2 1 (fun f b => cart unit_cell (walk (wandering e) f b)) [0] [1] f (f + l)) = (1 / 100 * INR l)%R).
Proof.
  intros G Seed RS X circ g.
  assert (K : forall es, exists pw vw p v, forall e, In e es ->
    (faithful_read Ase circ unit_cell ["Li"; "O"]%string 1%R (2 * 4 * 1) 2 1 (walk (wandering e)) walk_params (pw e)
     /\ p_indices (pw e) = [0] /\ p_drift_indices (pw e) = [1] /\ gives X Self (demo_boot 1 "xyz") (pw e) (2 * 1) (vw e))
    /\ (faithful_read Ase circ unit_cell ["Li"; "O"]%string 1%R ((2 * 4 - 1) * 1) 2 (2 * 1) (from_frame 1 (walk (wandering e)) 1) thin_params (p e)
     /\ p_indices (p e) = [0] /\ p_drift_indices (p e) = [1] /\ gives X Self (demo_boot 1 "xyz") (p e) 1 (v e))).
  { induction es as [|e0 es (pw & vw & p & v & IH)].
    - destruct (C128_example_proof G Seed RS X circ g _ (wandering_calm (true, true, true))) as (pw & p & _).
      exists (fun _ => pw), (fun _ => 0%R), (fun _ => pw), (fun _ => 0%R). intros e [].
    - destruct (C128_example_proof G Seed RS X circ g _ (wandering_calm e0)) as (pw0 & p0 & Fw & I1 & I2 & Gw & HT). pose proof (HT 1%nat ltac:(lia)) as H1.
      match type of Gw with gives _ _ _ _ _ ?a => set (vw0 := a) in * end. match type of H1 with _ /\ _ /\ _ /\ gives _ _ _ _ _ ?a => set (v0 := a) in * end.
      assert (D : forall e : bool * bool * bool, {e = e0} + {e <> e0}) by (intros; repeat decide equality).
      exists (fun e => if D e then pw0 else pw e), (fun e => if D e then vw0 else vw e), (fun e => if D e then p0 1%nat else p e), (fun e => if D e then v0 else v e).
      intros e He. destruct (D e) as [->|N]; [split; [exact (conj Fw (conj I1 (conj I2 Gw)))|exact H1]|]. destruct He as [He|He]; [congruence|now apply IH]. }
  destruct (K tosses) as (pw & vw & p & v & Q). exists pw, vw, p, v. split; [intros e He; apply Q, He|]. split; [intros e He; apply Q, He|].
  intros f l Hl. cbn [squared_move]. unfold expected.
  rewrite (map_ext _ (fun e => 1 / 8 * ((wandering e (f + l) - wandering e f) * (wandering e (f + l) - wandering e f)))%R) by (intros; now rewrite walk_square).
  unfold tosses. destruct f as [|[|[|[|[|[|[|[|f]]]]]]]], l as [|[|[|[|[|[|[|[|l]]]]]]]]; try (exfalso; lia); cbn [Nat.add map wandering direction rsum fold_right INR]; lra.
Qed.
