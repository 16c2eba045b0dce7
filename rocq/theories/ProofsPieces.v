(** * ProofsPieces: a run cut into pieces (C126) *)
From Verif Require Import Base Spec SpecParser SpecStats SpecFit SpecAnalyzer ModelParser ModelDiffusion ModelHdf ModelAnalyzer
  Lemmas ProofsDisp ProofsIntervals ProofsWindows ProofsParser ProofsTraj ProofsBoot ProofsStats ProofsStats2 ProofsFit ProofsShape ProofsAnalyzer
  SpecRun SpecSym ProofsSym SpecGrid ProofsGrid SpecPool ProofsCollective ProofsPool SpecTrue ProofsTrue SpecColl ProofsColl ProofsUnwrap ProofsChain SpecStable ProofsStable SpecNoise ProofsNoise SpecUneven ProofsUneven SpecPieces.
From Coq Require Import Reals Lra Lia.
Open Scope nat_scope.

(** ** Sums over windows *)
Definition wsum (T m : nat) (B : nat -> nat -> R) : R := (rsum (map (fun j => B j (j + m)%nat) (seq 0 (T - m))) + B 0%nat (m - 1)%nat)%R.
Lemma reported_wsum T m B : (INR (T - m + 1) * reported T m B = wsum T m B)%R.
Proof. unfold reported, wsum. rewrite over_time_total. field. apply not_0_INR. lia. Qed.
Lemma rsum_seq_shift (F : nat -> R) a l : rsum (map F (seq a l)) = rsum (map (fun j => F (a + j)) (seq 0 l)).
Proof.
  revert F a. induction l as [|l IH]; intros F a; [reflexivity|]. cbn [seq map]. rewrite !rsum_cons, (IH F (S a)), (IH (fun j => F (a + j)) 1), Nat.add_0_r. f_equal. f_equal. apply map_ext. intros j. f_equal. lia.
Qed.
Lemma wsum_join T h m B : 0 < m -> m <= T -> m <= h ->
  wsum (T + h) m B = (wsum T m B + wsum h m (fun f g => B (T + f)%nat (T + g)%nat) + lost_at m B T)%R.
Proof.
  intros H0 H1 H2. unfold wsum, lost_at, across, tab. replace (T + h - m) with ((T - m) + (m + (h - m))) by lia. rewrite !seq_app, !map_app, !rsum_app. cbn [Nat.add].
  rewrite (rsum_seq_shift _ (T - m) m), (rsum_seq_shift _ (T - m + m) (h - m)).
  rewrite (map_ext (fun j => B (T - m + j) (T - m + j + m)) (fun f => B (T - m + f) (T + f))) by (intros; f_equal; lia).
  rewrite (map_ext (fun j => B (T - m + m + j) (T - m + m + j + m)) (fun f => B (T + f) (T + (f + m)))) by (intros; f_equal; lia).
  rewrite Nat.add_0_r. replace (T + (m - 1)) with (T + m - 1) by lia. ring.
Qed.
Lemma wsum_pieces h m B P : 0 < m -> (forall r, r <= P -> m <= h r) ->
  wsum (start h (S P)) m B = (rsum (map (fun r => wsum (h r) m (fun f g => B (start h r + f)%nat (start h r + g)%nat)) (seq 0 (S P))) + rsum (map (fun r => lost_at m B (start h (S r))) (seq 0 P)))%R.
Proof.
  intros H0. induction P as [|P IH]; intros H.
  - cbn [start seq map rsum Nat.add]. rewrite !Rplus_0_r. reflexivity.
  - change (start h (S (S P))) with (start h (S P) + h (S P)).
    assert (L : m <= start h (S P)) by (cbn [start]; specialize (H P ltac:(lia)); lia).
    rewrite wsum_join by (first [exact H0 | exact L | apply H; lia]). rewrite IH by (intros; apply H; lia).
    rewrite (seq_S (S P) 0), (seq_S P 0), !map_app, !rsum_app. cbn [Nat.add map rsum]. ring.
Qed.

(** ** The analysers *)
Lemma shifted_relative natoms pos fw b c f g : relative_displacement natoms (fun f b => pos (c + f) b) fw b f g = relative_displacement natoms pos fw b (c + f) (c + g).
Proof. destruct fw; reflexivity. Qed.
Lemma move_piece w axes natoms k cell x idx fw h r f g :
  squared_move w axes natoms k (fun f b => cart cell (piece h k x r f b)) idx fw f g = squared_move w axes natoms k (fun f b => cart cell (x f b)) idx fw (start h r + f) (start h r + g).
Proof.
  assert (M : moves natoms k (fun f b => cart cell (piece h k x r f b)) idx fw f g = moves natoms k (fun f b => cart cell (x f b)) idx fw (start h r + f) (start h r + g)).
  { unfold moves, piece. apply map_ext. intros b. rewrite (shifted_relative natoms (fun f b => cart cell (x f b))). f_equal; lia. }
  destruct w as [| |q]; cbn [squared_move].
  - unfold square_between. f_equal. unfold moves in M. apply (f_equal (map (sqlen axes))) in M. rewrite !map_map in M. exact M.
  - unfold total_between. now rewrite M.
  - unfold charge_between. now rewrite M.
Qed.
Lemma move_nonneg w axes natoms k pos idx fw f g : (0 <= squared_move w axes natoms k pos idx fw f g)%R.
Proof.
  destruct w; cbn [squared_move]; unfold square_between, total_between, charge_between; try apply sqlen_nonneg.
  apply average_nonneg. apply Forall_map, Forall_forall. intros i _. apply sqlen_nonneg.
Qed.
Section Analysers.
  Context {G Seed RS : Type} (X : Ext R G Seed RS).
  Lemma gives_reported w u axes i circ cell types vol n natoms k x a p m v : faithful_read i circ cell types vol n natoms k x a p ->
    (0 < u_sub_sample_dt u)%Z -> u_block u = false -> names (pystr_text (u_dimension u)) axes -> enough_charges w (p_indices p) -> gives X w u p m v ->
    0 < m <= kept n k /\ v = reported (kept n k) m (squared_move w axes natoms k (fun f b => cart cell (x f b)) (p_indices p) (p_drift_indices p)).
  Proof.
    intros F Hk Hb Hn Hq (j & g & an & g' & t & H & E1 & E2 & E3). unfold reported.
    assert (K : exists m', nth_error (p_intervals p) (j * Z.to_nat (u_sub_sample_dt u)) = Some (Z.of_nat m') /\ 0 < m' <= kept n k
      /\ nth_error (b_n (an_diff an)) j = Some (reported (kept n k) m' (squared_move w axes natoms k (fun f b => cart cell (x f b)) (p_indices p) (p_drift_indices p)))).
    { destruct w as [| |q]; cbn [analyse squared_move] in *.
      - destruct (C81_reported_proof X _ _ _ _ _ _ _ _ _ _ _ _ _ _ _ _ F Hk Hb Hn H j t E2) as (m' & D1 & _ & D2 & D3). exists m'. auto.
      - destruct (C85_mstd_proof X _ _ _ _ _ _ _ _ _ _ _ _ _ _ _ _ F Hk Hb Hn H j t E2) as (m' & D1 & _ & D2 & D3). exists m'. auto.
      - destruct (C85_mscd_proof X _ _ _ _ _ _ _ _ _ _ _ _ _ _ _ _ F Hk Hb (fun l Hl => Hq l (f_equal Charge Hl)) H j t E2) as (m' & D1 & _ & D2 & D3). exists m'. auto. }
    destruct K as (m' & D1 & D2 & D3). rewrite E1 in D1. injection D1 as D1. apply Nat2Z.inj in D1. subst m'. split; [exact D2|]. rewrite E3 in D3. now injection D3.
  Qed.
  Context (w : analysis) (u : BootParams R) (axes : list axis) (i : interface) (circ : option (list R) -> list R -> Res R) (cell : M3 R) (types : list string) (vol : R)
    (natoms k : nat) (x : nat -> nat -> V3 R) (idx fw : list Z).
  Hypotheses (Hk : (0 < u_sub_sample_dt u)%Z) (Hb : u_block u = false) (Hn : names (pystr_text (u_dimension u)) axes) (Hq : enough_charges w idx).
  Notation B := (squared_move w axes natoms k (fun f b => cart cell (x f b)) idx fw).
  (** [p] is the reading of [T] used frames of [x] from used frame number [c] on. *)
  Lemma piece_sum h r a p m v : faithful_read i circ cell types vol (h r * k) natoms k (piece h k x r) a p -> p_indices p = idx -> p_drift_indices p = fw -> gives X w u p m v ->
    0 < m <= h r /\ (INR (h r - m + 1) * v)%R = wsum (h r) m (fun f g => B (start h r + f) (start h r + g)).
  Proof.
    intros F E1 E2 Gv. rewrite <- E1 in Hq. destruct (gives_reported _ _ _ _ _ _ _ _ _ _ _ _ _ _ _ _ F Hk Hb Hn Hq Gv) as [Hm ->].
    rewrite E1, E2 in *. pose proof (fr_k _ _ _ _ _ _ _ _ _ _ _ F) as K0. assert (KE : kept (h r * k) k = h r).
    { unfold kept. replace (h r * k + k - 1) with (k - 1 + h r * k) by lia. rewrite Nat.div_add by lia. rewrite Nat.div_small by lia. reflexivity. }
    rewrite KE in *. split; [exact Hm|]. rewrite reported_wsum. unfold wsum. rewrite !move_piece. f_equal. f_equal. apply map_ext. intros j. apply move_piece.
  Qed.
  Lemma whole_sum T a p m v : faithful_read i circ cell types vol (T * k) natoms k x a p -> p_indices p = idx -> p_drift_indices p = fw -> gives X w u p m v ->
    0 < m <= T /\ (INR (T - m + 1) * v)%R = wsum T m B.
  Proof. intros F. exact (piece_sum (fun _ => T) 0 a p m v F). Qed.
  Lemma C126_pieces_proof P h aw pw vw a p v m :
    faithful_read i circ cell types vol (start h P * k) natoms k x aw pw -> p_indices pw = idx -> p_drift_indices pw = fw -> gives X w u pw m vw ->
    0 < P -> (forall r, r < P -> faithful_read i circ cell types vol (h r * k) natoms k (piece h k x r) (a r) (p r) /\ p_indices (p r) = idx /\ p_drift_indices (p r) = fw /\ gives X w u (p r) m (v r)) ->
    (INR (start h P - m + 1) * vw = rsum (tab P (fun r => INR (h r - m + 1) * v r)) + rsum (tab (P - 1) (fun r => lost_at m B (start h (S r)))))%R.
  Proof.
    intros F E1 E2 Gv HP H. destruct (whole_sum _ _ _ _ _ F E1 E2 Gv) as [Hm ->]. destruct P as [|P]; [lia|].
    assert (HH : forall r, r < S P -> 0 < m <= h r /\ (INR (h r - m + 1) * v r)%R = wsum (h r) m (fun f g => B (start h r + f) (start h r + g))).
    { intros r Hr. destruct (H r Hr) as (F' & E1' & E2' & G'). exact (piece_sum _ _ _ _ _ _ F' E1' E2' G'). }
    rewrite wsum_pieces; [|lia|intros r Hr; destruct (HH r ltac:(lia)); lia]. unfold tab. replace (S P - 1) with P by lia. f_equal. f_equal. apply map_ext_in. intros r Hr. apply in_seq in Hr.
    destruct (HH r ltac:(lia)) as [_ ->]. reflexivity.
  Qed.
  Lemma C126_discard_proof c l aw pw vw a p v m :
    faithful_read i circ cell types vol ((c + l) * k) natoms k x aw pw -> p_indices pw = idx -> p_drift_indices pw = fw -> gives X w u pw m vw ->
    faithful_read i circ cell types vol (l * k) natoms k (fun f b => x (c * k + f) b) a p -> p_indices p = idx -> p_drift_indices p = fw -> gives X w u p m v ->
    (INR (c + l - m + 1) * vw = INR (l - m + 1) * v + rsum (tab c (fun f => B f (f + m)%nat)) + B 0%nat (m - 1)%nat - B c (c + m - 1)%nat)%R.
  Proof.
    intros F E1 E2 Gv F' E1' E2' G'. destruct (whole_sum _ _ _ _ _ F E1 E2 Gv) as [Hm ->].
    destruct (piece_sum (fun r => match r with O => c | _ => l end) 1 a p m v F' E1' E2' G') as [Hm' E]. cbn [start Nat.add] in E. rewrite E.
    unfold wsum, tab. replace (c + l - m) with (c + (l - m)) by lia. rewrite seq_app, map_app, rsum_app. cbn [Nat.add]. rewrite (rsum_seq_shift _ c (l - m)).
    rewrite (map_ext (fun j => B (c + j) (c + j + m)) (fun j => B (c + j) (c + (j + m)))) by (intros; f_equal; lia).
    rewrite Nat.add_0_r. replace (c + (m - 1)) with (c + m - 1) by lia. ring.
  Qed.
  Lemma lost_bound T m c W : 0 < m -> m <= c -> c + m <= T -> (forall f g, f <= g -> g < T -> (B f g <= W)%R) -> (Rabs (lost_at m B c) <= INR m * W)%R.
  Proof.
    intros Hm Hc HT HW. unfold lost_at, across, tab.
    assert (P : forall N, N <= m -> (0 <= rsum (map (fun f => B (c - m + f) (c + f)) (seq 0 N)) <= INR N * W)%R).
    { induction N as [|N IH]; intros HN; [cbn; lra|]. rewrite seq_S, map_app, rsum_app, S_INR. cbn [map rsum Nat.add]. specialize (IH ltac:(lia)).
      pose proof (HW (c - m + N) (c + N) ltac:(lia) ltac:(lia)). pose proof (move_nonneg w axes natoms k (fun f b => cart cell (x f b)) idx fw (c - m + N) (c + N)). lra. }
    specialize (P m (Nat.le_refl m)). pose proof (HW c (c + m - 1) ltac:(lia) ltac:(lia)) as W1. pose proof (move_nonneg w axes natoms k (fun f b => cart cell (x f b)) idx fw c (c + m - 1)) as W2.
    assert (M1 : (1 <= INR m)%R) by (apply (le_INR 1); lia). apply Rabs_le. assert (W <= INR m * W)%R by nra. lra.
  Qed.
  Lemma C126_bound_proof P h aw pw vw a p v m W :
    faithful_read i circ cell types vol (start h P * k) natoms k x aw pw -> p_indices pw = idx -> p_drift_indices pw = fw -> gives X w u pw m vw ->
    0 < P -> (forall r, r < P -> faithful_read i circ cell types vol (h r * k) natoms k (piece h k x r) (a r) (p r) /\ p_indices (p r) = idx /\ p_drift_indices (p r) = fw /\ gives X w u (p r) m (v r)) ->
    (forall f g, f <= g -> g < start h P -> (B f g <= W)%R) ->
    (Rabs (INR (start h P - m + 1) * vw - rsum (tab P (fun r => INR (h r - m + 1) * v r))) <= INR (P - 1) * (INR m * W))%R.
  Proof.
    intros F E1 E2 Gv HP H HW. rewrite (C126_pieces_proof _ _ _ _ _ _ _ _ _ F E1 E2 Gv HP H). match goal with |- (Rabs (?a + ?b - ?a) <= _)%R => replace (a + b - a)%R with b by ring end.
    assert (HH : forall r, r < P -> 0 < m <= h r).
    { intros r Hr. destruct (H r Hr) as (F' & E1' & E2' & G'). exact (proj1 (piece_sum _ _ _ _ _ _ F' E1' E2' G')). }
    assert (SM : forall q r, start h r <= start h (r + q)) by (induction q as [|q IH]; intros r; [rewrite Nat.add_0_r; lia|rewrite <- plus_n_Sm; cbn [start]; specialize (IH r); lia]).
    unfold tab. assert (Q : forall N, N <= P - 1 -> (Rabs (rsum (map (fun r => lost_at m B (start h (S r))) (seq 0 N))) <= INR N * (INR m * W))%R).
    { induction N as [|N IH]; intros HN; [cbn; rewrite Rabs_R0; lra|]. rewrite seq_S, map_app, rsum_app, S_INR. cbn [map rsum Nat.add]. rewrite Rplus_0_r.
      eapply Rle_trans; [apply Rabs_triang|]. specialize (IH ltac:(lia)).
      assert (L : (Rabs (lost_at m B (start h (S N))) <= INR m * W)%R).
      { apply (lost_bound (start h P)); [apply (HH 0); lia| | |exact HW].
        - cbn [start]. pose proof (HH N ltac:(lia)). lia.
        - pose proof (SM (P - S (S N)) (S (S N))) as Q. replace (S (S N) + (P - S (S N))) with P in Q by lia. cbn [start] in *. pose proof (HH (S N) ltac:(lia)). lia. }
      lra. }
    now apply Q.
  Qed.
End Analysers.

(** ** Pieces handed over as replicas *)
Lemma Forall2_map_seq {S T} (Q : S -> T -> Prop) (f : nat -> S) (h : nat -> T) a l : (forall r, a <= r < a + l -> Q (f r) (h r)) -> Forall2 Q (map f (seq a l)) (map h (seq a l)).
Proof. revert a. induction l as [|l IH]; intros a H; [constructor|]. cbn [seq map]. constructor; [apply H; lia|]. apply IH. intros r Hr. apply H. lia. Qed.
Lemma handed_types i cell types vol n natoms y : map f_types (handed_over i cell types vol n natoms y) = tab n (fun _ => types).
Proof. destruct i; cbn [handed_over]; unfold frames_of, tab; rewrite map_map; reflexivity. Qed.
Lemma rsum_scaled_tab c P (v : nat -> R) : rsum (tab P (fun r => c * v r)%R) = (c * rsum (tab P v))%R.
Proof. unfold tab. apply rsum_map_scal. Qed.
Lemma C126_replicas_proof {G Seed RS} (X : Ext R G Seed RS) u axes i circ cell types vol natoms k x idx fw P h aw pw vw a p v m j img d g an g' vr :
  (0 < u_sub_sample_dt u)%Z -> u_block u = false -> names (pystr_text (u_dimension u)) axes ->
  faithful_read i circ cell types vol (P * h * k) natoms k x aw pw -> p_indices pw = idx -> p_drift_indices pw = fw -> gives X Self u pw m vw -> 0 < P ->
  let part r := handed_over i cell types vol (h * k) natoms (fun f b => plus3 (x (r * h * k + f)%nat b) (ivec (img r f b))) in
  (forall r, r < P -> faithful_read i circ cell types vol (h * k) natoms k (fun f b => x (r * h * k + f) b) a (p r) /\ parser_by i geomspace_R circ (part r) a = Ok (p r)
     /\ p_indices (p r) = idx /\ p_drift_indices (p r) = fw /\ gives_at X Self u (p r) j m (v r)) ->
  from_frames (fun t => parser_by i geomspace_R circ t a) (TMulti (tab P part)) (Some "identical"%string) = Ok d ->
  diffusion_analyzer X d u g = Ok (an, g') -> nth_error (b_n (an_diff an)) j = Some vr ->
  (INR (P * h - m + 1) * vw = INR P * INR (h - m + 1) * vr
     + rsum (tab (P - 1) (fun r => lost_at m (square_between axes natoms k (fun f b => cart cell (x f b)) idx fw) (S r * h))))%R.
Proof.
  intros Hk Hb Hn F E1 E2 Gv HP part H HD HA HV.
  assert (SE : forall r, start (fun _ => h) r = r * h) by (induction r as [|r IH]; cbn [start]; [reflexivity|rewrite IH; lia]).
  assert (Hq : enough_charges Self idx) by (intros l C; discriminate C).
  pose proof (C126_pieces_proof X Self u axes i circ cell types vol natoms k x idx fw Hk Hb Hn Hq P (fun _ => h) aw pw vw (fun _ => a) p v m) as C. rewrite SE in C.
  specialize (C F E1 E2 Gv HP). cbn [squared_move] in C. rewrite rsum_scaled_tab in C.
  rewrite C.
  2:{ intros r Hr. destruct (H r Hr) as (F' & _ & E1' & E2' & G'). unfold piece. rewrite SE. split; [exact F'|]. split; [exact E1'|]. split; [exact E2'|]. now exists j. }
  f_equal.
  - assert (K : nth_error (b_n (an_diff an)) j = Some (average (tab P v))).
    { eapply (C23_average_proof X (parser_by i) geomspace_R circ a (part 0) (tab P part) (tab P p) d u g an g' j (tab P v)); try assumption.
      - destruct i; cbn; auto.
      - destruct P; [lia|]. discriminate.
      - apply Forall_forall. intros t Ht. unfold tab in Ht. apply in_map_iff in Ht as (r & <- & _). unfold alike, part. now rewrite !handed_types.
      - apply Forall2_map_seq. intros r Hr. destruct (H r ltac:(lia)) as (_ & Hp & _). exact Hp.
      - apply Forall2_map_seq. intros r Hr. destruct (H r ltac:(lia)) as (_ & Hp & _ & _ & (g0 & an0 & g0' & t0 & A0 & _ & _ & A3)).
        exists (of_parsed (p r)), an0, g0, g0'. split; [|auto]. unfold from_frames. rewrite Hp. reflexivity. }
    rewrite HV in K. injection K as ->. unfold average. rewrite tab_length. assert (INR P <> 0%R) by (apply not_0_INR; lia). field. assumption.
  - unfold tab. f_equal. apply map_ext. intros r. now rewrite SE.
Qed.

(** ** Examples: eight frames of a Li atom moving along x, cut in halves *)
Open Scope Z_scope.
Lemma walk_read8 circ s : gentle s -> exists p,
  faithful_read Ase circ unit_cell ["Li"; "O"]%string 1%R 8 2 1 (walk s) walk_params p
  /\ p_intervals p = [1; 2] /\ p_indices p = [0] /\ p_drift_indices p = [1] /\ p_delta_t p = [1; 2]%R /\ length (p_disp_3d p) = 2%nat /\ length (p_n_o p) = 2%nat
  /\ Forall (fun d => 1 < length (entries d))%nat (p_disp_3d p) /\ Forall (fun d => 1 < a_obs d)%nat (p_disp_3d p).
Proof.
  intros HG.
  assert (K : exists p, ase_parser geomspace_R circ (frames_of ["Li"; "O"]%string 1%R 8 2 (walk s) (fun _ => unit_cell)) walk_params = Ok p
    /\ p_intervals p = [1; 2] /\ p_indices p = [0] /\ p_drift_indices p = [1] /\ p_delta_t p = [1; 2]%R /\ length (p_disp_3d p) = 2%nat /\ length (p_n_o p) = 2%nat
    /\ Forall (fun d => 1 < length (entries d))%nat (p_disp_3d p) /\ Forall (fun d => 1 < a_obs d)%nat (p_disp_3d p)).
  { rewrite (ase_run geomspace_R circ unit_cell _ _ 8 2 1 (walk s) _ ["Li"%string] [0] [1])
      by (first [exact unit_cell_volume | now apply walk_small | lia | reflexivity]).
    unfold walk_params, upto. cbn [hop_params a_time_step pynum_val a_step_skip a_opts]. rewrite kept_one.
    rewrite (parser_init_ints geomspace_R 2 8 _ [0] [1] 1 2 2 "multi-origin" 8 8) by (first [repeat constructor; cbn; lia | lia]).
    change (tab _ (lin _ 2 _)) with (map Z.of_nat [1;2]%nat).
    rewrite get_disps_multi' by (repeat constructor; cbn; lia).
    assert (E' : Rltb 8 (in_gigabytes (fold_right Z.add 0 (map (estimate (length [0]) 8 8) [1;2]%nat))) = false).
    { apply Rltb_false. unfold in_gigabytes. cbn. lra. }
    rewrite E'. cbn [bind]. eexists. split; [reflexivity|]. do 3 (split; [reflexivity|]).
    split; [cbn; repeat f_equal; lra|]. split; [reflexivity|]. split; [reflexivity|]. split; repeat constructor. }
  destruct K as (p & H & E1 & E2 & E3 & E4). exists p. split; [|auto].
  split; try (first [exact unit_cell_volume | reflexivity | lia | now apply walk_small]).
  - left. discriminate.
  - rewrite kept_one. split; unfold min_time, max_time; cbn; try lra; try lia. now left.
  - rewrite E2. repeat constructor; cbn; lia.
  - rewrite E3. repeat constructor; cbn; lia.
  - exists no_image. cbn [parser_by handed_over]. rewrite (frames_of_ext _ _ _ _ _ _ _ (no_image_id (walk s))). exact H.
Qed.
Lemma walk_run8 G Seed RS (X : Ext R G Seed RS) circ (g : G) s : gentle s -> exists p an,
  faithful_read Ase circ unit_cell ["Li"; "O"]%string 1%R 8 2 1 (walk s) walk_params p
  /\ p_intervals p = [1; 2] /\ p_indices p = [0] /\ p_drift_indices p = [1]
  /\ diffusion_analyzer X (of_parsed p) (demo_boot 1 "xyz") g = Ok (an, g) /\ b_dt (an_diff an) = [1; 2]%R.
Proof.
  intros HG. destruct (walk_read8 circ s HG) as (p & F & E1 & E2 & E3 & E4 & E5 & E6 & E7 & _). exists p.
  destruct (msd_total X (demo_boot 1 "xyz") (p_delta_t p) (p_disp_3d p) (p_n_o p) all_axes g eq_refl eq_refl names_xyz) as (b & B).
  { intros C. rewrite C in E5. discriminate. } { exact E7. } { rewrite E4, E5. cbn. lia. } { rewrite E5, E6. lia. }
  exists (mkAn (of_parsed p) b). split; [exact F|]. do 3 (split; [assumption|]). split.
  - unfold diffusion_analyzer. cbn [of_parsed an_delta_t an_disp_3d an_n_o]. rewrite B. reflexivity.
  - cbn [an_diff]. rewrite (dt_shown X (demo_boot 1 "xyz") _ _ _ _ _ _ eq_refl B E7), E4, E5. reflexivity.
Qed.
Lemma walk_gives G Seed RS (X : Ext R G Seed RS) circ (g : G) s n p an : faithful_read Ase circ unit_cell ["Li"; "O"]%string 1%R n 2 1 (walk s) walk_params p ->
  p_intervals p = [1; 2] -> p_indices p = [0] -> p_drift_indices p = [1] -> diffusion_analyzer X (of_parsed p) (demo_boot 1 "xyz") g = Ok (an, g) -> b_dt (an_diff an) = [1; 2]%R ->
  gives_at X Self (demo_boot 1 "xyz") p 0 1 (rsum (map (fun j => (s (S j) - s j) * (s (S j) - s j))%R (seq 0 (n - 1))) / INR n)%R.
Proof.
  intros F E1 E2 E3 H Ht. exists g, an, g, 1%R. split; [exact H|]. split; [now rewrite E1|]. split; [now rewrite Ht|].
  destruct (C81_reported_proof X _ _ _ _ _ _ _ _ _ _ _ (demo_boot 1 "xyz") _ _ _ _ F eq_refl eq_refl names_xyz H 0%nat 1%R ltac:(now rewrite Ht)) as (m & D1 & _ & Hm & D).
  rewrite E1 in D1. injection D1 as D1. assert (m = 1%nat) by (cbn in D1; lia). subst m. cbv zeta in D. rewrite D. f_equal.
  rewrite true_total, E2, E3, kept_one in *. rewrite walk_square. replace (n - 1 + 1)%nat with n by lia.
  rewrite (map_ext _ (fun j => (s (S j) - s j) * (s (S j) - s j))%R) by (intros; rewrite walk_square, Nat.add_1_r; reflexivity).
  cbn [Nat.sub]. unfold Rdiv. f_equal. ring.
Qed.
Lemma walk_more G Seed RS (X : Ext R G Seed RS) circ (g : G) s : gentle s -> exists p an, walked X circ g s p an
  /\ p_delta_t p = [1; 2]%R /\ length (p_disp_3d p) = 2%nat /\ length (p_n_o p) = 2%nat /\ Forall (fun d => 1 < length (entries d))%nat (p_disp_3d p).
Proof.
  intros HG. destruct (walk_read circ s HG) as (p & F & E1 & E2 & E3 & E4 & E5 & E6 & E7 & _). exists p.
  destruct (msd_total X (demo_boot 1 "xyz") (p_delta_t p) (p_disp_3d p) (p_n_o p) all_axes g eq_refl eq_refl names_xyz) as (b & B).
  { intros C. rewrite C in E5. discriminate. } { exact E7. } { rewrite E4, E5. cbn. lia. } { rewrite E5, E6. lia. }
  exists (mkAn (of_parsed p) b). split; [|auto]. split; [exact F|]. do 3 (split; [assumption|]). split.
  - unfold diffusion_analyzer. cbn [of_parsed an_delta_t an_disp_3d an_n_o]. rewrite B. reflexivity.
  - cbn [an_diff]. rewrite (dt_shown X (demo_boot 1 "xyz") _ _ _ _ _ _ eq_refl B E7), E4, E5. reflexivity.
Qed.
(** A walk of eight frames and its halves, read and analysed one by one and as replicas. *)
Definition halves {G Seed RS} (X : Ext R G Seed RS) circ (g : G) (s : nat -> R) (img : nat -> nat -> nat -> V3 Z) (pw p0 p1 : Parsed R) (d : AnalyzerData R) (an : Analyzer R) : Prop :=
  let half r := fun f b => walk s (r * 4 * 1 + f) b in
  let part r := handed_over Ase unit_cell ["Li"; "O"]%string 1%R (4 * 1) 2 (fun f b => plus3 (half r f b) (ivec (img r f b))) in
  let v r := (rsum (map (fun j => (s (S (r * 4 + j)) - s (r * 4 + j)%nat) * (s (S (r * 4 + j)) - s (r * 4 + j)%nat))%R (seq 0 3)) / 4)%R in
  faithful_read Ase circ unit_cell ["Li"; "O"]%string 1%R (2 * 4 * 1) 2 1 (walk s) walk_params pw /\ p_indices pw = [0] /\ p_drift_indices pw = [1]
  /\ gives_at X Self (demo_boot 1 "xyz") pw 0 1 (rsum (map (fun j => (s (S j) - s j) * (s (S j) - s j))%R (seq 0 7)) / 8)%R
  /\ (faithful_read Ase circ unit_cell ["Li"; "O"]%string 1%R (4 * 1) 2 1 (half 0%nat) walk_params p0 /\ ase_parser geomspace_R circ (part 0%nat) walk_params = Ok p0
       /\ p_indices p0 = [0] /\ p_drift_indices p0 = [1] /\ gives_at X Self (demo_boot 1 "xyz") p0 0 1 (v 0%nat))
  /\ (faithful_read Ase circ unit_cell ["Li"; "O"]%string 1%R (4 * 1) 2 1 (half 1%nat) walk_params p1 /\ ase_parser geomspace_R circ (part 1%nat) walk_params = Ok p1
       /\ p_indices p1 = [0] /\ p_drift_indices p1 = [1] /\ gives_at X Self (demo_boot 1 "xyz") p1 0 1 (v 1%nat))
  /\ from_frames (fun t => ase_parser geomspace_R circ t walk_params) (TMulti [part 0%nat; part 1%nat]) (Some "identical"%string) = Ok d
  /\ diffusion_analyzer X d (demo_boot 1 "xyz") g = Ok (an, g) /\ nth_error (b_n (an_diff an)) 0 = Some ((v 0%nat + v 1%nat) / 2)%R.
Lemma halves_run G Seed RS (X : Ext R G Seed RS) circ (g : G) s : gentle s -> exists img pw p0 p1 d an, halves X circ g s img pw p0 p1 d an.
Proof.
  intros HG. assert (H1 : gentle (fun f => s (4 + f)%nat)) by (intros f; cbn [Nat.add]; apply HG).
  destruct (walk_run8 G Seed RS X circ g s HG) as (pw & anw & Fw & I1 & I2 & I3 & Aw & Tw).
  destruct (walk_more G Seed RS X circ g s HG) as (p0 & an0 & (F0 & J1 & J2 & J3 & A0 & T0) & J4 & J5 & J6 & J7).
  destruct (walk_more G Seed RS X circ g _ H1) as (p1 & an1 & (F1 & K1 & K2 & K3 & A1 & T1) & K4 & K5 & K6 & K7).
  destruct (fr_read _ _ _ _ _ _ _ _ _ _ _ F0) as (img0 & R0). destruct (fr_read _ _ _ _ _ _ _ _ _ _ _ F1) as (img1 & R1). cbn [parser_by] in R0, R1.
  pose proof (walk_gives _ _ _ X circ g s 8 pw anw Fw I1 I2 I3 Aw Tw) as Gw. pose proof (walk_gives _ _ _ X circ g s 4 p0 an0 F0 J1 J2 J3 A0 T0) as G0.
  pose proof (walk_gives _ _ _ X circ g _ 4 p1 an1 F1 K1 K2 K3 A1 T1) as G1. cbn [Nat.sub] in Gw, G0, G1.
  replace (INR 8) with 8%R in Gw by (cbn; lra). replace (INR 4) with 4%R in G0, G1 by (cbn; lra).
  set (img := fun r : nat => match r with O => img0 | _ => img1 end).
  set (half := fun (r : nat) f b => walk s (r * 4 * 1 + f) b).
  set (part := fun r : nat => handed_over Ase unit_cell ["Li"; "O"]%string 1%R (4 * 1) 2 (fun f b => plus3 (half r f b) (ivec (img r f b)))).
  assert (Q0 : ase_parser geomspace_R circ (part 0%nat) walk_params = Ok p0) by exact R0.
  assert (Q1 : ase_parser geomspace_R circ (part 1%nat) walk_params = Ok p1) by exact R1.
  assert (FF : Forall2 (fun t p => ase_parser geomspace_R circ t walk_params = Ok p) [part 0%nat; part 1%nat] [p0; p1]) by (constructor; [exact Q0|constructor; [exact Q1|constructor]]).
  assert (AL : Forall (alike (part 0%nat)) [part 0%nat; part 1%nat]) by (repeat constructor).
  destruct (replicas_shape ase_parser geomspace_R circ walk_params (part 0%nat) [part 0%nat; part 1%nat] [p0; p1] ltac:(now left) AL FF) as [SH _].
  destruct (identical_stacks (fun t => ase_parser geomspace_R circ t walk_params) _ _ FF ltac:(discriminate) SH) as (d & D & ST).
  pose proof (Forall_inv (st_length _ _ ST)) as [L1 L2]. pose proof (st_times _ _ ST) as L3. cbn [map hd_error] in L3. injection L3 as L3.
  assert (EN : Forall (fun d => 1 < length (entries d))%nat (an_disp_3d d)).
  { apply Forall_forall. intros ar Har. apply In_nth_error in Har as (q & Hq). assert (Lq : (q < length (p_disp_3d p0))%nat) by (rewrite <- L1; apply nth_error_Some; congruence).
    destruct (nth_error (p_disp_3d p0) q) as [d0|] eqn:Q2; [|apply nth_error_None in Q2; lia].
    destruct (nth_error (p_disp_3d p1) q) as [d1|] eqn:Q3; [|apply nth_error_None in Q3; lia].
    destruct (st_arrays _ _ ST q [d0; d1]) as (ar' & Q4 & Q5 & _); [constructor; [exact Q2|constructor; [exact Q3|constructor]]|].
    assert (ar' = ar) by congruence. subst ar'. unfold entries. rewrite Q5. cbn [map List.concat]. rewrite concat_app, app_length.
    apply nth_error_In in Q2. rewrite Forall_forall in J7. specialize (J7 _ Q2). unfold entries in J7. lia. }
  destruct (msd_total X (demo_boot 1 "xyz") (an_delta_t d) (an_disp_3d d) (an_n_o d) all_axes g eq_refl eq_refl names_xyz) as (b & B).
  { intros C. rewrite C in L1. cbn in L1. lia. } { exact EN. } { rewrite <- L3, J4, L1, J5. cbn. lia. } { rewrite L1, L2, J5, J6. lia. }
  assert (AN : diffusion_analyzer X d (demo_boot 1 "xyz") g = Ok (mkAn d b, g)) by (unfold diffusion_analyzer; rewrite B; reflexivity).
  exists img, pw, p0, p1, d, (mkAn d b). unfold halves. cbv zeta.
  change (from_frames (fun t => ase_parser geomspace_R circ t walk_params) (TMulti [part 0%nat; part 1%nat]) (Some "identical"%string) = Ok d) in D.
  split; [exact Fw|]. split; [exact I2|]. split; [exact I3|]. split; [exact Gw|].
  split; [exact (conj F0 (conj Q0 (conj J2 (conj J3 G0))))|]. split; [exact (conj F1 (conj Q1 (conj K2 (conj K3 G1))))|]. split; [exact D|]. split; [exact AN|].
  destruct G0 as (z0 & b0 & z0' & t0 & V0 & _ & _ & W0). destruct G1 as (z1 & b1 & z1' & t1 & V1 & _ & _ & W1). cbn [analyse] in V0, V1.
  match type of W0 with _ = Some ?a => match type of W1 with _ = Some ?c => set (v0 := a) in *; set (v1 := c) in * end end.
  rewrite (C23_average_proof X ase_parser geomspace_R circ walk_params (part 0%nat) [part 0%nat; part 1%nat] [p0; p1] d (demo_boot 1 "xyz") g (mkAn d b) g 0 [v0; v1]
    ltac:(now left) ltac:(discriminate) AL FF eq_refl eq_refl D AN).
  - unfold average. cbn [rsum length INR]. change (Some ((v0 + (v1 + 0)) / (1 + 1))%R = Some ((v0 + v1) / 2)%R). f_equal. field.
  - constructor; [|constructor; [|constructor]].
    + exists (of_parsed p0), b0, z0, z0'. split; [unfold from_frames; rewrite Q0; reflexivity|auto].
    + exists (of_parsed p1), b1, z1, z1'. split; [unfold from_frames; rewrite Q1; reflexivity|auto].
Qed.
(** The Li atom rests, moves once between the halves, and rests again. *)
Definition one_jump (f : nat) : R := if (f <? 4)%nat then 0%R else (1 / 4)%R.
Lemma one_jump_gentle : gentle one_jump.
Proof. intros f. unfold one_jump. destruct (Nat.ltb_spec (S f) 4), (Nat.ltb_spec f 4); try lra; lia. Qed.
Lemma C126_refuted_proof : forall G Seed RS (X : Ext R G Seed RS) circ (g : G), exists x pw p0 p1,
  faithful_read Ase circ unit_cell ["Li"; "O"]%string 1%R 8 2 1 x walk_params pw
  /\ faithful_read Ase circ unit_cell ["Li"; "O"]%string 1%R 4 2 1 x walk_params p0
  /\ faithful_read Ase circ unit_cell ["Li"; "O"]%string 1%R 4 2 1 (fun f b => x (4 + f)%nat b) walk_params p1
  /\ gives X Self (demo_boot 1 "xyz") p0 1 0%R /\ gives X Self (demo_boot 1 "xyz") p1 1 0%R /\ gives X Self (demo_boot 1 "xyz") pw 1 (1 / 128)%R.
Proof.
  intros. destruct (halves_run G Seed RS X circ g one_jump one_jump_gentle) as (img & pw & p0 & p1 & d & an & Fw & _ & _ & Gw & (F0 & _ & _ & _ & G0) & (F1 & _ & _ & _ & G1) & _).
  exists (walk one_jump), pw, p0, p1. split; [exact Fw|]. split; [exact F0|]. split; [exact F1|]. unfold one_jump in Gw, G0, G1. cbn in Gw, G0, G1.
  split; [|split].
  - exists 0%nat. match type of G0 with gives_at _ _ _ _ _ _ ?a => replace 0%R with a by (cbn; field) end. exact G0.
  - exists 0%nat. match type of G1 with gives_at _ _ _ _ _ _ ?a => replace 0%R with a by (cbn; field) end. exact G1.
  - exists 0%nat. match type of Gw with gives_at _ _ _ _ _ _ ?a => replace (1 / 128)%R with a by (cbn; field) end. exact Gw.
Qed.
