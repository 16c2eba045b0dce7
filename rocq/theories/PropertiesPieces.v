(** * PropertiesPieces: C126, a run cut into pieces *)
From Verif Require Import Base Spec SpecParser SpecStats SpecAnalyzer ModelParser ModelDiffusion ModelHdf ModelAnalyzer ProofsTraj ProofsStats SpecRun SpecTrue ProofsTrue SpecPool SpecColl SpecPieces ProofsPieces.
From Coq Require Import Reals.
Open Scope nat_scope.

(** ** C126 *)
(** A run of [x] is read whole ([pw]) and in [P] pieces ([p r], of [h r] used frames each; every piece may be stored in
    other periodic images), and all are analysed for the same atoms. For an interval of [m] frames the whole run
    reports the values of the pieces, weighted with their numbers of windows, plus at every cut the windows across it
    less one window of [m - 1] frames. *)
Theorem C126_pieces : forall G Seed RS (X : Ext R G Seed RS) w u axes i circ cell types vol natoms k x idx fw,
  (0 < u_sub_sample_dt u)%Z -> u_block u = false -> names (pystr_text (u_dimension u)) axes -> enough_charges w idx ->
  forall P h aw pw vw a p v m,
  faithful_read i circ cell types vol (start h P * k) natoms k x aw pw -> p_indices pw = idx -> p_drift_indices pw = fw -> gives X w u pw m vw ->
  0 < P -> (forall r, r < P -> faithful_read i circ cell types vol (h r * k) natoms k (piece h k x r) (a r) (p r) /\ p_indices (p r) = idx /\ p_drift_indices (p r) = fw /\ gives X w u (p r) m (v r)) ->
  let B := squared_move w axes natoms k (fun f b => cart cell (x f b)) idx fw in
  (INR (start h P - m + 1) * vw = rsum (tab P (fun r => INR (h r - m + 1) * v r)) + rsum (tab (P - 1) (fun r => lost_at m B (start h (S r)))))%R.
Proof. exact @C126_pieces_proof. Qed.
Print Assumptions C126_pieces.
(** So if no squared displacement exceeds [W], both agree up to [m W] for every cut. *)
Theorem C126_bound : forall G Seed RS (X : Ext R G Seed RS) w u axes i circ cell types vol natoms k x idx fw,
  (0 < u_sub_sample_dt u)%Z -> u_block u = false -> names (pystr_text (u_dimension u)) axes -> enough_charges w idx ->
  forall P h aw pw vw a p v m W,
  faithful_read i circ cell types vol (start h P * k) natoms k x aw pw -> p_indices pw = idx -> p_drift_indices pw = fw -> gives X w u pw m vw ->
  0 < P -> (forall r, r < P -> faithful_read i circ cell types vol (h r * k) natoms k (piece h k x r) (a r) (p r) /\ p_indices (p r) = idx /\ p_drift_indices (p r) = fw /\ gives X w u (p r) m (v r)) ->
  (forall f g, f <= g -> g < start h P -> (squared_move w axes natoms k (fun f b => cart cell (x f b)) idx fw f g <= W)%R) ->
  (Rabs (INR (start h P - m + 1) * vw - rsum (tab P (fun r => INR (h r - m + 1) * v r))) <= INR (P - 1) * (INR m * W))%R.
Proof. exact @C126_bound_proof. Qed.
Print Assumptions C126_bound.
(** Discarding the first [c] used frames (equilibration) removes the windows that begin in them, and nothing else but
    the short window at the start, which is replaced by the one at the new start. *)
Theorem C126_discard : forall G Seed RS (X : Ext R G Seed RS) w u axes i circ cell types vol natoms k x idx fw,
  (0 < u_sub_sample_dt u)%Z -> u_block u = false -> names (pystr_text (u_dimension u)) axes -> enough_charges w idx ->
  forall c l aw pw vw a p v m,
  faithful_read i circ cell types vol ((c + l) * k) natoms k x aw pw -> p_indices pw = idx -> p_drift_indices pw = fw -> gives X w u pw m vw ->
  faithful_read i circ cell types vol (l * k) natoms k (fun f b => x (c * k + f) b) a p -> p_indices p = idx -> p_drift_indices p = fw -> gives X w u p m v ->
  let B := squared_move w axes natoms k (fun f b => cart cell (x f b)) idx fw in
  (INR (c + l - m + 1) * vw = INR (l - m + 1) * v + rsum (tab c (fun f => B f (f + m)%nat)) + B 0%nat (m - 1)%nat - B c (c + m - 1)%nat)%R.
Proof. exact @C126_discard_proof. Qed.
Print Assumptions C126_discard.
(** Handing over [P] pieces of [h] used frames as replicas (dtype 'identical') instead of one run: the reported mean
    squared displacement lacks exactly what is lost at the cuts. *)
Theorem C126_replicas : forall G Seed RS (X : Ext R G Seed RS) u axes i circ cell types vol natoms k x idx fw P h aw pw vw a p v m j img d g an g' vr,
  (0 < u_sub_sample_dt u)%Z -> u_block u = false -> names (pystr_text (u_dimension u)) axes ->
  faithful_read i circ cell types vol (P * h * k) natoms k x aw pw -> p_indices pw = idx -> p_drift_indices pw = fw -> gives X Self u pw m vw -> 0 < P ->
  let part r := handed_over i cell types vol (h * k) natoms (fun f b => plus3 (x (r * h * k + f)%nat b) (ivec (img r f b))) in
  (forall r, r < P -> faithful_read i circ cell types vol (h * k) natoms k (fun f b => x (r * h * k + f) b) a (p r) /\ parser_by i geomspace_R circ (part r) a = Ok (p r)
     /\ p_indices (p r) = idx /\ p_drift_indices (p r) = fw /\ gives_at X Self u (p r) j m (v r)) ->
  from_frames (fun t => parser_by i geomspace_R circ t a) (TMulti (tab P part)) (Some "identical"%string) = Ok d ->
  diffusion_analyzer X d u g = Ok (an, g') -> nth_error (b_n (an_diff an)) j = Some vr ->
  (INR (P * h - m + 1) * vw = INR P * INR (h - m + 1) * vr
     + rsum (tab (P - 1) (fun r => lost_at m (square_between axes natoms k (fun f b => cart cell (x f b)) idx fw) (S r * h))))%R.
Proof. exact @C126_replicas_proof. Qed.
Print Assumptions C126_replicas.
(** The pieces alone do not determine the whole: both halves report no motion, the whole run does. *)
Theorem C126_average_refuted : forall G Seed RS (X : Ext R G Seed RS) circ (g : G), exists x pw p0 p1,
  faithful_read Ase circ unit_cell ["Li"; "O"]%string 1%R 8 2 1 x walk_params pw
  /\ faithful_read Ase circ unit_cell ["Li"; "O"]%string 1%R 4 2 1 x walk_params p0
  /\ faithful_read Ase circ unit_cell ["Li"; "O"]%string 1%R 4 2 1 (fun f b => x (4 + f)%nat b) walk_params p1
  /\ gives X Self (demo_boot 1 "xyz") p0 1 0%R /\ gives X Self (demo_boot 1 "xyz") p1 1 0%R /\ gives X Self (demo_boot 1 "xyz") pw 1 (1 / 128)%R.
Proof. exact C126_refuted_proof. Qed.
Print Assumptions C126_average_refuted.
(** Every walk of eight frames and its halves meet the hypotheses; the values are those of the steps. *)
Example C126_example : forall G Seed RS (X : Ext R G Seed RS) circ (g : G) s, gentle s -> exists img pw p0 p1 d an, halves X circ g s img pw p0 p1 d an.
Proof. exact halves_run. Qed.
