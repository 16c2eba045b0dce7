(** * PropertiesThin: C128, a run of which only every s-th frame is used *)
From Verif Require Import Base Spec SpecParser SpecStats SpecAnalyzer ModelParser ModelDiffusion ModelHdf ModelAnalyzer ProofsTraj ProofsStats SpecRun SpecTrue ProofsTrue SpecPool SpecColl SpecNoise SpecPieces ProofsPieces SpecThin ProofsThin.
From Coq Require Import Reals.
Open Scope nat_scope.

(** ** C128 *)
(** A run of [s * H] used frames is read whole ([pw]) and [s] times with only every [s]-th used frame, from the
    [o]-th on ([p o]). For an interval of [s * m] frames the whole run reports the values of the thinned runs for [m]
    of theirs, weighted with the numbers of windows, once the window at the very start that each of them counts
    in addition (C81) is taken off. *)
Theorem C128_identity : forall G Seed RS (X : Ext R G Seed RS) w u axes i circ cell types vol natoms k idx fw,
  (0 < u_sub_sample_dt u)%Z -> u_block u = false -> names (pystr_text (u_dimension u)) axes -> enough_charges w idx ->
  forall x s H aw pw vw a p v m,
  faithful_read i circ cell types vol (s * H * k) natoms k x aw pw -> p_indices pw = idx -> p_drift_indices pw = fw -> gives X w u pw (s * m) vw ->
  (forall o, o < s -> faithful_read i circ cell types vol ((s * H - o) * k) natoms (s * k) (from_frame k x o) (a o) (p o) /\ p_indices (p o) = idx /\ p_drift_indices (p o) = fw /\ gives X w u (p o) m (v o)) ->
  let B := squared_move w axes natoms k (fun f b => cart cell (x f b)) idx fw in
  (INR (s * H - s * m + 1) * vw - B 0%nat (s * m - 1)%nat = rsum (tab s (fun o => INR (H - m + 1) * v o - B o (o + s * (m - 1))%nat)))%R.
Proof. exact @C128_identity_proof. Qed.
Print Assumptions C128_identity.
(** So if no squared displacement exceeds [W], the weighted values agree up to [s W]. *)
Theorem C128_bound : forall G Seed RS (X : Ext R G Seed RS) w u axes i circ cell types vol natoms k idx fw,
  (0 < u_sub_sample_dt u)%Z -> u_block u = false -> names (pystr_text (u_dimension u)) axes -> enough_charges w idx ->
  forall x s H aw pw vw a p v m W,
  faithful_read i circ cell types vol (s * H * k) natoms k x aw pw -> p_indices pw = idx -> p_drift_indices pw = fw -> gives X w u pw (s * m) vw ->
  (forall o, o < s -> faithful_read i circ cell types vol ((s * H - o) * k) natoms (s * k) (from_frame k x o) (a o) (p o) /\ p_indices (p o) = idx /\ p_drift_indices (p o) = fw /\ gives X w u (p o) m (v o)) ->
  (forall f g, f <= g -> g < s * H -> (squared_move w axes natoms k (fun f b => cart cell (x f b)) idx fw f g <= W)%R) ->
  (Rabs (INR (s * H - s * m + 1) * vw - INR (H - m + 1) * rsum (tab s v)) <= INR s * W)%R.
Proof. exact @C128_bound_proof. Qed.
Print Assumptions C128_bound.
(** For diffusion (mean square [c] per used frame of the whole run) both report too little on average. Thinning
    enlarges the shortfall, at least [s]-fold, however many runs are averaged. *)
Theorem C128_diffusive : forall G Seed RS (X : Ext R G Seed RS) w u axes i circ cell types vol natoms k idx fw,
  (0 < u_sub_sample_dt u)%Z -> u_block u = false -> names (pystr_text (u_dimension u)) axes -> enough_charges w idx ->
  forall (E : Type) (es : list E) (wt : E -> R) (x : E -> nat -> nat -> V3 R) s H o aw pw vw a p v m (c : R), es <> [] -> o < s ->
  (forall e, In e es -> faithful_read i circ cell types vol (s * H * k) natoms k (x e) aw (pw e) /\ p_indices (pw e) = idx /\ p_drift_indices (pw e) = fw /\ gives X w u (pw e) (s * m) (vw e)) ->
  (forall e, In e es -> faithful_read i circ cell types vol ((s * H - o) * k) natoms (s * k) (from_frame k (x e) o) a (p e) /\ p_indices (p e) = idx /\ p_drift_indices (p e) = fw /\ gives X w u (p e) m (v e)) ->
  (forall f l, f + l < s * H -> expected es wt (fun e => squared_move w axes natoms k (fun f b => cart cell (x e f b)) idx fw f (f + l)%nat) = (c * INR l)%R) ->
  let true_value := (c * INR (s * m))%R in
  (true_value - expected es wt vw = c / INR (s * H - s * m + 1) /\ true_value - expected es wt v = c * INR s / INR (H - m + 1)
   /\ (0 <= c -> INR s * (true_value - expected es wt vw) <= true_value - expected es wt v))%R.
Proof. exact @C128_diffusive_proof. Qed.
Print Assumptions C128_diffusive.
(** One thinned run alone does not determine the whole: motion between the used frames is missed. *)
Theorem C128_one_refuted : forall G Seed RS (X : Ext R G Seed RS) circ (g : G), exists x pw p,
  faithful_read Ase circ unit_cell ["Li"; "O"]%string 1%R 8 2 1 x walk_params pw /\ faithful_read Ase circ unit_cell ["Li"; "O"]%string 1%R 8 2 2 x thin_params p
  /\ gives X Self (demo_boot 1 "xyz") p 1 0%R /\ gives X Self (demo_boot 1 "xyz") pw 2 (1 / 224)%R.
Proof. exact C128_refuted_proof. Qed.
Print Assumptions C128_one_refuted.
(** Every walk of eight frames with steps below a quarter of the cell, read whole and from every second frame. *)
Example C128_example : forall G Seed RS (X : Ext R G Seed RS) circ (g : G) s, calm s -> exists pw p,
  faithful_read Ase circ unit_cell ["Li"; "O"]%string 1%R (2 * 4 * 1) 2 1 (walk s) walk_params pw /\ p_indices pw = [0%Z] /\ p_drift_indices pw = [1%Z]
  /\ gives X Self (demo_boot 1 "xyz") pw (2 * 1) ((step2 s 0 + step2 s 1 + step2 s 2 + step2 s 3 + step2 s 4 + step2 s 5 + (s 1%nat - s 0%nat) * (s 1%nat - s 0%nat)) / 7)%R
  /\ forall o, o < 2 -> faithful_read Ase circ unit_cell ["Li"; "O"]%string 1%R ((2 * 4 - o) * 1) 2 (2 * 1) (from_frame 1 (walk s) o) thin_params (p o)
       /\ p_indices (p o) = [0%Z] /\ p_drift_indices (p o) = [1%Z] /\ gives X Self (demo_boot 1 "xyz") (p o) 1 ((step2 s o + step2 s (o + 2) + step2 s (o + 4)) / 4)%R.
Proof. exact C128_example_proof. Qed.
(** Eight walks with uncorrelated steps meet the hypotheses of [C128_diffusive]. *)
Example C128_diffusive_example : forall G Seed RS (X : Ext R G Seed RS) circ (g : G), exists pw vw p v,
  (forall e, In e tosses -> faithful_read Ase circ unit_cell ["Li"; "O"]%string 1%R (2 * 4 * 1) 2 1 (walk (wandering e)) walk_params (pw e)
     /\ p_indices (pw e) = [0%Z] /\ p_drift_indices (pw e) = [1%Z] /\ gives X Self (demo_boot 1 "xyz") (pw e) (2 * 1) (vw e))
  /\ (forall e, In e tosses -> faithful_read Ase circ unit_cell ["Li"; "O"]%string 1%R ((2 * 4 - 1) * 1) 2 (2 * 1) (from_frame 1 (walk (wandering e)) 1) thin_params (p e)
     /\ p_indices (p e) = [0%Z] /\ p_drift_indices (p e) = [1%Z] /\ gives X Self (demo_boot 1 "xyz") (p e) 1 (v e))
  /\ (forall f l, f + l < 2 * 4 -> expected tosses (fun _ => 1 / 8)%R
        (fun e => squared_move Self all_axes 2 1 (fun f b => cart unit_cell (walk (wandering e) f b)) [0%Z] [1%Z] f (f + l)) = (1 / 100 * INR l)%R).
Proof. exact C128_diffusive_example_proof. Qed.
