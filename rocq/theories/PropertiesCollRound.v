(** * PropertiesCollRound: C98

    Collective displacements, summed over the atoms, run in IEEE double precision here. *)
From Verif Require Import Base ModelParser ModelDiffusion Spec SpecParser SpecStats SpecDouble SpecUnwrap SpecRun SpecRound SpecChain SpecCollRound ProofsUnwrap ProofsRound ProofsChain ProofsCollRound.
From Coq Require Import Reals.
From Coq.Floats Require Import SpecFloat.
Open Scope Z_scope.

(** ** C98: every reported mean squared total displacement is the mean square, over the observations, of the
    sum of the displacements of the atoms. Its root is right to (K + 8) 2^-52 of itself (K observations) plus
    2 N (N + 1) 2^-52 of the root mean square displacement of one atom (N atoms): where the displacements of
    the atoms cancel, it is the second term that remains. *)
Theorem C98_total_displacement :
  forall (G Seed RS : Type) (X : Ext spec_float G Seed RS) u dts disps n_o g b g',
  0 < u_sub_sample_dt u -> u_block u = false ->
  Forall arr_wf disps -> Forall (components_below 300) disps -> Forall countable disps ->
  mstd_bootstrap X u dts disps n_o g = Ok (b, g') ->
  exists axes used, names (pystr_text (u_dimension u)) axes /\ sub_sample (Z.to_nat (u_sub_sample_dt u)) disps used
    /\ Forall2 (fun d r => sum_accurate (a_obs d) (length (a_rows d)) (msd_of axes (values d)) r (mstd_of axes (values d)))
         (filter (fun d => 1 <? a_obs d)%nat (firstn (Nat.div (length used) 2) used)) (b_n b).
Proof. intros G Seed RS. exact C98_mstd_proof. Qed.
Print Assumptions C98_total_displacement.

(** The same for mean squared charge displacements, with every displacement times the charge of its atom. *)
Theorem C98_charge_displacement :
  forall (G Seed RS : Type) (X : Ext spec_float G Seed RS) u dts disps q n_o g b g' natoms,
  0 < u_sub_sample_dt u -> u_block u = false ->
  Forall arr_wf disps -> Forall (components_below 200) disps -> Forall (fun d => length (a_rows d) = natoms) disps ->
  (0 < natoms)%nat -> Z.of_nat natoms <= 2 ^ 20 -> Forall (fun d => Z.of_nat (a_obs d) <= 2 ^ 50) disps ->
  (forall l, q = QArray l -> length l = natoms) ->
  Forall (fun c => finite_double c /\ (Rabs (value c) <= powerRZ 2 100)%R) (charge_doubles q) ->
  mscd_bootstrap X u dts disps q n_o g = Ok (b, g') ->
  exists used, sub_sample (Z.to_nat (u_sub_sample_dt u)) disps used
    /\ Forall2 (fun d r => sum_accurate (a_obs d) natoms (msd_of all_axes (charged (charge_values q natoms) (values d))) r
                             (mscd_of all_axes (charge_values q natoms) (values d)))
         (filter (fun d => 1 <? a_obs d)%nat (firstn (Nat.div (length used) 2) used)) (b_n b).
Proof. intros G Seed RS. exact C98_mscd_proof. Qed.
Print Assumptions C98_charge_displacement.

(** Two atoms, two observations, two intervals of which the first half is used. Totals along x and z: (1, -1)
    and (4, 2). With charges 1 and -1: (1, -2, -3) and (2, 0, 0). *)
Example C98_example :
  (Forall arr_wf [rounding_demo; rounding_demo] /\ Forall (components_below 200) [rounding_demo; rounding_demo]
     /\ Forall (components_below 300) [rounding_demo; rounding_demo] /\ Forall countable [rounding_demo; rounding_demo])
  /\ Forall (fun c => finite_double c /\ (Rabs (value c) <= powerRZ 2 100)%R) (charge_doubles (QArray [SFofZ 1; SFofZ (-1)]))
  /\ forall (G Seed RS : Type) (X : Ext spec_float G Seed RS) (g : G),
  (exists b, mstd_bootstrap X (mkBootParams 1 false false 0 0 (PyStr "xz") (SFofZ 0)) [SFofZ 1; SFofZ 2] [rounding_demo; rounding_demo]
               [SFofZ 2; SFofZ 2] g = Ok (b, g)
    /\ map value (b_n b) = [11]%R)
  /\ (exists b, mscd_bootstrap X (mkBootParams 1 false false 0 0 (PyStr "xyz") (SFofZ 0)) [SFofZ 1; SFofZ 2] [rounding_demo; rounding_demo]
               (QArray [SFofZ 1; SFofZ (-1)]) [SFofZ 2; SFofZ 2] g = Ok (b, g)
    /\ map value (b_n b) = [9]%R).
Proof. exact C98_example_proof. Qed.

(** From stored positions, as in C88: unwrapping, drift correction, windows, sums and averages all rounded. [x]
    is the true path, whose steps stay 2^-47 away from half a cell (needed: C74). Cells of any shape: PropertiesCollTric. *)
Theorem C98_positions_to_mstd :
  forall (G Seed RS : Type) (X : Ext spec_float G Seed RS)
    (side : V3 spec_float) (n natoms : nat) (c : nat -> nat -> V3 spec_float) (x : nat -> nat -> V3 R)
    gs idx drift ts ss (o : Options spec_float) d p u g b g',
  (forall i, usual_length (part side i)) -> (forall i, (value (part side i) <= powerRZ 2 200)%R) ->
  (forall f a i, (f <= n)%nat -> (a < natoms)%nat ->
     finite_double (part (c f a) i) /\ (Rabs (value (part (c f a) i)) <= 2)%R
     /\ is_integer (value (part (c f a) i) - part (x f a) i)) ->
  (forall f a i, (f < n)%nat -> (a < natoms)%nat ->
     (Rabs (part (x (S f) a) i - part (x f a) i) <= / 2 - / 2 ^ 47)%R) ->
  Z.of_nat n <= 2 ^ 20 -> Z.of_nat (length drift) <= 2 ^ 20 -> Z.of_nat (length idx) <= 2 ^ 20 ->
  Forall (valid_site natoms) idx -> Forall (valid_site natoms) drift ->
  get_disp (tab (S n) (fun f => tab natoms (c f))) (tab (S n) (fun _ => box side)) = Ok d ->
  parser_init gs d idx drift ts ss o = Ok p -> o_sampling o = "multi-origin"%string ->
  Forall (fun m => 0 < m <= Z.of_nat n) (p_intervals p) ->
  0 < u_sub_sample_dt u -> u_block u = false ->
  mstd_bootstrap X u (p_delta_t p) (p_disp_3d p) (p_n_o p) g = Ok (b, g') ->
  exists axes used, names (pystr_text (u_dimension u)) axes
    /\ sub_sample (Z.to_nat (u_sub_sample_dt u)) (filter (fun m => enough (length idx) n (Z.to_nat m)) (p_intervals p)) used
    /\ Forall2 (fun m r => total_accurate (n - Z.to_nat m + 1) (length idx) (chain_error n (length drift) * sqrt (sqlen axes (values3 side)))
          (exact_msd axes (values3 side) x (map (site natoms) drift) (map (site natoms) idx) n (Z.to_nat m)) r
          (exact_mstd axes (values3 side) x (map (site natoms) drift) (map (site natoms) idx) n (Z.to_nat m)))
         (filter (fun m => m <? Z.of_nat n) (firstn (Nat.div (length used) 2) used)) (b_n b).
Proof. intros G Seed RS. exact C98_chain_proof. Qed.
Print Assumptions C98_positions_to_mstd.

(** Four frames of two atoms that hop together by a quarter of a 10 x 10 x 10 cell, across the boundary and back:
    the total moves by 5 in each frame. *)
Example C98_positions_example : forall (G Seed RS : Type) (X : Ext spec_float G Seed RS) (g : G),
  (forall f a i, (f <= 3)%nat -> finite_double (part (pairing f a) i) /\ (Rabs (value (part (pairing f a) i)) <= 2)%R
     /\ is_integer (value (part (pairing f a) i) - part (paired f a) i))
  /\ (forall f a i, (f < 3)%nat -> (Rabs (part (paired (S f) a) i - part (paired f a) i) <= / 2 - / 2 ^ 47)%R)
  /\ exists d p b, get_disp (tab 4 (fun f => tab 2 (pairing f))) (tab 4 (fun _ => box ten3)) = Ok d
    /\ parser_init (fun _ _ _ => Raise ValueError) d [0; 1] [] (SFofZ 1) 1 coll_opts = Ok p /\ p_intervals p = [1; 2; 3]
    /\ mstd_bootstrap X (mkBootParams 1 false false 0 0 (PyStr "xyz") (SFofZ 0)) (p_delta_t p) (p_disp_3d p) (p_n_o p) g = Ok (b, g)
    /\ map value (b_n b) = [25]%R
    /\ exact_mstd all_axes (values3 ten3) paired [] [0%nat; 1%nat] 3 1 = 25%R.
Proof. intros G Seed RS. exact C98_chain_example_proof. Qed.
