(** * PropertiesChargeChain: C123, charge displacements from stored positions in double precision

    Unwrapping, drift correction, windows, charges, sums and averages all run in IEEE double precision here. *)
From Verif Require Import Base ModelParser ModelDiffusion Spec SpecParser SpecStats SpecDouble SpecUnwrap SpecRun SpecRound SpecChain SpecTric SpecCollRound SpecChargeChain ProofsUnwrap ProofsChain ProofsTric ProofsTricChain ProofsCollRound ProofsChargeChain.
From Coq Require Import Reals.
From Coq.Floats Require Import SpecFloat.
Open Scope Z_scope.

(** ** C123 for a rectangular cell: [x f a] is the true fractional position of atom [a] in frame [f]; the doubles stored
    are that position up to whole cells. The root of each reported MSCD is that of the exact one up to (K + 8) 2^-52 of
    itself (K observations), 2 N (N + 1) 2^-52 of the root mean square of charge times displacement of one atom (N atoms),
    and twice the sum of the sizes of the charges times the error [chain_error] of one displacement. *)
Theorem C123_box :
  forall (G Seed RS : Type) (X : Ext spec_float G Seed RS) (side : V3 spec_float) (n natoms : nat) (c : nat -> nat -> V3 spec_float) (x : nat -> nat -> V3 R)
    gs idx drift ts ss (o : Options spec_float) d p u q g b g',
  (forall i, usual_length (part side i)) -> (forall i, (value (part side i) <= powerRZ 2 170)%R) ->
  (forall f a i, (f <= n)%nat -> (a < natoms)%nat -> finite_double (part (c f a) i) /\ (Rabs (value (part (c f a) i)) <= 2)%R /\ is_integer (value (part (c f a) i) - part (x f a) i)) ->
  (forall f a i, (f < n)%nat -> (a < natoms)%nat -> (Rabs (part (x (S f) a) i - part (x f a) i) <= / 2 - / 2 ^ 47)%R) ->
  Z.of_nat n <= 2 ^ 20 -> Z.of_nat (length drift) <= 2 ^ 20 -> Z.of_nat (length idx) <= 2 ^ 20 ->
  Forall (valid_site natoms) idx -> Forall (valid_site natoms) drift ->
  get_disp (tab (S n) (fun f => tab natoms (c f))) (tab (S n) (fun _ => box side)) = Ok d ->
  parser_init gs d idx drift ts ss o = Ok p -> o_sampling o = "multi-origin"%string -> Forall (fun m => 0 < m <= Z.of_nat n) (p_intervals p) ->
  (forall l, q = QArray l -> length l = length idx) -> Forall (fun c => finite_double c /\ (Rabs (value c) <= powerRZ 2 100)%R) (charge_doubles q) ->
  0 < u_sub_sample_dt u -> u_block u = false -> mscd_bootstrap X u (p_delta_t p) (p_disp_3d p) q (p_n_o p) g = Ok (b, g') ->
  exists used, sub_sample (Z.to_nat (u_sub_sample_dt u)) (filter (fun m => enough (length idx) n (Z.to_nat m)) (p_intervals p)) used
    /\ Forall2 (fun m r => charge_accurate (n - Z.to_nat m + 1) (length idx) (total_charge_size (charge_values q (length idx)) * chain_error n (length drift) * sqrt (sqlen all_axes (values3 side)))
          (exact_single (charge_values q (length idx)) (values3 side) x (map (site natoms) drift) (map (site natoms) idx) n (Z.to_nat m)) r
          (exact_mscd (charge_values q (length idx)) (values3 side) x (map (site natoms) drift) (map (site natoms) idx) n (Z.to_nat m)))
         (filter (fun m => m <? Z.of_nat n) (firstn (Nat.div (length used) 2) used)) (b_n b).
Proof. intros G Seed RS. exact C123_box_proof. Qed.
Print Assumptions C123_box.

(** The same for a fixed cell of any shape with largest component [M]. *)
Theorem C123_any_cell :
  forall (G Seed RS : Type) (X : Ext spec_float G Seed RS) (M rho : R) (n natoms : nat) (cell : M3 spec_float)
    (c : nat -> nat -> V3 spec_float) (x : nat -> nat -> V3 R) gs idx drift ts ss (o : Options spec_float) d p u q g b g',
  (powerRZ 2 (-300) <= M <= powerRZ 2 160)%R -> (1 <= rho <= 100)%R -> compact_cell rho M cell ->
  (forall f a, (f <= n)%nat -> (a < natoms)%nat -> near_origin (c f a) /\ forall i, is_integer (value (part (c f a) i) - part (x f a) i)) ->
  (forall f a i, (f < n)%nat -> (a < natoms)%nat -> (Rabs (part (x (S f) a) i - part (x f a) i) <= / 2 - 68 * rho ^ 2 * / 2 ^ 44)%R) ->
  Z.of_nat n <= 2 ^ 20 -> Z.of_nat (length drift) <= 2 ^ 20 -> Z.of_nat (length idx) <= 2 ^ 20 ->
  Forall (valid_site natoms) idx -> Forall (valid_site natoms) drift ->
  get_disp (tab (S n) (fun f => tab natoms (c f))) (tab (S n) (fun _ => cell)) = Ok d ->
  parser_init gs d idx drift ts ss o = Ok p -> o_sampling o = "multi-origin"%string -> Forall (fun m => 0 < m <= Z.of_nat n) (p_intervals p) ->
  (forall l, q = QArray l -> length l = length idx) -> Forall (fun c => finite_double c /\ (Rabs (value c) <= powerRZ 2 100)%R) (charge_doubles q) ->
  0 < u_sub_sample_dt u -> u_block u = false -> mscd_bootstrap X u (p_delta_t p) (p_disp_3d p) q (p_n_o p) g = Ok (b, g') ->
  exists used, sub_sample (Z.to_nat (u_sub_sample_dt u)) (filter (fun m => enough (length idx) n (Z.to_nat m)) (p_intervals p)) used
    /\ Forall2 (fun m r => charge_accurate (n - Z.to_nat m + 1) (length idx) (total_charge_size (charge_values q (length idx)) * (56 * chain_error n (length drift) * M))
          (exact_single (charge_values q (length idx)) ones (fun f a => cart (stored_cell cell) (x f a)) (map (site natoms) drift) (map (site natoms) idx) n (Z.to_nat m)) r
          (exact_mscd (charge_values q (length idx)) ones (fun f a => cart (stored_cell cell) (x f a)) (map (site natoms) drift) (map (site natoms) idx) n (Z.to_nat m)))
         (filter (fun m => m <? Z.of_nat n) (firstn (Nat.div (length used) 2) used)) (b_n b).
Proof. intros G Seed RS. exact C123_fixed_proof. Qed.
Print Assumptions C123_any_cell.

(** Cells that change: the report is the one from the paths [path_of y] that exact arithmetic finds from the same stored
    numbers (what those are is C92). *)
Theorem C123_changing_cells :
  forall (G Seed RS : Type) (X : Ext spec_float G Seed RS) (M rho : R) (n natoms : nat) (cell : nat -> M3 spec_float)
    (c : nat -> nat -> V3 spec_float) gs idx drift ts ss (o : Options spec_float) d p u q g b g',
  (powerRZ 2 (-300) <= M <= powerRZ 2 160)%R -> (1 <= rho <= 100)%R -> (forall f, (f <= n)%nat -> compact_cell rho M (cell f)) ->
  (forall f a, (f <= n)%nat -> (a < natoms)%nat -> near_origin (c f a)) ->
  (forall f a, (f < n)%nat -> (a < natoms)%nat -> clear_step (68 * rho ^ 2 * / 2 ^ 44) (cell f) (cell (S f)) (c f a) (c (S f) a)) ->
  Z.of_nat n <= 2 ^ 20 -> Z.of_nat (length drift) <= 2 ^ 20 -> Z.of_nat (length idx) <= 2 ^ 20 ->
  Forall (valid_site natoms) idx -> Forall (valid_site natoms) drift ->
  get_disp (tab (S n) (fun f => tab natoms (c f))) (tab (S n) cell) = Ok d ->
  parser_init gs d idx drift ts ss o = Ok p -> o_sampling o = "multi-origin"%string -> Forall (fun m => 0 < m <= Z.of_nat n) (p_intervals p) ->
  (forall l, q = QArray l -> length l = length idx) -> Forall (fun c => finite_double c /\ (Rabs (value c) <= powerRZ 2 100)%R) (charge_doubles q) ->
  0 < u_sub_sample_dt u -> u_block u = false -> mscd_bootstrap X u (p_delta_t p) (p_disp_3d p) q (p_n_o p) g = Ok (b, g') ->
  exists y used, get_disp (tab (S n) (fun f => tab natoms (fun a => stored (c f a)))) (tab (S n) (fun f => stored_cell (cell f))) = Ok y
    /\ sub_sample (Z.to_nat (u_sub_sample_dt u)) (filter (fun m => enough (length idx) n (Z.to_nat m)) (p_intervals p)) used
    /\ Forall2 (fun m r => charge_accurate (n - Z.to_nat m + 1) (length idx) (total_charge_size (charge_values q (length idx)) * (56 * chain_error n (length drift) * M))
          (exact_single (charge_values q (length idx)) ones (path_of y) (map (site natoms) drift) (map (site natoms) idx) n (Z.to_nat m)) r
          (exact_mscd (charge_values q (length idx)) ones (path_of y) (map (site natoms) drift) (map (site natoms) idx) n (Z.to_nat m)))
         (filter (fun m => m <? Z.of_nat n) (firstn (Nat.div (length used) 2) used)) (b_n b).
Proof. intros G Seed RS. exact C123_changing_proof. Qed.
Print Assumptions C123_changing_cells.

(** Four frames of two atoms of charges 3 and -1 that hop together by a quarter of a 10 x 10 x 10 cell, across the
    boundary and back: charge times displacement adds up to 5 in each frame. *)
Example C123_example :
  forall (G Seed RS : Type) (X : Ext spec_float G Seed RS) (g : G),
  (forall f a i, (f <= 3)%nat -> finite_double (part (pairing f a) i) /\ (Rabs (value (part (pairing f a) i)) <= 2)%R
     /\ is_integer (value (part (pairing f a) i) - part (paired f a) i))
  /\ (forall f a i, (f < 3)%nat -> (Rabs (part (paired (S f) a) i - part (paired f a) i) <= / 2 - / 2 ^ 47)%R)
  /\ Forall (fun c => finite_double c /\ (Rabs (value c) <= powerRZ 2 100)%R) (charge_doubles (QArray [SFofZ 3; SFofZ (-1)]))
  /\ exists d p b, get_disp (tab 4 (fun f => tab 2 (pairing f))) (tab 4 (fun _ => box ten3)) = Ok d
    /\ parser_init (fun _ _ _ => Raise ValueError) d [0; 1] [] (SFofZ 1) 1 coll_opts = Ok p /\ p_intervals p = [1; 2; 3]
    /\ mscd_bootstrap X (mkBootParams 1 false false 0 0 (PyStr "xyz") (SFofZ 0)) (p_delta_t p) (p_disp_3d p) (QArray [SFofZ 3; SFofZ (-1)]) (p_n_o p) g = Ok (b, g)
    /\ map value (b_n b) = [25]%R
    /\ exact_mscd [3; -1]%R (values3 ten3) paired [] [0%nat; 1%nat] 3 1 = 25%R.
Proof. intros G Seed RS. exact C123_example_proof. Qed.

(** The error is not small relative to the MSCD itself: two atoms of charge 1 that move apart by the same amounts have
    none at all, but a positive one is reported. *)
Theorem C123_relative_refuted :
  forall (G Seed RS : Type) (X : Ext spec_float G Seed RS) (g : G),
  (forall f a i, (f <= 3)%nat -> finite_double (part (placed f a) i) /\ (Rabs (value (part (placed f a) i)) <= 2)%R
     /\ is_integer (value (part (placed f a) i) - part (placing f a) i))
  /\ (forall f a i, (f < 3)%nat -> (Rabs (part (placing (S f) a) i - part (placing f a) i) <= / 2 - / 2 ^ 47)%R)
  /\ exists d p b r, get_disp (tab 4 (fun f => tab 2 (placed f))) (tab 4 (fun _ => box ten3)) = Ok d
    /\ parser_init (fun _ _ _ => Raise ValueError) d [0; 1] [] (SFofZ 1) 1 coll_opts = Ok p /\ p_intervals p = [1; 2; 3]
    /\ mscd_bootstrap X (mkBootParams 1 false false 0 0 (PyStr "xyz") (SFofZ 0)) (p_delta_t p) (p_disp_3d p) (QScalar (SFofZ 1)) (p_n_o p) g = Ok (b, g)
    /\ b_n b = [r]
    /\ exact_mscd [1; 1]%R (values3 ten3) placing [] [0%nat; 1%nat] 3 1 = 0%R
    /\ (0 < value r)%R
    /\ forall k, ~ (Rabs (sqrt (value r) - sqrt (exact_mscd [1; 1]%R (values3 ten3) placing [] [0%nat; 1%nat] 3 1))
          <= k * sqrt (exact_mscd [1; 1]%R (values3 ten3) placing [] [0%nat; 1%nat] 3 1))%R.
Proof. intros G Seed RS. exact C123_relative_proof. Qed.
Print Assumptions C123_relative_refuted.
