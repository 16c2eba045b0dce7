(** * PropertiesCollTric: C98 for cells of any shape

    Unwrapping, drift correction, windows, sums and averages all run in IEEE double precision here. *)
From Verif Require Import Base ModelParser ModelDiffusion Spec SpecParser SpecStats SpecDouble SpecUnwrap SpecRun SpecRound SpecChain SpecTric SpecCollRound ProofsUnwrap ProofsChain ProofsTric ProofsTricChain ProofsCollRound ProofsCollTric.
From Coq Require Import Reals.
From Coq.Floats Require Import SpecFloat.
Open Scope Z_scope.

(** ** C98 for a fixed cell of any shape: [x f a] is the true fractional position of atom [a] in frame [f]; the doubles
    stored are that position up to whole cells. [M] is the largest cell component. *)
Theorem C98_any_cell :
  forall (G Seed RS : Type) (X : Ext spec_float G Seed RS) (M rho : R) (n natoms : nat) (cell : M3 spec_float)
    (c : nat -> nat -> V3 spec_float) (x : nat -> nat -> V3 R) gs idx drift ts ss (o : Options spec_float) d p u g b g',
  (powerRZ 2 (-300) <= M <= powerRZ 2 190)%R -> (1 <= rho <= 100)%R -> compact_cell rho M cell ->
  (forall f a, (f <= n)%nat -> (a < natoms)%nat -> near_origin (c f a) /\ forall i, is_integer (value (part (c f a) i) - part (x f a) i)) ->
  (forall f a i, (f < n)%nat -> (a < natoms)%nat -> (Rabs (part (x (S f) a) i - part (x f a) i) <= / 2 - 68 * rho ^ 2 * / 2 ^ 44)%R) ->
  Z.of_nat n <= 2 ^ 20 -> Z.of_nat (length drift) <= 2 ^ 20 -> Z.of_nat (length idx) <= 2 ^ 20 ->
  Forall (valid_site natoms) idx -> Forall (valid_site natoms) drift ->
  get_disp (tab (S n) (fun f => tab natoms (c f))) (tab (S n) (fun _ => cell)) = Ok d ->
  parser_init gs d idx drift ts ss o = Ok p -> o_sampling o = "multi-origin"%string -> Forall (fun m => 0 < m <= Z.of_nat n) (p_intervals p) ->
  0 < u_sub_sample_dt u -> u_block u = false -> mstd_bootstrap X u (p_delta_t p) (p_disp_3d p) (p_n_o p) g = Ok (b, g') ->
  exists axes used, names (pystr_text (u_dimension u)) axes
    /\ sub_sample (Z.to_nat (u_sub_sample_dt u)) (filter (fun m => enough (length idx) n (Z.to_nat m)) (p_intervals p)) used
    /\ Forall2 (fun m r => total_accurate (n - Z.to_nat m + 1) (length idx) (32 * chain_error n (length drift) * (sqrt (INR (length axes)) * M))
          (exact_msd axes ones (fun f a => cart (stored_cell cell) (x f a)) (map (site natoms) drift) (map (site natoms) idx) n (Z.to_nat m)) r
          (exact_mstd axes ones (fun f a => cart (stored_cell cell) (x f a)) (map (site natoms) drift) (map (site natoms) idx) n (Z.to_nat m)))
         (filter (fun m => m <? Z.of_nat n) (firstn (Nat.div (length used) 2) used)) (b_n b).
Proof. intros G Seed RS. exact C98_fixed_proof. Qed.
Print Assumptions C98_any_cell.

(** Cells that change: the report is the one from the paths [path_of y] that exact arithmetic finds from the same stored
    numbers (what those are is C92). *)
Theorem C98_changing_cells :
  forall (G Seed RS : Type) (X : Ext spec_float G Seed RS) (M rho : R) (n natoms : nat) (cell : nat -> M3 spec_float)
    (c : nat -> nat -> V3 spec_float) gs idx drift ts ss (o : Options spec_float) d p u g b g',
  (powerRZ 2 (-300) <= M <= powerRZ 2 190)%R -> (1 <= rho <= 100)%R -> (forall f, (f <= n)%nat -> compact_cell rho M (cell f)) ->
  (forall f a, (f <= n)%nat -> (a < natoms)%nat -> near_origin (c f a)) ->
  (forall f a, (f < n)%nat -> (a < natoms)%nat -> clear_step (68 * rho ^ 2 * / 2 ^ 44) (cell f) (cell (S f)) (c f a) (c (S f) a)) ->
  Z.of_nat n <= 2 ^ 20 -> Z.of_nat (length drift) <= 2 ^ 20 -> Z.of_nat (length idx) <= 2 ^ 20 ->
  Forall (valid_site natoms) idx -> Forall (valid_site natoms) drift ->
  get_disp (tab (S n) (fun f => tab natoms (c f))) (tab (S n) cell) = Ok d ->
  parser_init gs d idx drift ts ss o = Ok p -> o_sampling o = "multi-origin"%string -> Forall (fun m => 0 < m <= Z.of_nat n) (p_intervals p) ->
  0 < u_sub_sample_dt u -> u_block u = false -> mstd_bootstrap X u (p_delta_t p) (p_disp_3d p) (p_n_o p) g = Ok (b, g') ->
  exists y axes used, get_disp (tab (S n) (fun f => tab natoms (fun a => stored (c f a)))) (tab (S n) (fun f => stored_cell (cell f))) = Ok y
    /\ names (pystr_text (u_dimension u)) axes
    /\ sub_sample (Z.to_nat (u_sub_sample_dt u)) (filter (fun m => enough (length idx) n (Z.to_nat m)) (p_intervals p)) used
    /\ Forall2 (fun m r => total_accurate (n - Z.to_nat m + 1) (length idx) (32 * chain_error n (length drift) * (sqrt (INR (length axes)) * M))
          (exact_msd axes ones (path_of y) (map (site natoms) drift) (map (site natoms) idx) n (Z.to_nat m)) r
          (exact_mstd axes ones (path_of y) (map (site natoms) drift) (map (site natoms) idx) n (Z.to_nat m)))
         (filter (fun m => m <? Z.of_nat n) (firstn (Nat.div (length used) 2) used)) (b_n b).
Proof. intros G Seed RS. exact C98_changing_proof. Qed.
Print Assumptions C98_changing_cells.

(** In the cell (4, 0, 0), (2, 4, 0), (0, 0, 4) two atoms hop together by a quarter of the second cell vector per frame,
    across the boundary and back: the total moves by (1, 2, 0). *)
Example C98_slanted_example : forall (G Seed RS : Type) (X : Ext spec_float G Seed RS) (g : G),
  compact_cell 1 4 slanted
  /\ (forall f a, (f <= 3)%nat -> near_origin (lifting f a) /\ forall i, is_integer (value (part (lifting f a) i) - part (lifted f a) i))
  /\ (forall f a i, (f < 3)%nat -> (Rabs (part (lifted (S f) a) i - part (lifted f a) i) <= / 2 - 68 * 1 ^ 2 * / 2 ^ 44)%R)
  /\ exists d p b, get_disp (tab 4 (fun f => tab 2 (lifting f))) (tab 4 (fun _ => slanted)) = Ok d
    /\ parser_init (fun _ _ _ => Raise ValueError) d [0; 1] [] (SFofZ 1) 1 coll_opts = Ok p /\ p_intervals p = [1; 2; 3]
    /\ mstd_bootstrap X (mkBootParams 1 false false 0 0 (PyStr "xyz") (SFofZ 0)) (p_delta_t p) (p_disp_3d p) (p_n_o p) g = Ok (b, g)
    /\ map value (b_n b) = [5]%R
    /\ exact_mstd all_axes ones (fun f a => cart (stored_cell slanted) (lifted f a)) [] [0%nat; 1%nat] 3 1 = 5%R.
Proof. intros G Seed RS. exact C98_slanted_example_proof. Qed.
