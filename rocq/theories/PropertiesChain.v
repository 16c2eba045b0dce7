(** * PropertiesChain: C88

    Unwrapping, drift correction, windows and averages all run in IEEE double precision here. *)
From Verif Require Import Base ModelParser ModelDiffusion Spec SpecParser SpecStats SpecDouble SpecUnwrap SpecRun SpecRound SpecChain ProofsUnwrap ProofsChain.
From Coq Require Import Reals.
From Coq.Floats Require Import SpecFloat.
Open Scope Z_scope.

(** ** C88: [x f a] is the true fractional position of atom [a] in frame [f] of those handed to the
    unwrapping; the doubles stored are that position up to whole cells. The reported mean squared
    displacement of every interval is the one exact arithmetic would give: its root is right to
    (N + 8) 2^-52 of itself (N observations) plus 2 n (16 n + f + 6) 2^-51 cell diagonals (n steps,
    f framework atoms). Missing from the full statement, as in C74: steps within 2^-47 of half a
    cell (refuted there). Triclinic and changing cells: PropertiesTricChain. *)
Theorem C88_positions_to_msd_partial :
  forall (G Seed RS : Type) (X : Ext spec_float G Seed RS)
    (side : V3 spec_float) (n natoms : nat) (c : nat -> nat -> V3 spec_float) (x : nat -> nat -> V3 R)
    gs idx drift ts ss (o : Options spec_float) d p u g b g',
  (forall i, usual_length (part side i)) ->
  (forall f a i, (f <= n)%nat -> (a < natoms)%nat ->
     finite_double (part (c f a) i) /\ (Rabs (value (part (c f a) i)) <= 2)%R
     /\ is_integer (value (part (c f a) i) - part (x f a) i)) ->
  (forall f a i, (f < n)%nat -> (a < natoms)%nat ->
     (Rabs (part (x (S f) a) i - part (x f a) i) <= / 2 - / 2 ^ 47)%R) ->
  Z.of_nat n <= 2 ^ 20 -> Z.of_nat (length drift) <= 2 ^ 20 -> Z.of_nat (length idx * n) <= 2 ^ 50 ->
  Forall (valid_site natoms) idx -> Forall (valid_site natoms) drift ->
  get_disp (tab (S n) (fun f => tab natoms (c f))) (tab (S n) (fun _ => box side)) = Ok d ->
  parser_init gs d idx drift ts ss o = Ok p -> o_sampling o = "multi-origin"%string ->
  Forall (fun m => 0 < m <= Z.of_nat n) (p_intervals p) ->
  0 < u_sub_sample_dt u -> u_block u = false ->
  msd_bootstrap X u (p_delta_t p) (p_disp_3d p) (p_n_o p) g = Ok (b, g') ->
  exists axes used, names (pystr_text (u_dimension u)) axes
    /\ sub_sample (Z.to_nat (u_sub_sample_dt u)) (filter (fun m => enough (length idx) n (Z.to_nat m)) (p_intervals p)) used
    /\ Forall2 (fun m r => rms_accurate (length idx * (n - Z.to_nat m + 1))
          (2 * chain_error n (length drift) * sqrt (sqlen axes (values3 side))) r
          (exact_msd axes (values3 side) x (map (site natoms) drift) (map (site natoms) idx) n (Z.to_nat m))) used (b_n b).
Proof. intros G Seed RS. exact C88_proof. Qed.
Print Assumptions C88_positions_to_msd_partial.

(** Every mean squared displacement is right to (N + 8) 2^-52 up to an absolute 2^-1072, with no lower
    limit on the displacements (C79 has one). *)
Theorem C88_mean_with_underflow :
  forall axes (d : Arr spec_float), (length axes <= 3)%nat ->
  Forall (Forall (fun v => forall i, finite_double (part v i) /\ (Rabs (value (part v i)) <= powerRZ 2 330)%R)) (a_rows d) ->
  entries d <> [] -> Z.of_nat (length (entries d)) <= 2 ^ 50 ->
  let r := nmean (map (fun v => sq_norm (map (part v) axes)) (entries d)) in
  finite_double r /\ (0 <= value r)%R
  /\ (Rabs (value r - msd_of axes (values d)) <= (INR (length (entries d)) + 8) * / 2 ^ 52 * msd_of axes (values d) + powerRZ 2 (-1072))%R.
Proof. exact C88_mean_proof. Qed.
Print Assumptions C88_mean_with_underflow.

(** Three frames, an atom hopping by a quarter of a 10 x 10 x 10 cell per frame across the boundary,
    relative to an atom at rest: 2.5^2. *)
Example C88_example : forall (G Seed RS : Type) (X : Ext spec_float G Seed RS) (g : G),
  (forall f a i, (f <= 2)%nat -> finite_double (part (hopping f a) i) /\ (Rabs (value (part (hopping f a) i)) <= 2)%R
     /\ is_integer (value (part (hopping f a) i) - part (hopped f a) i))
  /\ (forall f a i, (f < 2)%nat -> (Rabs (part (hopped (S f) a) i - part (hopped f a) i) <= / 2 - / 2 ^ 47)%R)
  /\ exists d p b, get_disp (tab 3 (fun f => tab 2 (hopping f))) (tab 3 (fun _ => box ten3)) = Ok d
    /\ parser_init (fun _ _ _ => Raise ValueError) d [0] [1] (SFofZ 1) 1 chain_opts = Ok p /\ p_intervals p = [1; 2]
    /\ msd_bootstrap X (mkBootParams 1 false false 0 0 (PyStr "xyz") (SFofZ 0)) (p_delta_t p) (p_disp_3d p) (p_n_o p) g = Ok (b, g)
    /\ map value (b_n b) = [25 / 4]%R
    /\ exact_msd all_axes (values3 ten3) hopped [1%nat] [0%nat] 2 1 = (25 / 4)%R.
Proof. intros G Seed RS. exact C88_example_proof. Qed.
