(** * PropertiesStats: C25-C32, C51, C55 and the dimension part of C16

    [X] collects the external routines (random numbers, normality test, blocking, optimiser ...),
    which are arbitrary here. [u_block u = false] is the default (no pyblock). The array at an interval has
    rows (atoms) of observations; [arr_wf d] says all rows have the same length. *)
From Verif Require Import Base Spec ModelParser ModelDiffusion ModelHdf ModelAnalyzer SpecStats Lemmas
  ProofsBoot ProofsStats ProofsStats2 SpecRun.
From Coq Require Import Reals Lra Lia Permutation.
Open Scope Z_scope.

(** ** C25: the MSD *)

(** Intervals of at most one squared displacement are left out; they are the last ones. *)
Theorem C25_msd_is_mean : forall G Seed RS (X : Ext R G Seed RS) u dts disps n_o g b g',
  0 < u_sub_sample_dt u -> u_block u = false ->
  msd_bootstrap X u dts disps n_o g = Ok (b, g') ->
  exists axes used shown, names (pystr_text (u_dimension u)) axes
    /\ sub_sample (Z.to_nat (u_sub_sample_dt u)) disps used
    /\ leading (fun d => 1 < length (entries d))%nat used shown
    /\ b_n b = map (msd_of axes) shown.
Proof. exact @msd_run_means. Qed.
Print Assumptions C25_msd_is_mean.
(** The constructor succeeds on every rectangular input with a valid dimension. *)
Theorem C25_succeeds : forall G Seed RS (X : Ext R G Seed RS) u dts disps n_o axes (g : G),
  0 < u_sub_sample_dt u -> u_bootstrap u = false -> names (pystr_text (u_dimension u)) axes -> disps <> [] ->
  Forall (fun d => 1 < length (entries d))%nat disps ->
  (length disps <= length dts)%nat -> (length disps <= length n_o)%nat ->
  exists b, msd_bootstrap X u dts disps n_o g = Ok (b, g).
Proof. exact @msd_total. Qed.
Print Assumptions C25_succeeds.
Theorem C25_never_negative : forall G Seed RS (X : Ext R G Seed RS) u dts disps n_o g b g',
  0 < u_sub_sample_dt u -> u_block u = false ->
  msd_bootstrap X u dts disps n_o g = Ok (b, g') -> Forall (fun x => 0 <= x)%R (b_n b).
Proof. exact @C25_nonneg_proof. Qed.
Print Assumptions C25_never_negative.
Theorem C25_zero_iff : forall G Seed RS (X : Ext R G Seed RS) u dts disps n_o g b g' axes i,
  0 < u_sub_sample_dt u -> u_block u = false -> names (pystr_text (u_dimension u)) axes ->
  msd_bootstrap X u dts disps n_o g = Ok (b, g') -> (i < length (b_n b))%nat ->
  (nth_error (b_n b) i = Some 0%R <->
   exists d, nth_error disps (i * Z.to_nat (u_sub_sample_dt u)) = Some d
     /\ forall v a, In v (entries d) -> In a axes -> coord v a = 0%R).
Proof. exact @C25_zero_proof. Qed.
Print Assumptions C25_zero_iff.
Theorem C25_quadratic_scaling : forall G Seed RS (X : Ext R G Seed RS) u dts disps n_o g b g' c g1 b1 g1',
  0 < u_sub_sample_dt u -> u_block u = false ->
  msd_bootstrap X u dts disps n_o g = Ok (b, g') ->
  msd_bootstrap X u dts (map (scale_arr c) disps) n_o g1 = Ok (b1, g1') ->
  b_n b1 = map (fun x => c * c * x)%R (b_n b).
Proof. exact @C25_scale_proof. Qed.
Print Assumptions C25_quadratic_scaling.
Theorem C25_order_irrelevant : forall G Seed RS (X : Ext R G Seed RS) u dts disps disps' n_o g b g' g1 b1 g1',
  0 < u_sub_sample_dt u -> u_block u = false ->
  Forall2 (fun d d' => Permutation (entries d) (entries d')) disps disps' ->
  msd_bootstrap X u dts disps n_o g = Ok (b, g') ->
  msd_bootstrap X u dts disps' n_o g1 = Ok (b1, g1') -> b_n b1 = b_n b.
Proof. exact @C25_perm_proof. Qed.
Print Assumptions C25_order_irrelevant.
Theorem C25_sum_of_axes : forall G Seed RS (X : Ext R G Seed RS) u dts disps n_o gx gy gz g bx bY bz b gx' gy' gz' g',
  0 < u_sub_sample_dt u -> u_block u = false ->
  msd_bootstrap X (with_dimension u "x") dts disps n_o gx = Ok (bx, gx') ->
  msd_bootstrap X (with_dimension u "y") dts disps n_o gy = Ok (bY, gy') ->
  msd_bootstrap X (with_dimension u "z") dts disps n_o gz = Ok (bz, gz') ->
  msd_bootstrap X (with_dimension u "xyz") dts disps n_o g = Ok (b, g') ->
  forall i x y z m, nth_error (b_n bx) i = Some x -> nth_error (b_n bY) i = Some y ->
    nth_error (b_n bz) i = Some z -> nth_error (b_n b) i = Some m -> m = (x + y + z)%R.
Proof. exact @C25_axes_proof. Qed.
Print Assumptions C25_sum_of_axes.
(** Two atoms, two observations, two intervals. *)
Example C25_example : forall G Seed RS (X : Ext R G Seed RS) (g : G), exists b,
  msd_bootstrap X (demo_boot 1 "xyz") [1;2]%R demo_disps [4;3]%R g = Ok (b, g)
  /\ b_n b = [2; 4]%R /\ b_dims b = 3%nat /\ b_ngp b = [-1/40; -2/5]%R.
Proof. exact @demo_msd. Qed.

(** ** C26 and C16: the dimension string

    [names s axes]: the letters of [s] are, in either case, those of [axes], increasing and not
    empty. A str and a bytes object are both accepted. *)
Theorem C26_msd_axes : forall G Seed RS (X : Ext R G Seed RS) u dts disps n_o g b g',
  0 < u_sub_sample_dt u -> msd_bootstrap X u dts disps n_o g = Ok (b, g') ->
  exists axes, names (pystr_text (u_dimension u)) axes /\ b_dims b = length axes.
Proof. exact @C26_msd_proof. Qed.
Print Assumptions C26_msd_axes.
Theorem C26_mstd_axes : forall G Seed RS (X : Ext R G Seed RS) u dts disps n_o g b g',
  0 < u_sub_sample_dt u -> mstd_bootstrap X u dts disps n_o g = Ok (b, g') ->
  exists axes, names (pystr_text (u_dimension u)) axes /\ b_dims b = length axes.
Proof. exact @C26_mstd_proof. Qed.
Print Assumptions C26_mstd_axes.
Theorem C26_mscd_axes : forall G Seed RS (X : Ext R G Seed RS) u dts disps q n_o g b g',
  0 < u_sub_sample_dt u -> mscd_bootstrap X u dts disps q n_o g = Ok (b, g') ->
  exists axes, names (pystr_text (u_dimension u)) axes /\ b_dims b = length axes.
Proof. exact @C26_mscd_proof. Qed.
Print Assumptions C26_mscd_axes.
Theorem C26_other_strings_rejected : forall G Seed RS (X : Ext R G Seed RS) u dts disps q n_o (g : G),
  0 < u_sub_sample_dt u -> disps <> [] -> ~ nameable (pystr_text (u_dimension u)) ->
  msd_bootstrap X u dts disps n_o g = Raise KeyError
  /\ mstd_bootstrap X u dts disps n_o g = Raise KeyError
  /\ mscd_bootstrap X u dts disps q n_o g = Raise KeyError.
Proof. exact @C26_reject_proof. Qed.
Print Assumptions C26_other_strings_rejected.
Theorem C16_unknown_dimension_rejected : forall G Seed RS (X : Ext R G Seed RS) u dts disps q n_o (g : G),
  0 < u_sub_sample_dt u -> disps <> [] -> ~ nameable (pystr_text (u_dimension u)) ->
  msd_bootstrap X u dts disps n_o g = Raise KeyError
  /\ mstd_bootstrap X u dts disps n_o g = Raise KeyError
  /\ mscd_bootstrap X u dts disps q n_o g = Raise KeyError.
Proof. exact @C26_reject_proof. Qed.
Print Assumptions C16_unknown_dimension_rejected.
Example C26_example : names "Xz" [AX; AZ] /\ ~ nameable "zx" /\ ~ nameable "" /\ ~ nameable "xyzw".
Proof. exact C26_example_proof. Qed.

(** ** C27: alignment of the result vectors *)

(** True for sub_sample_dt = 1 (the default). Missing: n_o for other sub_sample_dt. *)
Theorem C27_aligned_partial : forall G Seed RS (X : Ext R G Seed RS) u dts disps n_o g b g',
  u_sub_sample_dt u = 1 -> (forall x, x_sqrt X x = sqrt x) -> u_block u = false ->
  length dts = length disps -> length n_o = length disps -> Forall (fun x => 0 < x)%R n_o ->
  msd_bootstrap X u dts disps n_o g = Ok (b, g') ->
  exists axes shown, names (pystr_text (u_dimension u)) axes
    /\ leading (fun d => 1 < length (entries d))%nat disps shown
    /\ b_dt b = firstn (length shown) dts /\ b_n_o b = firstn (length shown) n_o
    /\ length (b_dt b) = length shown /\ length (b_n_o b) = length shown
    /\ b_n b = map (msd_of axes) shown
    /\ b_ngp b = map (fun d => non_gaussian (map (sqlen axes) (entries d))) shown
    /\ b_euclidian b = map (fun d => map (fun v => sqrt (sqlen axes v)) (entries d)) shown
    /\ length (b_v b) = length shown /\ length (b_s b) = length shown
    /\ forall i d, nth_error shown i = Some d -> exists no v s, nth_error n_o i = Some no
         /\ nth_error (b_v b) i = Some v /\ v = (sample_variance (map (sqlen axes) (entries d)) / no)%R
         /\ nth_error (b_s b) i = Some s /\ (0 <= s)%R /\ (s * s)%R = v.
Proof. exact @C27_proof. Qed.
Print Assumptions C27_aligned_partial.
(** False for sub_sample_dt = 2: n_o is cut to length but not sub-sampled. *)
Theorem C27_n_o_aligned_refuted : exists u dts disps n_o, u_block u = false /\ u_sub_sample_dt u = 2
  /\ length dts = length disps /\ length n_o = length disps /\ Forall (fun x => 0 < x)%R n_o /\ NoDup dts
  /\ forall (G Seed RS : Type) (X : Ext R G Seed RS) (g : G), exists b, msd_bootstrap X u dts disps n_o g = Ok (b, g)
      /\ ~ n_o_claim dts n_o b.
Proof. exact C27_refuted_proof. Qed.
Print Assumptions C27_n_o_aligned_refuted.
(** An input meeting the hypotheses of the first theorem (the run is in [C25_example]). *)
Example C27_example : u_sub_sample_dt (demo_boot 1 "xyz") = 1 /\ u_block (demo_boot 1 "xyz") = false
  /\ length [1;2]%R = length demo_disps /\ length [4;3]%R = length demo_disps /\ Forall (fun x => 0 < x)%R [4;3]%R.
Proof. repeat split. repeat constructor; lra. Qed.

(** ** C28: variance *)
Theorem C28_matching_n_o_refuted : exists u dts disps n_o, u_block u = false /\ u_sub_sample_dt u = 2
  /\ length dts = length disps /\ length n_o = length disps /\ Forall (fun x => 0 < x)%R n_o
  /\ forall (G Seed RS : Type) (X : Ext R G Seed RS) (g : G), exists b, msd_bootstrap X u dts disps n_o g = Ok (b, g)
      /\ ~ variance_claim 2 (pystr_text (u_dimension u)) disps n_o b.
Proof. exact C28_refuted_proof. Qed.
Print Assumptions C28_matching_n_o_refuted.
(** What the code does for every sub_sample_dt k: the displacements are those of interval i*k, but
    n_o that of interval i. For k = 1 this is the claim. Missing: k > 1, where it is false. *)
Theorem C28_variance_partial : forall G Seed RS (X : Ext R G Seed RS) u dts disps n_o g b g',
  0 < u_sub_sample_dt u -> u_block u = false ->
  msd_bootstrap X u dts disps n_o g = Ok (b, g') ->
  forall i v, nth_error (b_v b) i = Some v -> exists axes d no, names (pystr_text (u_dimension u)) axes
    /\ nth_error disps (i * Z.to_nat (u_sub_sample_dt u)) = Some d /\ nth_error n_o i = Some no
    /\ v = (sample_variance (map (sqlen axes) (entries d)) / no)%R.
Proof. exact @C28_general_proof. Qed.
Print Assumptions C28_variance_partial.
Example C28_example : forall G Seed RS (X : Ext R G Seed RS) (g : G), exists b,
  msd_bootstrap X (demo_boot 2 "xyz") [1;2;3]%R hop_disps [4;2;1]%R g = Ok (b, g)
  /\ b_dt b = [1;3]%R /\ b_n_o b = [4;2]%R /\ b_v b = [1/8;1/4]%R.
Proof. exact @hop_run. Qed.

(** ** C29: MSTD *)
Theorem C29_mstd_is_mean : forall G Seed RS (X : Ext R G Seed RS) u dts disps n_o g b g',
  0 < u_sub_sample_dt u -> u_block u = false -> Forall arr_wf disps ->
  mstd_bootstrap X u dts disps n_o g = Ok (b, g') ->
  exists axes used shown, names (pystr_text (u_dimension u)) axes
    /\ sub_sample (Z.to_nat (u_sub_sample_dt u)) disps used
    /\ leading (fun d => 1 < a_obs d)%nat (firstn (Nat.div (length used) 2) used) shown
    /\ b_n b = map (mstd_of axes) shown.
Proof. exact @C29_proof. Qed.
Print Assumptions C29_mstd_is_mean.
Theorem C29_succeeds : forall G Seed RS (X : Ext R G Seed RS) u dts disps n_o axes (g : G),
  0 < u_sub_sample_dt u -> u_bootstrap u = false -> names (pystr_text (u_dimension u)) axes ->
  disps <> [] -> Forall arr_wf disps -> Forall (fun d => 1 < a_obs d)%nat disps ->
  (length disps <= length dts)%nat -> (length disps <= length n_o)%nat ->
  exists b, mstd_bootstrap X u dts disps n_o g = Ok (b, g).
Proof. exact @mstd_total. Qed.
Print Assumptions C29_succeeds.
Theorem C29_one_atom : forall G Seed RS (X : Ext R G Seed RS) u dts disps n_o n_o' g g1 b b1 g' g1',
  0 < u_sub_sample_dt u -> u_block u = false -> Forall arr_wf disps ->
  Forall (fun d => length (a_rows d) = 1%nat) disps ->
  msd_bootstrap X u dts disps n_o g = Ok (b, g') ->
  mstd_bootstrap X u dts disps n_o' g1 = Ok (b1, g1') ->
  b_n b1 = firstn (Nat.div (length (b_displacements b)) 2) (b_n b).
Proof. exact @C29_single_proof. Qed.
Print Assumptions C29_one_atom.
Example C29_example : forall G Seed RS (X : Ext R G Seed RS) (g : G), exists b,
  mstd_bootstrap X (demo_boot 1 "xyz") [1;2]%R demo_disps [4;3]%R g = Ok (b, g) /\ b_n b = [6]%R.
Proof. exact @demo_mstd. Qed.

(** ** C30: MSCD *)

(** False when a dimension other than all three axes is chosen: it is ignored. *)
Theorem C30_chosen_axes_refuted : exists u dts disps n_o q axes, u_block u = false /\ u_sub_sample_dt u = 1
  /\ names (pystr_text (u_dimension u)) axes
  /\ length dts = length disps /\ length n_o = length disps /\ Forall (fun x => 0 < x)%R n_o
  /\ Forall (fun d => length (a_rows d) = 1%nat) disps
  /\ forall (G Seed RS : Type) (X : Ext R G Seed RS) (g : G), exists b, mscd_bootstrap X u dts disps (QScalar q) n_o g = Ok (b, g)
      /\ b_n b = [1]%R /\ map (mscd_of axes [q]) (firstn 1 disps) = [0]%R.
Proof. exact C30_refuted_proof. Qed.
Print Assumptions C30_chosen_axes_refuted.
(** The mean squared charge-weighted displacement along all axes, whatever [dimension] is. Missing:
    the restriction to the chosen axes. *)
Theorem C30_mscd_is_mean_partial : forall G Seed RS (X : Ext R G Seed RS) u dts disps q n_o g b g' natoms,
  0 < u_sub_sample_dt u -> u_block u = false -> Forall arr_wf disps ->
  Forall (fun d => length (a_rows d) = natoms) disps ->
  (forall l, q = QArray l -> length l = natoms) ->
  mscd_bootstrap X u dts disps q n_o g = Ok (b, g') ->
  exists used shown, sub_sample (Z.to_nat (u_sub_sample_dt u)) disps used
    /\ leading (fun d => 1 < a_obs d)%nat (firstn (Nat.div (length used) 2) used) shown
    /\ b_n b = map (mscd_of all_axes (charges q natoms)) shown.
Proof. exact @C30_proof. Qed.
Print Assumptions C30_mscd_is_mean_partial.
Theorem C30_succeeds : forall G Seed RS (X : Ext R G Seed RS) u dts disps q n_o axes natoms (g : G),
  0 < u_sub_sample_dt u -> u_bootstrap u = false -> names (pystr_text (u_dimension u)) axes ->
  disps <> [] -> Forall arr_wf disps -> Forall (fun d => length (a_rows d) = natoms) disps ->
  (forall l, q = QArray l -> length l = natoms) -> Forall (fun d => 1 < a_obs d)%nat disps ->
  (length disps <= length dts)%nat -> (length disps <= length n_o)%nat ->
  exists b, mscd_bootstrap X u dts disps q n_o g = Ok (b, g).
Proof. exact @mscd_total. Qed.
Print Assumptions C30_succeeds.
Theorem C30_scalar_is_equal_charges : forall G Seed RS (X : Ext R G Seed RS) u dts disps c n_o (g : G) natoms,
  0 < u_sub_sample_dt u -> Forall (fun d => length (a_rows d) = natoms) disps ->
  mscd_bootstrap X u dts disps (QScalar c) n_o g = mscd_bootstrap X u dts disps (QArray (repeat c natoms)) n_o g.
Proof. exact @C30_scalar_proof. Qed.
Print Assumptions C30_scalar_is_equal_charges.
Theorem C30_quadratic_in_charge : forall G Seed RS (X : Ext R G Seed RS) u dts disps q c n_o g b g' g1 b1 g1' natoms,
  0 < u_sub_sample_dt u -> u_block u = false -> Forall arr_wf disps ->
  Forall (fun d => length (a_rows d) = natoms) disps ->
  (forall l, q = QArray l -> length l = natoms) ->
  mscd_bootstrap X u dts disps q n_o g = Ok (b, g') ->
  mscd_bootstrap X u dts disps (scale_charge c q) n_o g1 = Ok (b1, g1') ->
  b_n b1 = map (fun x => c * c * x)%R (b_n b).
Proof. exact @C30_scale_proof. Qed.
Print Assumptions C30_quadratic_in_charge.
(** For dimension xyz. *)
Theorem C30_unit_charges_give_mstd : forall G Seed RS (X : Ext R G Seed RS) u dts disps q n_o g b g' g1 b1 g1' natoms,
  0 < u_sub_sample_dt u -> u_block u = false -> Forall arr_wf disps ->
  Forall (fun d => length (a_rows d) = natoms) disps ->
  (forall l, q = QArray l -> length l = natoms) -> Forall (fun x => x = 1%R) (charges q natoms) ->
  names (pystr_text (u_dimension u)) all_axes ->
  mstd_bootstrap X u dts disps n_o g = Ok (b, g') ->
  mscd_bootstrap X u dts disps q n_o g1 = Ok (b1, g1') ->
  b_n b1 = b_n b.
Proof. exact @C30_unit_proof. Qed.
Print Assumptions C30_unit_charges_give_mstd.
Example C30_example : forall G Seed RS (X : Ext R G Seed RS) (g : G), exists b b1,
  mstd_bootstrap X (demo_boot 1 "xyz") [1;2]%R demo_disps [4;3]%R g = Ok (b, g)
  /\ mscd_bootstrap X (demo_boot 1 "xyz") [1;2]%R demo_disps (QArray [1;1]%R) [4;3]%R g = Ok (b1, g)
  /\ b_n b1 = [6]%R.
Proof. exact @C30_example_proof. Qed.

(** ** C31: the non-Gaussian parameter *)
Theorem C31_bound_and_equality : forall G Seed RS (X : Ext R G Seed RS) u dts disps n_o g b g' axes i x,
  0 < u_sub_sample_dt u -> names (pystr_text (u_dimension u)) axes ->
  msd_bootstrap X u dts disps n_o g = Ok (b, g') -> nth_error (b_ngp b) i = Some x ->
  exists d, nth_error disps (i * Z.to_nat (u_sub_sample_dt u)) = Some d
    /\ x = non_gaussian (map (sqlen axes) (entries d))
    /\ (msd_of axes d <> 0%R -> (-2/5 <= x)%R /\
         (x = (-2/5)%R <-> forall v w, In v (entries d) -> In w (entries d) -> sqlen axes v = sqlen axes w)).
Proof. exact @C31_proof. Qed.
Print Assumptions C31_bound_and_equality.
Theorem C31_scale_invariant : forall G Seed RS (X : Ext R G Seed RS) u dts disps n_o g b g' axes c g1 b1 g1',
  0 < u_sub_sample_dt u -> c <> 0%R -> names (pystr_text (u_dimension u)) axes ->
  (forall d, In d disps -> (1 < length (entries d))%nat -> msd_of axes d <> 0%R) ->
  msd_bootstrap X u dts disps n_o g = Ok (b, g') ->
  msd_bootstrap X u dts (map (scale_arr c) disps) n_o g1 = Ok (b1, g1') ->
  b_ngp b1 = b_ngp b.
Proof. exact @C31_scale_proof. Qed.
Print Assumptions C31_scale_invariant.
(** Both cases occur in [C25_example]: -1/40 for unequal and -2/5 for equal squared displacements. *)
Example C31_example : msd_of all_axes demo_pair = 2%R /\ msd_of all_axes demo_pair' = 4%R.
Proof. exact C31_example_proof. Qed.

(** ** C32: ngp_max *)
Theorem C32_ngp_max : forall G Seed RS (X : Ext R G Seed RS) d u g a g',
  0 < u_sub_sample_dt u -> diffusion_analyzer X d u g = Ok (a, g') -> b_dt (an_diff a) <> [] ->
  exists i t, ngp_max a = Ok t /\ nth_error (b_dt (an_diff a)) i = Some t /\ first_maximum (b_ngp (an_diff a)) i.
Proof. exact @C32_proof. Qed.
Print Assumptions C32_ngp_max.
Theorem C32_nothing_analysed : forall G Seed RS (X : Ext R G Seed RS) d u g a g',
  0 < u_sub_sample_dt u -> diffusion_analyzer X d u g = Ok (a, g') -> b_dt (an_diff a) = [] ->
  ngp_max a = Raise ValueError.
Proof. exact @C32_empty_proof. Qed.
Print Assumptions C32_nothing_analysed.
Example C32_example : forall G Seed RS (X : Ext R G Seed RS) (g : G), exists a,
  diffusion_analyzer X (mkAnalyzer [1;2] demo_disps [4;3] None)%R (demo_boot 1 "xyz") g = Ok (a, g)
  /\ ngp_max a = Ok 1%R.
Proof. exact @C32_example_proof. Qed.

(** ** C51: n_i *)
Theorem C51_n_i_readable_refuted : forall G Seed RS (X : Ext R G Seed RS) (g : G), exists b,
  msd_bootstrap X (demo_boot 1 "xyz") [1;2]%R demo_disps [4;3]%R g = Ok (b, g) /\ n_i b = Raise AttributeError.
Proof. exact @C51_refuted_proof. Qed.
Print Assumptions C51_n_i_readable_refuted.
(** No object has it, whereas the property dt is readable. *)
Theorem C51_n_i_never_readable : forall b : Boot R, n_i b = Raise AttributeError /\ dt_property b = Ok (b_dt b).
Proof. exact C51_proof. Qed.
Print Assumptions C51_n_i_never_readable.

(** ** C55: variance of the collective quantities *)

(** As for the MSD, with the number of observations divided by the number of atoms; as in C28 the
    n_o used is that of interval i, which is the right one only for sub_sample_dt = 1. *)
Theorem C55_mstd_variance_partial : forall G Seed RS (X : Ext R G Seed RS) u dts disps n_o g b g',
  0 < u_sub_sample_dt u -> u_block u = false -> Forall arr_wf disps ->
  mstd_bootstrap X u dts disps n_o g = Ok (b, g') ->
  forall i v, nth_error (b_v b) i = Some v -> exists axes d no, names (pystr_text (u_dimension u)) axes
    /\ nth_error disps (i * Z.to_nat (u_sub_sample_dt u)) = Some d /\ nth_error n_o i = Some no
    /\ v = (sample_variance (tab (a_obs d) (fun t => sqlen axes (sum3 (at_time d t)))) / (no / INR (length (a_rows d))))%R.
Proof. exact @C55_mstd_proof. Qed.
Print Assumptions C55_mstd_variance_partial.
Theorem C55_mscd_variance_partial : forall G Seed RS (X : Ext R G Seed RS) u dts disps q n_o g b g' natoms,
  0 < u_sub_sample_dt u -> u_block u = false -> Forall arr_wf disps ->
  Forall (fun d => length (a_rows d) = natoms) disps -> (forall l, q = QArray l -> length l = natoms) ->
  mscd_bootstrap X u dts disps q n_o g = Ok (b, g') ->
  forall i v, nth_error (b_v b) i = Some v -> exists d no,
    nth_error disps (i * Z.to_nat (u_sub_sample_dt u)) = Some d /\ nth_error n_o i = Some no
    /\ v = (sample_variance (tab (a_obs d) (fun t => sqlen all_axes
             (sum3 (map (fun p => scale3 (fst p) (snd p)) (combine (charges q natoms) (at_time d t))))))
            / (no / INR natoms))%R.
Proof. exact @C55_mscd_proof. Qed.
Print Assumptions C55_mscd_variance_partial.
