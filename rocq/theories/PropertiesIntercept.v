(** * PropertiesIntercept: C101, and C37 from end to end

    [keeps_length X]: the optimiser returns as many parameters as it is given, np.random.randn as many columns as asked for, and a
    proposed position has as many parameters as the positions it is made from. *)
From Verif Require Import Base Spec SpecParser SpecStats SpecFit SpecAnalyzer ModelParser ModelDiffusion ModelHdf ModelAnalyzer SpecRun SpecTrue SpecColl SpecIntercept
  ProofsTraj ProofsFit2 ProofsStats ProofsTrue ProofsColl ProofsIntercept.
From Coq Require Import Reals.
Open Scope Z_scope.

(** ** C101
    With fit_intercept=True the stored chain consists of pairs of a gradient and an intercept, and the two distributions are its
    columns; with fit_intercept=False it consists of gradients alone, and there is no intercept. *)
Theorem C101_with_intercept : forall G Seed RS (X : Ext R G Seed RS), keeps_length X -> forall b p g b' g',
  l_fit_intercept p = true -> bootstrap_GLS X b p g = (b', g', Ok tt) ->
  exists gr ic, b_gradient b' = Some gr /\ b_intercept b' = Some ic /\ length ic = length gr /\ b_flatchain b' = Some (lines_with gr ic).
Proof. exact @C101_intercept_proof. Qed.
Print Assumptions C101_with_intercept.
Theorem C101_through_origin : forall G Seed RS (X : Ext R G Seed RS), keeps_length X -> forall b p g b' g',
  l_fit_intercept p = false -> bootstrap_GLS X b p g = (b', g', Ok tt) ->
  exists gr, b_gradient b' = Some gr /\ b_intercept b' = None /\ b_flatchain b' = Some (lines_through_origin gr).
Proof. exact @C101_origin_proof. Qed.
Print Assumptions C101_through_origin.
(** The same for calls of diffusion, jump_diffusion and conductivity, whatever was fitted before. *)
Theorem C101_calls_with_intercept : forall G Seed RS (X : Ext R G Seed RS), keeps_length X -> forall b g (c : call (RS := RS)) b' g',
  l_fit_intercept (settings c) = true -> run_call X b g c = (b', g', Ok tt) ->
  exists gr ic, b_gradient b' = Some gr /\ b_intercept b' = Some ic /\ length ic = length gr /\ b_flatchain b' = Some (lines_with gr ic).
Proof. exact @C101_call_proof. Qed.
Print Assumptions C101_calls_with_intercept.
Theorem C101_calls_through_origin : forall G Seed RS (X : Ext R G Seed RS), keeps_length X -> forall b g (c : call (RS := RS)) b' g',
  l_fit_intercept (settings c) = false -> run_call X b g c = (b', g', Ok tt) ->
  exists gr, b_gradient b' = Some gr /\ b_intercept b' = None /\ b_flatchain b' = Some (lines_through_origin gr).
Proof. exact @C101_origin_call_proof. Qed.
Print Assumptions C101_calls_through_origin.
Example C101_example : keeps_length (sized_ext 6) /\ forall g,
  (exists b, bootstrap_GLS (sized_ext 6) demo_data (demo_fit 1 true) g = (b, 8%nat, Ok tt) /\ b_intercept b = Some (repeat 0%R 4) /\ b_flatchain b = Some (repeat [6; 0]%R 4))
  /\ (exists b, bootstrap_GLS (sized_ext 6) demo_data (demo_fit 1 false) g = (b, 8%nat, Ok tt) /\ b_intercept b = None /\ b_flatchain b = Some (repeat [6]%R 4)).
Proof. exact C101_example_proof. Qed.

(** ** C37 from end to end
    The dimensionality is the number of axes named by the user, the number of atoms that of the followed ones, and the volume that
    of the frames. *)
Theorem C37_D_of_axes : forall G Seed RS (X : Ext R G Seed RS) d u axes g an g1 l g2 an' g3, 0 < u_sub_sample_dt u -> names (pystr_text (u_dimension u)) axes ->
  diffusion_analyzer X d u g = Ok (an, g1) -> an_diffusion X an l g2 = (an', g3, Ok tt) ->
  exists gr, b_gradient (an_diff an') = Some gr /\ b_D (an_diff an') = Some (map (fun s => in_cm2_per_s (einstein (length axes) s)) gr).
Proof. exact @C37_D_proof. Qed.
Print Assumptions C37_D_of_axes.
Theorem C37_D_J_of_atoms : forall G Seed RS (X : Ext R G Seed RS) i circ cell types vol n natoms k x a p u axes g an g1 l g2 an' g3,
  faithful_read i circ cell types vol n natoms k x a p -> p_indices p <> [] ->
  0 < u_sub_sample_dt u -> names (pystr_text (u_dimension u)) axes ->
  jump_diffusion_analyzer X (of_parsed p) u g = Ok (an, g1) -> an_jump_diffusion X an l g2 = (an', g3, Ok tt) ->
  exists gr, b_gradient (an_diff an') = Some gr
    /\ b_DJ (an_diff an') = Some (map (fun s => in_cm2_per_s (einstein (length axes) s) / INR (length (p_indices p)))%R gr).
Proof. exact @C37_DJ_proof. Qed.
Print Assumptions C37_D_J_of_atoms.
Theorem C37_sigma_of_cell : forall G Seed RS (X : Ext R G Seed RS) i circ cell types vol n natoms k x a p q u axes g an g1 c l t g2 an' g3,
  faithful_read i circ cell types vol n natoms k x a p -> (forall z, q = QArray z -> length z = length (p_indices p)) ->
  0 < u_sub_sample_dt u -> names (pystr_text (u_dimension u)) axes -> k_NA c <> 0%R -> k_R c <> 0%R -> t <> 0%R -> vol <> 0%R ->
  conductivity_analyzer X (of_parsed p) q u g = Ok (an, g1) -> an_conductivity X c an l t g2 = (an', g3, Ok tt) ->
  exists gr, b_gradient (an_diff an') = Some gr
    /\ b_sigma (an_diff an') = Some (map (fun s => in_milli (nernst_einstein (k_NA c) (k_e c) (k_R c) (in_cm3 vol) t (in_cm2_per_s (einstein (length axes) s)))) gr).
Proof. exact @C37_S_proof. Qed.
Print Assumptions C37_sigma_of_cell.
(** An atom of two, followed along all three axes in a cell of volume one. *)
Example C37_ends_example : forall circ g, exists p jn jn' cn cn',
  faithful_read Ase circ unit_cell ["Li"; "O"]%string 1%R 4 2 1 (walk steady) walk_params p /\ p_indices p = [0]
  /\ jump_diffusion_analyzer (demo_ext 1 6) (of_parsed p) (demo_boot 1 "xyz") g = Ok (jn, g) /\ an_jump_diffusion (demo_ext 1 6) jn (demo_fit 1 true) g = (jn', 8%nat, Ok tt)
  /\ conductivity_analyzer (demo_ext 1 6) (of_parsed p) (QScalar 1%R) (demo_boot 1 "xyz") g = Ok (cn, g)
  /\ an_conductivity (demo_ext 1 6) (mkConsts 1 1 1)%R cn (demo_fit 1 true) 300%R g = (cn', 8%nat, Ok tt).
Proof. exact C37_ends_example_proof. Qed.
