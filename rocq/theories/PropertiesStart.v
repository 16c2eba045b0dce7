(** * PropertiesStart: C38 from what the optimiser does

    [goes_downhill X]: started where its function is finite, scipy's optimiser ends where it is finite and not larger.
    [ordinary_noise X]: np.random.randn gives the requested rows, with nothing below -1000.
    Nothing is assumed about the sign of the gradient the optimiser or the regression finds. *)
From Verif Require Import Base Spec SpecParser SpecStats SpecFit ModelParser ModelDiffusion ModelHdf ModelAnalyzer SpecRun SpecStart
  ProofsFit2 ProofsStart.
From Coq Require Import Reals.
Open Scope Z_scope.

Theorem C38_gradient_any_optimiser : forall G Seed RS (X : Ext R G Seed RS), goes_downhill X -> ordinary_noise X ->
  forall b p g b' g', bootstrap_GLS X b p g = (b', g', Ok tt) -> exists gr, b_gradient b' = Some gr /\ all_ge 0 gr.
Proof. exact @start_gls_proof. Qed.
Print Assumptions C38_gradient_any_optimiser.
Theorem C38_D_any_optimiser : forall G Seed RS (X : Ext R G Seed RS), goes_downhill X -> ordinary_noise X ->
  forall b p g b' g', (0 < b_dims b)%nat -> diffusion X b p g = (b', g', Ok tt) ->
  exists d, b_D b' = Some d /\ all_ge 0 d.
Proof. exact @start_diffusion_proof. Qed.
Print Assumptions C38_D_any_optimiser.
Theorem C38_DJ_any_optimiser : forall G Seed RS (X : Ext R G Seed RS), goes_downhill X -> ordinary_noise X ->
  forall b p g b' g', (0 < b_dims b)%nat -> Forall (fun d => 0 < length (a_rows d))%nat (b_displacements b) ->
  jump_diffusion X b p g = (b', g', Ok tt) -> exists d, b_DJ b' = Some d /\ all_ge 0 d.
Proof. exact @start_jump_proof. Qed.
Print Assumptions C38_DJ_any_optimiser.
Theorem C38_sigma_any_optimiser : forall G Seed RS (X : Ext R G Seed RS), goes_downhill X -> ordinary_noise X ->
  forall k b p t vol g b' g', (0 < b_dims b)%nat -> (0 < k_NA k)%R -> (0 < k_R k)%R -> (0 < t)%R -> (0 < vol)%R ->
  conductivity X k b p t vol g = (b', g', Ok tt) -> exists d, b_sigma b' = Some d /\ all_ge 0 d.
Proof. exact @start_sigma_proof. Qed.
Print Assumptions C38_sigma_any_optimiser.
(** An optimiser that stays at its start, and data whose regression slope is -6: all samples are the tiny positive number put in its place. *)
Example C38_any_optimiser_example : (goes_downhill idle_ext /\ ordinary_noise idle_ext) /\
  forall g, exists b, bootstrap_GLS idle_ext demo_data (demo_fit 1 false) g = (b, 8%nat, Ok tt) /\ b_gradient b = Some (repeat tiny 4).
Proof. split; [exact idle_meets|exact idle_runs]. Qed.
