(** * SpecGrid: vocabulary of C78, one trajectory analysed at different sets of intervals *)
From Verif Require Import Base Spec SpecParser SpecStats ModelParser ModelDiffusion ModelHdf ModelAnalyzer SpecRun.
From Coq Require Import Reals Sorting.Sorted.
Open Scope Z_scope.

(** The same parser parameters with other interval options (minimum, maximum, number, spacing,
    memory limit). *)
Definition with_options (o : Options R) (a : ModelParser.Params R) : ModelParser.Params R :=
  mkParams (a_specie a) (a_time_step a) (a_step_skip a) (a_sub_sample_atoms a) (a_sub_sample_traj a) o
    (a_specie_indices a) (a_masses a) (a_framework a).
(** The intervals, in steps, are positive and do not decrease. *)
Definition ascending (l : list Z) : Prop := Forall (fun n => 0 < n) l /\ StronglySorted Z.le l.
(** The longest interval analysed. *)
Definition longest (p : Parsed R) : R := IZR (last (p_intervals p) 0).
(** Entry [t] of one analysis and entry [t] of the other one have the same statistic. *)
Definition same_where_shared {T} (f : Boot R -> list T) (b b' : Boot R) : Prop :=
  forall i j t, nth_error (b_dt b) i = Some t -> nth_error (b_dt b') j = Some t -> nth_error (f b) i = nth_error (f b') j.
(** Both objects are built by the same analyser class, each with its own data and settings. *)
Definition analysed_alike {G Seed RS} (X : Ext R G Seed RS) (d d' : AnalyzerData R) (q : charge R) (u u' : BootParams R) (an an' : Analyzer R) : Prop :=
  exists g g' h h',
    (diffusion_analyzer X d u g = Ok (an, h) /\ diffusion_analyzer X d' u' g' = Ok (an', h'))
    \/ (jump_diffusion_analyzer X d u g = Ok (an, h) /\ jump_diffusion_analyzer X d' u' g' = Ok (an', h'))
    \/ (conductivity_analyzer X d q u g = Ok (an, h) /\ conductivity_analyzer X d' q u' g' = Ok (an', h')).
