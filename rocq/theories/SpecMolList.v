(** * SpecMolList: one set of molecules written down in different ways *)
From Verif Require Import Base Spec SpecParser SpecMol ModelParser.
From Coq Require Import Reals Permutation.
Open Scope Z_scope.

(** The same parameters with the atoms to follow given as [s] and the masses as [w]. *)
Definition with_selection (a : Params R) (s : spec_ix) (w : option (list R)) : Params R :=
  mkParams (a_specie a) (a_time_step a) (a_step_skip a) (a_sub_sample_atoms a) (a_sub_sample_traj a) (a_opts a)
           s w (a_framework a).
(** [m'] lists the atoms of the molecule [m], each with its own mass. *)
Definition same_molecule (w w' : option (list R)) (m m' : list Z) : Prop :=
  match w, w' with
  | None, None => Permutation m m'
  | Some u, Some u' => length u = length m /\ length u' = length m' /\ Permutation (combine u m) (combine u' m')
  | _, _ => False
  end.
(** Two parses agree in everything that an analysis is given; the internal numbering of the
    followed atoms may differ. *)
Definition same_results (p p' : Parsed R) : Prop :=
  p_disp_3d p' = p_disp_3d p /\ p_intervals p' = p_intervals p /\ p_delta_t p' = p_delta_t p /\ p_n_o p' = p_n_o p
  /\ p_min_dt p' = p_min_dt p /\ p_max_dt p' = p_max_dt p /\ p_volume p' = p_volume p.
(** Each atom a molecule of its own; molecules count atoms from one, [specie_indices] from zero. *)
Definition one_each (l : list Z) : list (list Z) := map (fun i => [i + 1]) l.
