(** * SpecLost: coordinates that are not numbers (C105) *)
From Verif Require Import Base ModelParser SpecTrue.
From Coq.Floats Require Import SpecFloat.

(** NaN and the infinities. *)
Definition no_number (x : spec_float) : Prop := match x with S754_nan | S754_infinity _ => True | _ => False end.
(** The three constructors, all arithmetic in double precision. *)
Definition parser_in_doubles (i : interface) : (Z -> Z -> Z -> Res (list Z)) -> (option (list spec_float) -> list spec_float -> Res spec_float) ->
    list (Frame spec_float) -> Params spec_float -> Res (Parsed spec_float) :=
  match i with Ase => ase_parser | Pymatgen => pymatgen_parser | MDAnalysis => mda_parser end.

(** Frames with the same types, cell and volume, and as many atoms, that agree at the atoms [l]. *)
Definition agree_at {A} (l : list Z) (f f' : Frame A) : Prop :=
  f_types f' = f_types f /\ f_cell f' = f_cell f /\ f_volume f' = f_volume f /\ length (f_pos f') = length (f_pos f)
  /\ forall i, In i l -> py_index (f_pos f') i = py_index (f_pos f) i.
(** Parsed objects that agree in everything but the stored displacements of all atoms. *)
Definition same_measured {A} (p p' : Parsed A) : Prop :=
  p_intervals p' = p_intervals p /\ p_delta_t p' = p_delta_t p /\ p_disp_3d p' = p_disp_3d p /\ p_n_o p' = p_n_o p
  /\ p_indices p' = p_indices p /\ p_drift_indices p' = p_drift_indices p
  /\ p_min_dt p' = p_min_dt p /\ p_max_dt p' = p_max_dt p /\ p_volume p' = p_volume p.
