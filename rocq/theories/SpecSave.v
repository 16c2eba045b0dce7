(** * SpecSave: vocabulary for saving and loading analysers *)
From Verif Require Import Base Spec ModelDiffusion ModelHdf ModelAnalyzer SpecHdf SpecAnalyzer.
From Coq Require Import Reals Ascii.
Open Scope string_scope.

(** Text comes back from a file as bytes. *)
Definition as_bytes (d : pystr) : pystr := match d with PyStr s => PyBytes s | PyBytes s => PyBytes s end.
Definition with_dim (b : Boot R) (d : pystr) : Boot R :=
  mkBoot (b_displacements b) (b_delta_t b) (b_max_obs b) (b_distributions b) (b_dt b) (b_n b) (b_s b) (b_v b)
    (b_n_bootstrap b) (b_s_bootstrap b) (b_v_bootstrap b) (b_n_o b) (b_ngp b) (b_sub_sample_dt b)
    d (b_euclidian b) (b_D b) (b_DJ b) (b_sigma b) (b_intercept b) (b_gradient b)
    (b_flatchain b) (b_covariance b) (b_slice b) (b_start_dt b) (b_dims b) (b_model b) (b_cond_max b).

(** What is asked of uravu's Distribution.to_dict / from_dict: a dictionary of arrays, numbers, text
    and None, from which the samples can be restored also after it went through a file. *)
Definition dist_dicts (to_d : list R -> list (string * pyval (nd R) R)) (of_d : list (string * pyval (nd R) R) -> Res (list R)) : Prop :=
  forall l, to_d l <> [] /\ key_names (to_d l) /\ not_listlike (to_d l) /\ Forall (fun kv => flat (snd kv)) (to_d l)
    /\ forall d', loads_as (VDict (to_d l)) (VDict d') -> of_d d' = Ok l.

(** The same path with the extension replaced. *)
Definition dot_free (s : string) : Prop := ~ In "."%char (list_ascii_of_string s).

Definition no_files {T F} : fs (T:=T) (F:=F) := fun _ => None.
(** Saving a dictionary to a new file and loading that file. *)
Definition reload {T F} (d : list (string * pyval T F)) : Res (list (string * pyval T F)) :=
  let '(s, r) := save no_files "out" d in let! _ := r in load 20 s "out".
