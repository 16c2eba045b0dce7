(** * SpecAxes: vocabulary of C114 *)
From Verif Require Import Base ModelDiffusion.
From Coq Require Import Reals.

(** Two charge analyses report the same times, means, variances, standard deviations and numbers of observations. *)
Definition same_charge_data (b b' : Boot R) : Prop := b_dt b' = b_dt b /\ b_n b' = b_n b /\ b_v b' = b_v b /\ b_s b' = b_s b /\ b_n_o b' = b_n_o b.
