(** * SpecIntercept: vocabulary of C101 (not of the code) *)
From Verif Require Import Base ModelDiffusion.
From Coq Require Import Reals.
Open Scope R_scope.

Section Intercept.
  Context {G Seed RS : Type} (X : Ext R G Seed RS).
  (** What scipy's optimiser, NumPy and emcee do about the number of parameters: the optimum has as many as the start, the
      noise as many columns as asked for, and a proposed position as many as the positions it was made from. *)
  Record keeps_length : Prop := {
    kl_optimum : forall f x0 ml, x_minimize X f x0 = Ok ml -> length ml = length x0;
    kl_noise : forall g r c, Forall (fun row => length row = c) (fst (x_randn X g r c));
    kl_proposal : forall g d pos, Forall (fun row => length row = d) pos ->
      Forall (fun m => match m with Some (row, _, _) => length row = d | None => True end) (fst (x_propose X g pos)) }.
End Intercept.
(** Samples of lines: a gradient and an intercept each, or a gradient alone for lines through the origin. *)
Definition lines_with (gradient intercept : list R) : list (list R) := map (fun l => [fst l; snd l]) (combine gradient intercept).
Definition lines_through_origin (gradient : list R) : list (list R) := map (fun m => [m]) gradient.
