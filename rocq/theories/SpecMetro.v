(** * SpecMetro: the Metropolis rule for straight lines, independent of the model (C115) *)
From Verif Require Import Base Spec SpecFit ModelDiffusion.
From Coq Require Import Reals.
Open Scope R_scope.

(** The parameters [th] of a fit, with or without intercept, mean the line of slope [g] and intercept [c]. *)
Definition line_of (th : list R) (g c : R) : Prop := th = [g; c] \/ (th = [g] /\ c = 0).
(** Likelihood of a line up to a factor that is the same for all lines; zero for falling lines. *)
Definition weight (w : list (list R)) (dt n : list R) (g c : R) : R :=
  if Rlt_dec g 0 then 0 else exp (- quadratic w (residuals dt n g c) / 2).
(** The chance of going from a line of weight [old] to one of weight [new] by a move whose proposal factor is exp [f]. *)
Definition metropolis (f old new : R) : R := Rmin 1 (exp f * (new / old)).
(** The same libraries with another determinant and another value of log(2 pi). *)
Definition with_determinant {G Seed RS} (X : Ext R G Seed RS) (det : list (list R) -> R) (log2pi : R) : Ext R G Seed RS :=
  mkExt (x_sqrt X) (x_randints X) (x_normaltest X) (x_reblock X) (x_seed_of X) (x_seed X) (x_curve_fit X) (x_eig X) (x_cov_nearest X)
    (fun m => Ok (det m)) log2pi (x_pinvh X) (x_linregress X) (x_minimize X) (x_randn X) (x_independent X) (x_propose X) (x_mvn X).
(** The minimiser finds the same place when a constant is added to the function. *)
Definition ignores_constants {G Seed RS} (X : Ext R G Seed RS) : Prop := forall f f' (k : R) x0,
  (forall th, f' th = match f th with Ok (Some v) => Ok (Some (v + k)) | r => r end) -> x_minimize X f' x0 = x_minimize X f x0.
