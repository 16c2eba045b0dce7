(** * SpecStart: what scipy's optimiser and NumPy's random numbers must do for C38 *)
From Verif Require Import Base ModelDiffusion.
From Coq Require Import Reals.
Open Scope R_scope.

Section Start.
  Context {G Seed RS : Type} (X : Ext R G Seed RS).
  (** `minimize(f, x0).x`: started at a point where f is finite, it ends at a point where f is finite and not larger. *)
  Definition goes_downhill : Prop := forall f x0 y0 ml, f x0 = Ok (Some y0) -> x_minimize X f x0 = Ok ml ->
    exists y, f ml = Ok (Some y) /\ y <= y0.
  (** `np.random.randn(r, c)`: rows of c numbers, none below -1000 standard deviations. *)
  Definition ordinary_noise : Prop := forall g r c,
    Forall (fun row => length row = c /\ Forall (fun z => -1000 <= z) row) (fst (x_randn X g r c)).
End Start.
