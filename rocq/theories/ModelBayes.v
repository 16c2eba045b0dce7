(** * ModelBayes: kinisi/diffusion.py, _bayesian_bootstrap (lines 804-835)

    Called nowhere in the package, but importable. [G] is the state of the generator: the one passed
    as random_state or, when that is None, a new one (lines 825-826) in an arbitrary state. NumPy's
    dirichlet and multinomial are arguments; they get the state, the parameter vector and the
    number of rows. With k = 1 the divisor of line 829 is 0; n_samples is a Python number. *)
From Verif Require Import Base.
Local Open Scope num_scope.

Section Bayes.
  Context {A : Type} {NA : Num A} {G : Type}.
  Context (dirichlet multinomial : G -> list A -> nat -> list (list A) * G).

  Definition bayesian_bootstrap (g : G) (values : list A) (n_samples : A) (n_resamples : nat) : Res (list A * G) :=
    let k := Z.of_nat (length values) in                                        (* lines 827-828 *)
    let! alphak := py_div (n_samples - n1) (nofZ (k - 1)) in                    (* line 829 *)
    let '(weights, g') :=
      if n0 <? alphak
      then dirichlet g (repeat (n1 * alphak) (length values)) n_resamples       (* lines 830-831 *)
      else multinomial g (repeat (n1 / nofZ k) (length values)) n_resamples in  (* lines 832-834 *)
    Ok (map (fun row => nsum (zip_with nmul row values)) weights, g').          (* line 835 *)
End Bayes.
