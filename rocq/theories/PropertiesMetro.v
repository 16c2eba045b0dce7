(** * PropertiesMetro: C115, the posterior samples depend on the misfit alone *)
From Verif Require Import Base Spec SpecFit SpecMetro ModelDiffusion ProofsCov ProofsFit2 ProofsMetro.
From Coq Require Import Reals.
Open Scope R_scope.

(** ** C115 *)
(** A walker at one line takes the proposed line for exactly the random numbers below the Metropolis chance of their weights; for
    uniform random numbers that is its probability. *)
Theorem C115_moves : forall dt n (ld : R) w th th' g c g' c' l f u,
  length dt = length n -> square w (length n) -> line_of th g c -> line_of th' g' c' -> 0 < u < 1 ->
  log_likelihood dt n ld w th = Ok (Some l) -> exists l' w', log_likelihood dt n ld w th' = Ok l' /\ move_walker (log_likelihood dt n ld w) (th, Some l) (Some (th', f, ln u)) = Ok w'
    /\ (u < metropolis f (weight w dt n g c) (weight w dt n g' c') -> w' = (th', l'))
    /\ (metropolis f (weight w dt n g c) (weight w dt n g' c') <= u -> w' = (th, Some l)).
Proof. exact C115_moves_proof. Qed.
Print Assumptions C115_moves.
(** With that chance the weights are in detailed balance: as many walkers go one way as the other. *)
Theorem C115_balance : forall f a b,
  0 < a -> 0 < b -> a * metropolis f a b = exp f * b * metropolis (- f) b a.
Proof. exact C115_balance_proof. Qed.
Print Assumptions C115_balance.
(** The determinant of the covariance matrix and the factor 2 pi, which enter the likelihood, change nothing in any fit. *)
Theorem C115_determinant : forall G Seed RS (X : Ext R G Seed RS) det l2 b p g,
  ignores_constants X -> (forall m, exists x, x_logdet X m = Ok x) ->
    bootstrap_GLS (with_determinant X det l2) b p g = bootstrap_GLS X b p g.
Proof. exact @C115_determinant_proof. Qed.
Print Assumptions C115_determinant.
(** A step that is sometimes taken and one that never is. *)
Example C115_example : line_of [2] 2 0 /\ square id2 2 /\ metropolis 0 (weight id2 [1;2] [2;4] 2 0) (weight id2 [1;2] [2;4] 3 0) = exp (- (5 / 2))
  /\ metropolis 0 (weight id2 [1;2] [2;4] 2 0) (weight id2 [1;2] [2;4] (-1) 0) = 0.
Proof. exact C115_example_proof. Qed.
(** Libraries and a fit that meet the hypotheses. *)
Example C115_example_fit : forall pv m0 (f : bool) g,
  ignores_constants (demo_ext pv m0) /\ (forall m, exists x, x_logdet (demo_ext pv m0) m = Ok x)
  /\ exists b g', bootstrap_GLS (demo_ext pv m0) demo_data (demo_fit 1 f) g = (b, g', Ok tt) /\ b_gradient b = Some (repeat m0 4).
Proof. exact C115_example_fit_proof. Qed.
