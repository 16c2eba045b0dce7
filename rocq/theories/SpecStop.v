(** * SpecStop: vocabulary of C129, resampling until a normality test is passed *)
From Verif Require Import Base Spec SpecStats SpecFit SpecMarkov SpecResample ModelParser ModelDiffusion.
From Coq Require Import Reals.

(** All lists of [m] indices below [k]. *)
Fixpoint all_lists (k m : nat) : list (list nat) :=
  match m with
  | O => [[]]
  | S m' => flat_map (fun j => map (cons j) (all_lists k m')) (seq 0 k)
  end.
(** The first [p] lists that the generator returns when it is asked again and again for [m] indices below [k]. *)
Definition first_lists {G Seed RS} (X : Ext R G Seed RS) (k m p : nat) (g : G) : list (list nat) := fst (drawn X g (repeat (k, m) p)).
(** Over the initial states [gs] of the generator with the probabilities [wt], each of the first [n] lists takes every
    value with the same probability, independently of the lists before it. *)
Definition independent_lists {G Seed RS} (gs : list G) (wt : G -> R) (X : Ext R G Seed RS) (k m n : nat) : Prop :=
  forall p (past : list (list nat) -> R) (next : list nat -> R), (p < n)%nat ->
    mean_over gs wt (fun g => past (first_lists X k m p g) * next (nth p (first_lists X k m (S p) g) []))%R
    = (mean_over gs wt (fun g => past (first_lists X k m p g)) * average (map next (all_lists k m)))%R.
(** The largest possible number of resamples (C39). *)
Definition most_resamples (n_resamples max_resamples : Z) : nat := Nat.max (Z.to_nat n_resamples) (Z.to_nat max_resamples + 99).
(** The variance of the numbers [l] themselves. *)
Definition population_variance (l : list R) : R := average (map (fun x => (x - average l) * (x - average l))%R l).

(** An ideal generator: its state is the list of all the random numbers still to come. The other routines are arbitrary. *)
Definition ideal {Seed RS} (X : Ext R (list nat) Seed RS) : Ext R (list nat) Seed RS :=
  mkExt (x_sqrt X) (fun g n m => (map (fun i => Nat.modulo (nth i g 0%nat) n) (seq 0 m), skipn m g))
    (x_normaltest X) (x_reblock X) (x_seed_of X) (x_seed X) (x_curve_fit X) (x_eig X) (x_cov_nearest X) (x_logdet X) (x_log2pi X) (x_pinvh X)
    (x_linregress X) (x_minimize X) (x_randn X) (x_independent X) (x_propose X) (x_mvn X).
Definition equally_likely {T} (gs : list T) (g : T) : R := (/ INR (length gs))%R.
(** The same generator with a normality test that looks only at the first resampled value. *)
Definition judged_by_first {Seed RS} (X : Ext R (list nat) Seed RS) : Ext R (list nat) Seed RS :=
  mkExt (x_sqrt X) (x_randints (ideal X)) (fun v => nth 0 v 0%R) (x_reblock X) (x_seed_of X) (x_seed X) (x_curve_fit X) (x_eig X) (x_cov_nearest X) (x_logdet X) (x_log2pi X) (x_pinvh X)
    (x_linregress X) (x_minimize X) (x_randn X) (x_independent X) (x_propose X) (x_mvn X).
