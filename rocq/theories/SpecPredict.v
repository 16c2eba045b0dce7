(** * SpecPredict: vocabulary of C110, posterior predictions on average over the random numbers *)
From Verif Require Import Base Spec SpecFit SpecMarkov SpecRun ModelParser ModelDiffusion.
From Coq Require Import Reals.
Open Scope R_scope.

(** The points at the times [dts] of the line of the s-th posterior sample. *)
Definition sample_line (gr ic dts : list R) (s : nat) : list R := line_points dts (vec_entry gr s) (vec_entry ic s).
(** The [k] indices below [K] the generator returns when it is asked for them in the state [g]. *)
Definition picked {G Seed RS} (X : Ext R G Seed RS) (g : G) (K k : nat) : list nat := fst (x_randints X g K k).
(** What it returns when it is then asked for [n] normal vectors around each of the means [mus]. *)
Fixpoint scattered_around {G Seed RS} (X : Ext R G Seed RS) (g : G) (mus : list (list R)) (cov : list (list R)) (n : nat) : list (list (list R)) :=
  match mus with
  | [] => []
  | mu :: rest => let '(rows, g') := x_mvn X g mu cov n in rows :: scattered_around X g' rest cov n
  end.
Section Fair.
  Context {G Seed RS : Type} (gs : list G) (wt : G -> R) (X : Ext R G Seed RS) (gr ic dts : list R) (cov : list (list R)) (k n : nat).
  (** The j-th index, and by how much the p-th vector around its line is off at the i-th time. *)
  Definition pick (j : nat) (g : G) : nat := nth j (picked X g (length gr) k) O.
  Definition noise (j p i : nat) (g : G) : R :=
    vec_entry (nth p (nth j (scattered_around X (snd (x_randints X g (length gr) k)) (map (sample_line gr ic dts) (picked X g (length gr) k)) cov n) []) []) i
    - vec_entry (sample_line gr ic dts (pick j g)) i.
  (** Over the states [gs] with the probabilities [wt]: every posterior sample is equally likely to be
      picked, and two picks are independent; the noise has mean 0 whichever samples were picked, the
      covariance matrix [cov], and is not correlated between different vectors. *)
  Definition fair_predictions : Prop :=
    rsum (map wt gs) = 1
    /\ (forall j f, (j < k)%nat -> mean_over gs wt (fun g => f (pick j g)) = average (tab (length gr) f))
    /\ (forall j j' f h, (j < k)%nat -> (j' < k)%nat -> j <> j' ->
          mean_over gs wt (fun g => f (pick j g) * h (pick j' g)) = average (tab (length gr) f) * average (tab (length gr) h))
    /\ (forall j p i j' f, (j < k)%nat -> (p < n)%nat -> (i < length dts)%nat -> (j' < k)%nat -> mean_over gs wt (fun g => f (pick j' g) * noise j p i g) = 0)
    /\ (forall j p i j' p' i', (j < k)%nat -> (p < n)%nat -> (i < length dts)%nat -> (j' < k)%nat -> (p' < n)%nat -> (i' < length dts)%nat ->
          mean_over gs wt (fun g => noise j p i g * noise j' p' i' g) = if (Nat.eqb j j' && Nat.eqb p p')%bool then matrix_entry cov i i' else 0).
End Fair.
(** Covariance of two lists of posterior samples. *)
Definition sample_covariance (a b : list R) : R :=
  average (tab (length a) (fun s => (vec_entry a s - average a) * (vec_entry b s - average b))).
(** The average line, and the covariance of the values of the lines at two times. *)
Definition mean_line (gr ic : list R) (t : R) : R := average gr * t + average ic.
Definition lines_covariance (gr ic : list R) (t t' : R) : R :=
  t * t' * sample_covariance gr gr + (t + t') * sample_covariance gr ic + sample_covariance ic ic.
