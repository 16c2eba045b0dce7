(** * PropertiesLikely: C122, the likelihood in double precision *)
From Verif Require Import Base SpecDouble SpecRound SpecLikely ModelDiffusion ProofsLikely.
From Coq Require Import Reals.
From Coq.Floats Require Import SpecFloat.
Open Scope R_scope.

(** ** C122
    The log likelihood that bootstrap_GLS maximises and samples, computed in doubles for [n] data, is the Gaussian one
    of the same stored numbers up to (2n + 15) 2^-52 of the sizes of all its terms, and minus infinity
    exactly for negative gradients. *)
Theorem C122_line : forall g c t y ld w, usual_fit g c t y ld w ->
  (value g < 0 -> log_likelihood t y ld w [g; c] = Ok None)
  /\ (0 <= value g -> exists v, log_likelihood t y ld w [g; c] = Ok (Some v) /\ finite_double v
      /\ Rabs (value v - gaussian_log (value g) (value c) (map value t) (map value y) (value ld) (map (map value) w))
         <= allowed_error (value g) (value c) (map value t) (map value y) (value ld) (map (map value) w)).
Proof. exact C122_line_proof. Qed.
Print Assumptions C122_line.
(** The same for lines through the origin. *)
Theorem C122_origin : forall g t y ld w, usual_fit g (S754_zero false) t y ld w ->
  (value g < 0 -> log_likelihood t y ld w [g] = Ok None)
  /\ (0 <= value g -> exists v, log_likelihood t y ld w [g] = Ok (Some v) /\ finite_double v
      /\ Rabs (value v - gaussian_log (value g) 0 (map value t) (map value y) (value ld) (map (map value) w))
         <= allowed_error (value g) 0 (map value t) (map value y) (value ld) (map (map value) w)).
Proof. exact C122_origin_proof. Qed.
Print Assumptions C122_origin.
(** It does not matter in which order numpy.matmul adds up. *)
Theorem C122_any_order : forall g c t y ld w v, usual_fit g c t y ld w -> computed_likelihood g c t y ld w v ->
  finite_double v /\ Rabs (value v - gaussian_log (value g) (value c) (map value t) (map value y) (value ld) (map (map value) w))
    <= allowed_error (value g) (value c) (map value t) (map value y) (value ld) (map (map value) w).
Proof. exact C122_any_order_proof. Qed.
Print Assumptions C122_any_order.
(** So of two lines the one that seems the more likely is, up to the errors allowed. *)
Theorem C122_choice : forall g c h e t y ld w v v', usual_fit g c t y ld w -> usual_fit h e t y ld w ->
  log_likelihood t y ld w [g; c] = Ok (Some v) -> log_likelihood t y ld w [h; e] = Ok (Some v') -> value v <= value v' ->
  let exactly g c := gaussian_log (value g) (value c) (map value t) (map value y) (value ld) (map (map value) w) in
  let allowed g c := allowed_error (value g) (value c) (map value t) (map value y) (value ld) (map (map value) w) in
  exactly g c <= exactly h e + (allowed g c + allowed h e).
Proof. exact C122_choice_proof. Qed.
Print Assumptions C122_choice.
(** The error cannot be measured by the misfit itself: a distance that is lost when it is computed leaves none. *)
Theorem C122_relative_refuted : exists g c t y ld w v, usual_fit g c t y ld w /\ log_likelihood t y ld w [g; c] = Ok (Some v)
  /\ value v = 0 /\ gaussian_log (value g) (value c) (map value t) (map value y) (value ld) (map (map value) w) < 0.
Proof. exact C122_refuted_proof. Qed.
Print Assumptions C122_relative_refuted.
(** Lines and data that meet the hypotheses. *)
Example C122_example : let t := [SFofZ 1; SFofZ 2] in let y := [SFofZ 2; SFofZ 5] in let w := [[SFofZ 2; SFofZ (-1)]; [SFofZ (-1); SFofZ 2]] in
  usual_fit (SFofZ 2) (SFofZ 1) t y (SFofZ 3) w /\ usual_fit (SFofZ 3) (S754_zero false) t y (SFofZ 3) w
  /\ exists v, log_likelihood t y (SFofZ 3) w [SFofZ 2; SFofZ 1] = Ok (Some v) /\ value v = - 5 / 2
  /\ gaussian_log 2 1 [1; 2] [2; 5] 3 [[2; -1]; [-1; 2]] = - 5 / 2.
Proof. exact C122_example_proof. Qed.
Print Assumptions C122_example.
