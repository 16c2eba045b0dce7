(** * PropertiesEven: C113, evenly spaced intervals in double precision *)
From Verif Require Import Base Spec SpecParser SpecDouble ModelParser ProofsFloat ProofsEven.
From Coq Require Import Reals.
From Coq.Floats Require Import SpecFloat.
Open Scope Z_scope.

(** ** C113
    With linear spacing interval number [i] of [N] between [a] and [b] should be a + i (b - a) / (N - 1), rounded down.
    It is not always: 136 frames, time step 1 and default options give 15 frames where 1 + 11 * 135 / 99 = 16. *)
Theorem C113_refuted : forall geo,
  exists p, parser_init geo (still 136) [0] [] (SFofZ 1) 1 (plain None) = Ok p
  /\ length (p_intervals p) = 100%nat /\ hd_error (p_intervals p) = Some 1 /\ last (p_intervals p) 0 = 136 /\ nth_error (p_intervals p) 11 = Some 15 /\ 1 + 11 * (136 - 1) / (100 - 1) = 16.
Proof. exact C113_refuted_proof. Qed.
Print Assumptions C113_refuted.
(** It is, or it is one frame less, and then only where the exact position is a whole number of frames and the step is not.
    (Missing from the full statement: that the second case never happens.) *)
Theorem C113_partial : forall geo disp idx didx ts ss o p (a b : Z),
  is_double ts -> (0 < value ts)%R -> 0 < ss ->
  (o_min_dt o = None \/ exists mn, o_min_dt o = Some mn /\ is_double mn /\ (0 <= value mn)%R) -> o_spacing o = "linear"%string ->
  parser_init geo disp idx didx ts ss o = Ok p -> Z.of_nat (a_obs (p_dc p)) < 2 ^ 23 ->
  2 <= Z.of_nat (length (p_intervals p)) -> hd_error (p_intervals p) = Some a -> last (p_intervals p) 0 = b -> 1 <= a <= b -> b < 2 ^ 24 ->
  forall i z, nth_error (p_intervals p) i = Some z -> let d := Z.of_nat (length (p_intervals p)) - 1 in let q := Z.of_nat i * (b - a) in
  z = a + q / d \/ (z = a + q / d - 1 /\ q mod d = 0 /\ (b - a) mod d <> 0).
Proof. exact C113_proof. Qed.
Print Assumptions C113_partial.
(** When the step is a whole number of frames every interval is the exact one. *)
Theorem C113_whole_steps : forall geo disp idx didx ts ss o p (a b k : Z),
  is_double ts -> (0 < value ts)%R -> 0 < ss ->
  (o_min_dt o = None \/ exists mn, o_min_dt o = Some mn /\ is_double mn /\ (0 <= value mn)%R) -> o_spacing o = "linear"%string ->
  parser_init geo disp idx didx ts ss o = Ok p -> Z.of_nat (a_obs (p_dc p)) < 2 ^ 23 ->
  2 <= Z.of_nat (length (p_intervals p)) -> hd_error (p_intervals p) = Some a -> last (p_intervals p) 0 = b -> 1 <= a <= b -> b < 2 ^ 24 ->
  b - a = k * (Z.of_nat (length (p_intervals p)) - 1) -> forall i z, nth_error (p_intervals p) i = Some z -> z = a + Z.of_nat i * k.
Proof. exact C113_whole_proof. Qed.
Print Assumptions C113_whole_steps.
(** No interval is above its exact position, or more than one frame below it. *)
Theorem C113_within_one_frame : forall geo disp idx didx ts ss o p (a b : Z),
  is_double ts -> (0 < value ts)%R -> 0 < ss ->
  (o_min_dt o = None \/ exists mn, o_min_dt o = Some mn /\ is_double mn /\ (0 <= value mn)%R) -> o_spacing o = "linear"%string ->
  parser_init geo disp idx didx ts ss o = Ok p -> Z.of_nat (a_obs (p_dc p)) < 2 ^ 23 ->
  2 <= Z.of_nat (length (p_intervals p)) -> hd_error (p_intervals p) = Some a -> last (p_intervals p) 0 = b -> 1 <= a <= b -> b < 2 ^ 24 ->
  forall i z, nth_error (p_intervals p) i = Some z ->
  let position := (IZR a + IZR (Z.of_nat i) * (IZR (b - a) / (IZR (Z.of_nat (length (p_intervals p))) - 1)))%R in (position - 1 <= IZR z <= position)%R.
Proof. exact C113_frame_proof. Qed.
Print Assumptions C113_within_one_frame.
(** Time step 3/2 and min_dt 3: a run meeting the hypotheses of [C113_whole_steps] with steps of one frame. *)
Example C113_example : forall geomspace, exists p, parser_init geomspace (still 6) [0] [] (decimal 3 2) 1 (plain (Some (decimal 6 2))) = Ok p
  /\ a_obs (p_dc p) = 6%nat /\ p_intervals p = [2; 3; 4; 5; 6].
Proof. exact float_example. Qed.
