(** * PropertiesUnwrap: C74

    [get_disp] runs in IEEE double precision here. *)
From Verif Require Import Base ModelParser Spec SpecStats SpecDouble SpecUnwrap ProofsUnwrap.
From Coq Require Import Reals Lra Lia.
From Coq.Floats Require Import SpecFloat.
Open Scope Z_scope.

(** ** C74: fixed orthorhombic cell. [x f a] is the true fractional position of atom [a] in frame
    [f]; the doubles stored are that position up to whole cells. When no step comes within 2^-47
    of half a cell, the right image is always chosen. The error after [t + 1] steps is at most
    (t+1)^2 2^-49 cells. Missing from the full statement: steps between half a cell minus 2^-47
    and half a cell (see the refutation below). Triclinic and changing cells: C97. *)
Theorem C74_unwrapping_in_double_partial :
  forall (side : V3 spec_float) (n natoms : nat) (c : nat -> nat -> V3 spec_float) (x : nat -> nat -> V3 R),
  (forall i, usual_length (part side i)) ->
  (forall f a i, (f <= n)%nat -> (a < natoms)%nat ->
     finite_double (part (c f a) i) /\ (Rabs (value (part (c f a) i)) <= 2)%R
     /\ is_integer (value (part (c f a) i) - part (x f a) i)) ->
  (forall f a i, (f < n)%nat -> (a < natoms)%nat ->
     (Rabs (part (x (S f) a) i - part (x f a) i) <= / 2 - / 2 ^ 47)%R) ->
  Z.of_nat n <= 2 ^ 20 ->
  exists d, get_disp (tab (S n) (fun f => tab natoms (c f))) (tab (S n) (fun _ => box side)) = Ok d
  /\ a_obs d = n /\ shape (a_rows d) natoms n
  /\ forall a t v i, arr_entry d a t = Some v ->
     finite_double (part v i) /\
     (Rabs (value (part v i) - (part (x (S t) a) i - part (x 0%nat a) i) * value (part side i))
       <= INR (S t) ^ 2 * / 2 ^ 49 * value (part side i))%R.
Proof. exact C74_proof. Qed.
Print Assumptions C74_unwrapping_in_double_partial.

(** The same for one atom with whatever inverse of the cell `np.linalg.inv` returns, as long as it
    is diagonal and each entry is right to 8 units of 2^-53. *)
Theorem C74_any_inverse_partial :
  forall (side : V3 spec_float) (n : nat) (c : nat -> V3 spec_float) (x : nat -> V3 R) (li : nat -> M3 spec_float),
  (forall i, usual_length (part side i)) -> (forall f, (f <= n)%nat -> nearly_inverse (li f) side) ->
  (forall f i, (f <= n)%nat -> finite_double (part (c f) i) /\ (Rabs (value (part (c f) i)) <= 2)%R
     /\ is_integer (value (part (c f) i) - part (x f) i)) ->
  (forall f i, (f < n)%nat -> (Rabs (part (x (S f)) i - part (x f) i) <= / 2 - / 2 ^ 47)%R) ->
  Z.of_nat n <= 2 ^ 20 ->
  exists row, get_disp_row (tab (S n) c) (tab (S n) (fun _ => box side)) (tab (S n) li) = row /\ length row = n
  /\ forall t v i, nth_error row t = Some v -> finite_double (part v i) /\
    (Rabs (value (part v i) - (part (x (S t)) i - part (x 0%nat) i) * value (part side i))
       <= INR (S t) ^ 2 * / 2 ^ 49 * value (part side i))%R.
Proof. exact C74_row. Qed.
Print Assumptions C74_any_inverse_partial.

(** The inverse the model computes is such an inverse. *)
Theorem C74_inverse : forall side, (forall i, usual_length (part side i)) ->
  exists li, minv (box side) = Ok li /\ nearly_inverse li side.
Proof. exact minv_box. Qed.
Print Assumptions C74_inverse.

(** A step shorter than half a cell can be unwrapped to the wrong image: 0.49999999999999994 of a
    cell of side 10 comes out as -5.000000000000001. *)
Theorem C74_near_half_refuted :
  exists (side : V3 spec_float) (c0 c1 : V3 spec_float) d v,
  (forall i, usual_length (part side i)) /\ (forall i, finite_double (part c0 i)) /\ (forall i, finite_double (part c1 i))
  /\ (forall i, (0 <= value (part c0 i) < 1)%R) /\ (forall i, (0 <= value (part c1 i) < 1)%R)
  /\ (forall i, (Rabs (value (part c1 i) - value (part c0 i)) < / 2)%R)
  /\ get_disp [[c0]; [c1]] [box side; box side] = Ok d /\ arr_entry d 0 0 = Some v
  /\ (Rabs (value (vx v) - (value (vx c1) - value (vx c0)) * value (vx side)) > 9 / 10 * value (vx side))%R.
Proof. exact C74_half. Qed.
Print Assumptions C74_near_half_refuted.

(** An atom crossing the boundary of a 10 x 10 x 10 cell: stored at 7/8, then at 1/8 of the first
    side. It moved by a quarter of a cell. *)
Example C74_example :
  exists d, get_disp [[crossing 0 0]; [crossing 1 0]] [box ten3; box ten3] = Ok d
  /\ forall v, arr_entry d 0 0 = Some v -> (Rabs (value (vx v) - 5 / 2) <= / 2 ^ 45)%R.
Proof.
  destruct (C74_unwrapping_in_double_partial ten3 1 1 crossing crossed ten3_usual) as (d & E & _ & _ & H).
  - intros f a i Hf _. apply crossing_ok. lia.
  - intros f a i Hf _. assert (f = 0)%nat as -> by lia. unfold crossed.
    destruct i; cbn [part vx vy vz Nat.eqb]; rewrite ?Rminus_diag_eq, ?Rabs_R0 by reflexivity; try lra.
    rewrite Rabs_pos_eq; lra.
  - cbn. lia.
  - exists d. split; [exact E|]. intros v Hv. destruct (H 0%nat 0%nat v AX Hv) as [_ B].
    cbn [part crossed Nat.eqb vx INR pow] in B. rewrite ten3_value in B. cbn [vx ten3] in *.
    replace ((9 / 8 - 7 / 8) * 10)%R with (5 / 2)%R in B by lra. eapply Rle_trans; [exact B|]. lra.
Qed.
