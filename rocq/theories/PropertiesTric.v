(** * PropertiesTric: C97

    [get_disp] runs in IEEE double precision, for triclinic cells and for cells that change. *)
From Verif Require Import Base ModelParser Spec SpecStats SpecDouble SpecUnwrap SpecTric ProofsUnwrap ProofsTric.
From Coq Require Import Reals Lra Lia.
From Coq.Floats Require Import SpecFloat.
Open Scope Z_scope.

(** ** C97: doubles choose the same images as exact arithmetic on the same stored numbers, unless a step is within
    68 [rho]^2 2^-44 cells of a tie; displacements then agree up to (t+1)^2 2^-45 times the largest cell component. *)
Theorem C97_same_images :
  forall (M rho : R) (n natoms : nat) (cell : nat -> M3 spec_float) (c : nat -> nat -> V3 spec_float),
  (powerRZ 2 (-300) <= M <= powerRZ 2 300)%R -> (1 <= rho <= 100)%R -> Z.of_nat n <= 2 ^ 20 ->
  (forall f, (f <= n)%nat -> compact_cell rho M (cell f)) ->
  (forall f a, (f <= n)%nat -> (a < natoms)%nat -> near_origin (c f a)) ->
  (forall f a, (f < n)%nat -> (a < natoms)%nat ->
     clear_step (68 * rho ^ 2 * / 2 ^ 44) (cell f) (cell (S f)) (c f a) (c (S f) a)) ->
  exists d x, get_disp (tab (S n) (fun f => tab natoms (c f))) (tab (S n) cell) = Ok d
  /\ get_disp (tab (S n) (fun f => tab natoms (fun a => stored (c f a)))) (tab (S n) (fun f => stored_cell (cell f))) = Ok x
  /\ a_obs d = n /\ a_obs x = n /\ shape (a_rows d) natoms n /\ shape (a_rows x) natoms n
  /\ forall a t v w i, arr_entry d a t = Some v -> arr_entry x a t = Some w ->
     finite_double (part v i) /\ (Rabs (value (part v i) - part w i) <= INR (S t) ^ 2 * / 2 ^ 45 * M)%R.
Proof. exact C97_proof. Qed.
Print Assumptions C97_same_images.

(** A fixed cell of any shape: [x f a] is the true fractional position of atom [a] in frame [f]; the doubles stored are that
    position up to whole cells. *)
Theorem C97_fixed_cell :
  forall (M rho : R) (n natoms : nat) (cell : M3 spec_float) (c : nat -> nat -> V3 spec_float) (x : nat -> nat -> V3 R),
  (powerRZ 2 (-300) <= M <= powerRZ 2 300)%R -> (1 <= rho <= 100)%R -> Z.of_nat n <= 2 ^ 20 -> compact_cell rho M cell ->
  (forall f a, (f <= n)%nat -> (a < natoms)%nat ->
     near_origin (c f a) /\ forall i, is_integer (value (part (c f a) i) - part (x f a) i)) ->
  (forall f a i, (f < n)%nat -> (a < natoms)%nat ->
     (Rabs (part (x (S f) a) i - part (x f a) i) <= / 2 - 68 * rho ^ 2 * / 2 ^ 44)%R) ->
  exists d, get_disp (tab (S n) (fun f => tab natoms (c f))) (tab (S n) (fun _ => cell)) = Ok d
  /\ a_obs d = n /\ shape (a_rows d) natoms n
  /\ forall a t v i, arr_entry d a t = Some v -> finite_double (part v i) /\
     (Rabs (value (part v i) - part (cart (stored_cell cell) (minus3 (x (S t) a) (x 0%nat a))) i)
       <= INR (S t) ^ 2 * / 2 ^ 45 * M)%R.
Proof. exact C97_fixed_proof. Qed.
Print Assumptions C97_fixed_cell.

(** The same for one atom with whatever inverses `np.linalg.inv` returns, as long as they are inverses up to [kappa] 2^-50. *)
Theorem C97_any_inverse :
  forall (M kappa : R) (n : nat) (cell li : nat -> M3 spec_float) (ri : nat -> M3 R) (c : nat -> V3 spec_float),
  (powerRZ 2 (-300) <= M <= powerRZ 2 300)%R -> (1 <= kappa <= 2 ^ 20)%R -> Z.of_nat n <= 2 ^ 20 ->
  (forall f, (f <= n)%nat -> cell_below M (cell f) /\ inverse_below kappa M (li f) (cell f)
     /\ minv (stored_cell (cell f)) = Ok (ri f) /\ near_origin (c f)) ->
  (forall f, (f < n)%nat -> clear_step (kappa * / 2 ^ 44) (cell f) (cell (S f)) (c f) (c (S f))) ->
  exists row exact_row, get_disp_row (tab (S n) c) (tab (S n) cell) (tab (S n) li) = row
  /\ get_disp_row (tab (S n) (fun f => stored (c f))) (tab (S n) (fun f => stored_cell (cell f))) (tab (S n) ri) = exact_row
  /\ length row = n /\ length exact_row = n
  /\ forall t v w i, nth_error row t = Some v -> nth_error exact_row t = Some w ->
     finite_double (part v i) /\ (Rabs (value (part v i) - part w i) <= INR (S t) ^ 2 * / 2 ^ 45 * M)%R.
Proof. exact C97_row. Qed.
Print Assumptions C97_any_inverse.

(** The inverse the model computes is such an inverse. *)
Theorem C97_inverse : forall (M rho : R) (cell : M3 spec_float),
  (powerRZ 2 (-300) <= M <= powerRZ 2 300)%R -> (1 <= rho <= 100)%R -> compact_cell rho M cell ->
  exists li, minv cell = Ok li /\ inverse_below (68 * rho ^ 2) M li cell.
Proof. exact C97_inverse_proof. Qed.
Print Assumptions C97_inverse.

(** An atom crossing a slanted boundary: in the cell (4, 0, 0), (2, 4, 0), (0, 0, 4) its second coordinate is stored as 7/8,
    then as 1/8. It moved by a quarter of the second cell vector, (1/2, 1, 0). *)
Example C97_example :
  exists d, get_disp [[slipping 0 0]; [slipping 1 0]] [slanted; slanted] = Ok d
  /\ forall v, arr_entry d 0 0 = Some v -> (Rabs (value (vx v) - 1 / 2) <= / 2 ^ 43)%R /\ (Rabs (value (vy v) - 1) <= / 2 ^ 43)%R.
Proof.
  destruct (C97_fixed_cell 4 1 1 1 slanted slipping slipped four_usual ltac:(lra) ltac:(cbn; lia) slanted_compact) as (d & E & _ & _ & H).
  - intros f a Hf _. now apply slipping_ok.
  - intros f a i Hf _. assert (f = 0)%nat as -> by lia. unfold slipped.
    destruct i; cbn [part vx vy vz Nat.eqb]; rewrite Rabs_pos_eq; lra.
  - exists d. split; [exact E|]. intros v Hv. pose proof (H 0%nat 0%nat v AX Hv) as [_ B1]. pose proof (H 0%nat 0%nat v AY Hv) as [_ B2].
    unfold slipped, slanted, stored_cell, stored, cart, minus3 in B1, B2. cbn [part vx vy vz mr0 mr1 mr2 Nat.eqb INR] in B1, B2.
    rewrite (proj2 (small_value 4 eq_refl)), (proj2 (small_value 2 eq_refl)), (proj2 zero_value) in B1.
    rewrite (proj2 (small_value 4 eq_refl)), (proj2 zero_value) in B2.
    split; [eapply Rle_trans; [|eapply Rle_trans; [exact B1|lra]]|eapply Rle_trans; [|eapply Rle_trans; [exact B2|lra]]]; apply Req_le, f_equal; lra.
Qed.
(** A cell changing from 4 x 4 x 4 to (5, 0, 0), (2, 4, 0), (0, 0, 4) meets the conditions of the first theorem. *)
Example C97_changing_example :
  exists d x, get_disp [[gliding 0 0]; [gliding 1 0]] [changing 0; changing 1] = Ok d
  /\ get_disp [[stored (gliding 0 0)]; [stored (gliding 1 0)]] [stored_cell (changing 0); stored_cell (changing 1)] = Ok x
  /\ forall v w i, arr_entry d 0 0 = Some v -> arr_entry x 0 0 = Some w -> (Rabs (value (part v i) - part w i) <= 5 * / 2 ^ 45)%R.
Proof.
  destruct (C97_same_images 5 2 1 1 changing gliding) as (d & x & E1 & E2 & _ & _ & _ & _ & H).
  - exact five_usual.
  - lra.
  - cbn. lia.
  - intros. apply changing_compact.
  - intros. apply gliding_ok.
  - intros f a Hf _. assert (f = 0)%nat as -> by lia. apply gliding_clear.
  - exists d, x. split; [exact E1|]. split; [exact E2|]. intros v w i Hv Hw. destruct (H 0%nat 0%nat v w i Hv Hw) as [_ B].
    cbn [INR] in B. eapply Rle_trans; [exact B|]. lra.
Qed.
