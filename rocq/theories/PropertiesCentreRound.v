(** * PropertiesCentreRound: C127 centres of molecules computed in double precision

    [molecule_centre], [pseudo_com] and [get_molecules] run here with rounded arithmetic. [value] is the real number a double stands
    for, [centre_of_mass] and [com3] are the true centres of mass of the true positions, and [centre_error n] = (3 n + 8) 2^-52
    for molecules of [n] atoms. *)
From Verif Require Import Base ModelParser Spec SpecStats SpecDouble SpecUnwrap SpecParser SpecMol SpecCentres SpecCentreRound ProofsUnwrap ProofsCentrePath.
From Verif Require ProofsCentreRound.
From Coq Require Import Reals.
From Coq.Floats Require Import SpecFloat.
Open Scope Z_scope.

(** ** C127
    The first guess from which the atoms are collected need not be accurate at all: any number within half a cell, less
    a thousandth, of every atom will do. *)
Theorem C127_any_guess : forall c w s u, s <> [] -> Z.of_nat (length s) <= 2 ^ 40 -> usual_masses w (length s) -> Forall in_reach s ->
  images u (map value s) -> amid c u ->
  exists y, pseudo_com c w s = Ok y /\ nearly_wraps (length s) y (centre_of_mass (weights_of (mass_values w) (length s)) u).
Proof. exact ProofsCentreRound.centre_core. Qed.
Print Assumptions C127_any_guess.
(** A circular mean computed to three digits is such a guess for molecules that span less than half a cell. *)
Theorem C127_centre : forall circ w (atoms : list (V3 spec_float)) (u : list (V3 R)), fair_circ circ -> atoms <> [] -> Z.of_nat (length atoms) <= 2 ^ 40 ->
  usual_masses w (length atoms) -> (forall i, Forall in_reach (map (fun v => part v i) atoms)) ->
  (forall i, images (map (fun v => part v i) u) (map value (map (fun v => part v i) atoms))) -> (forall i, spans_less (map (fun v => part v i) u)) ->
  exists y, molecule_centre circ w atoms = Ok y /\ forall i, nearly_wraps (length atoms) (part y i) (part (com3 (weights_of (mass_values w) (length atoms)) u) i).
Proof. exact centre_round. Qed.
Print Assumptions C127_centre.
(** Displacements of molecules and framework atoms along the whole run, in a cell with orthogonal sides: the error of
    unwrapping (C74) and twice that of a centre. *)
Theorem C127_displacements : forall circ, fair_circ circ -> forall (side : V3 spec_float) n natoms size c x indices masses framework fw,
  (forall i, usual_length (part side i)) -> molecule_framework natoms indices (given_framework framework) fw ->
  (forall f a, (f <= n)%nat -> (a < natoms)%nat -> forall i,
     finite_double (part (c f a) i) /\ (Rabs (value (part (c f a) i)) <= 2)%R /\ is_integer (value (part (c f a) i) - part (x f a) i)) ->
  (forall mol, In mol indices -> mol <> [] /\ (length mol <= size)%nat) -> Z.of_nat size <= 2 ^ 40 ->
  match masses with Some ws => Forall usual_length ws | None => True end ->
  (forall f mol i, (f <= n)%nat -> In mol indices -> spans_less (map (fun j => part (x f (site natoms (j - 1))) i) mol)) ->
  let centre := centres natoms (mass_values masses) indices fw x in
  forall new ids, get_molecules circ natoms (tab (S n) (fun f => tab natoms (c f))) indices masses framework = Ok (new, ids) ->
  Z.of_nat n <= 2 ^ 20 ->
  (forall f b i, (f < n)%nat -> (b < sites indices fw)%nat ->
     (Rabs (part (centre (S f) b) i - part (centre f b) i) <= / 2 - / 2 ^ 47 - 2 * centre_error size)%R) ->
  ids = (centre_ids indices, framework_ids indices fw)
  /\ exists d, get_disp new (tab (S n) (fun _ => box side)) = Ok d /\ a_obs d = n /\ shape (a_rows d) (sites indices fw) n
  /\ forall b t v i, arr_entry d b t = Some v -> finite_double (part v i)
     /\ (Rabs (value (part v i) - (part (centre (S t) b) i - part (centre 0%nat b) i) * value (part side i))
          <= (INR (S t) ^ 2 * / 2 ^ 49 + 2 * centre_error size) * value (part side i))%R.
Proof. exact path_proof. Qed.
Print Assumptions C127_displacements.
(** A guess farther than half a cell from an atom can put the centre half a cell away, however the numbers are rounded. *)
Theorem C127_bad_guess_refuted : exists c s u, finite_double c /\ (0 <= value c <= 1)%R /\ Forall in_reach s /\ images u (map value s) /\ spans_less u
  /\ exists y, pseudo_com c None s = Ok y /\ forall k : Z, (/ 2 <= Rabs (value y + IZR k - centre_of_mass [1; 1] u))%R.
Proof. exact C127_bad_guess_proof. Qed.
Print Assumptions C127_bad_guess_refuted.
(** A pair of atoms with masses 1 and 3 crosses the side of a cell of length 10; its centre moves by a quarter of the side. *)
Example C127_example : fair_circ coarse_circ /\ exists new d,
  get_molecules coarse_circ 2 (tab 2 (fun f => tab 2 (pair_at f))) [[1; 2]] pair_masses PyNone = Ok (new, ([0], []))
  /\ get_disp new (tab 2 (fun _ => box ten3)) = Ok d
  /\ exists v, arr_entry d 0 0 = Some v /\ (Rabs (value (vx v) - 5 / 2) <= / 2 ^ 43)%R.
Proof. exact C127_example_proof. Qed.
