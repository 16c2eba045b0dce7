(** * Base: Python / NumPy primitives and number systems used by the model.

    Everything here models language or library behaviour the kinisi sources rely on; the
    functions of kinisi itself are in the [Model*] files. *)
From Coq Require Export ZArith Bool String Lia List.
From Coq Require Import Reals QArith Qround.
From Coq.Floats Require Import SpecFloat.
Export ListNotations.
Notation length := List.length (only parsing).
Open Scope Z_scope.

(** ** Exceptions as values *)

(** The Python exception classes that the modelled code can raise. [UFuncTypeError] is NumPy's
    casting error, [LinAlgError] is numpy.linalg's singular-matrix error. *)
Inductive exn :=
| ValueError | TypeError | IndexError | KeyError | MemoryError | AttributeError
| ZeroDivisionError | OverflowError | UFuncTypeError | LinAlgError | RuntimeError.

Inductive Res (A : Type) := Ok (a : A) | Raise (e : exn).
Arguments Ok {A} a.
Arguments Raise {A} e.

Definition bind {A B} (m : Res A) (k : A -> Res B) : Res B :=
  match m with Ok a => k a | Raise e => Raise e end.
Notation "'let!' x ':=' m 'in' k" := (bind m (fun x => k))
  (at level 200, x name, m at level 100, k at level 200).
Notation "'let!' ' p ':=' m 'in' k" := (bind m (fun x => match x with p => k end))
  (at level 200, p pattern, m at level 100, k at level 200).

(** [guard b e]: `if not b: raise e`. *)
Definition guard (b : bool) (e : exn) : Res unit := if b then Ok tt else Raise e.

Fixpoint mapM {A B} (f : A -> Res B) (l : list A) : Res (list B) :=
  match l with
  | [] => Ok []
  | x :: t => let! y := f x in let! ys := mapM f t in Ok (y :: ys)
  end.

Definition opt_res {A} (e : exn) (o : option A) : Res A :=
  match o with Some a => Ok a | None => Raise e end.

(** ** Python indexing *)

(** [l[i]] for a Python list or one NumPy axis: negative indices count from the end,
    out-of-range raises IndexError. *)
Definition py_index {A} (l : list A) (i : Z) : Res A :=
  let n := Z.of_nat (length l) in
  let j := if i <? 0 then i + n else i in
  if (0 <=? j) && (j <? n) then opt_res IndexError (nth_error l (Z.to_nat j)) else Raise IndexError.

(** Slice bound normalisation: negative bounds count from the end, then clamp to [0, n]. *)
Definition py_bound (n : nat) (i : Z) : nat :=
  let j := if i <? 0 then i + Z.of_nat n else i in
  Z.to_nat (Z.min (Z.of_nat n) (Z.max 0 j)).

(** [l[s:]] *)
Definition py_from {A} (s : Z) (l : list A) : list A := skipn (py_bound (length l) s) l.
(** [l[:e]] *)
Definition py_to {A} (e : Z) (l : list A) : list A := firstn (py_bound (length l) e) l.

(** [every k c l]: skip [c] elements, keep one, then keep every [k]-th. *)
Fixpoint every {A} (k c : nat) (l : list A) : list A :=
  match l with
  | [] => []
  | x :: t => match c with
              | O => x :: every k (k - 1) t
              | S c' => every k c' t
              end
  end.

(** [l[::k]]: step 0 raises ValueError, a negative step runs backwards from the end. *)
Definition py_stride {A} (k : Z) (l : list A) : Res (list A) :=
  if k =? 0 then Raise ValueError
  else if 0 <? k then Ok (every (Z.to_nat k) 0 l)
  else Ok (every (Z.to_nat (- k)) 0 (rev l)).

(** [len(range(n)[::k])]: number of elements kept by a stride over an axis of length [n]. *)
Definition stride_count (k : Z) (n : nat) : Res Z :=
  if k =? 0 then Raise ValueError
  else Ok ((Z.of_nat n + Z.abs k - 1) / Z.abs k).

(** Integer-array ("fancy") indexing of the first axis, [l[idx]]. *)
Definition gather {A} (l : list A) (idx : list Z) : Res (list A) := mapM (py_index l) idx.

(** Element-wise binary operation of two one-dimensional axes with NumPy broadcasting:
    equal lengths, or one of them of length one; otherwise ValueError. *)
Definition zip_with {A B C} (f : A -> B -> C) (a : list A) (b : list B) : list C :=
  map (fun p => f (fst p) (snd p)) (combine a b).
Definition broadcast2 {A B C} (f : A -> B -> C) (a : list A) (b : list B) : Res (list C) :=
  if Nat.eqb (length a) (length b) then Ok (zip_with f a b)
  else match a, b with
       | [x], _ => Ok (map (f x) b)
       | _, [y] => Ok (map (fun x => f x y) a)
       | _, _ => Raise ValueError
       end.

(** ** Numbers *)

(** The arithmetic the code performs on floats. [nfloor] is `np.floor(x)` followed by a
    conversion to int; [ntrunc] is `int(x)` (truncation towards zero; None models the
    exception raised for infinities and NaN); comparisons return false on NaN as in IEEE 754. *)
Class Num (A : Type) := {
  n0 : A; n1 : A;
  nadd : A -> A -> A; nsub : A -> A -> A; nmul : A -> A -> A; ndiv : A -> A -> A;
  nopp : A -> A;
  nofZ : Z -> A;
  nltb : A -> A -> bool; nleb : A -> A -> bool;
  nfloor : A -> Z;
  ntrunc : A -> option Z }.

Declare Scope num_scope.
Delimit Scope num_scope with num.
Notation "a + b" := (nadd a b) : num_scope.
Notation "a - b" := (nsub a b) : num_scope.
Notation "a * b" := (nmul a b) : num_scope.
Notation "a / b" := (ndiv a b) : num_scope.
Notation "a <? b" := (nltb a b) : num_scope.
Notation "a <=? b" := (nleb a b) : num_scope.

Section NumOps.
  Context {A : Type} {NA : Num A}.
  Definition neqb (x y : A) : bool := nleb x y && nleb y x.
  Definition nofnat (n : nat) : A := nofZ (Z.of_nat n).
  Definition nhalf : A := ndiv n1 (nofZ 2).
  (** `np.sum`; left-to-right here, NumPy sums pairwise (same value in exact arithmetic). *)
  Definition nsum (l : list A) : A := fold_left nadd l n0.
  (** `np.mean` of a flat array. An empty array gives NaN in NumPy; callers below never
      reach it with an empty array unless stated. *)
  Definition nmean (l : list A) : A := ndiv (nsum l) (nofnat (length l)).
  Definition nsq (x : A) : A := nmul x x.
  (** Python float division `a / b`: ZeroDivisionError when the divisor is zero. *)
  Definition py_div (a b : A) : Res A := if neqb b n0 then Raise ZeroDivisionError else Ok (ndiv a b).
  (** `int(x)` *)
  Definition py_int (x : A) : Res Z := opt_res OverflowError (ntrunc x).
  (** `x % 1` *)
  Definition nmod1 (x : A) : A := nsub x (nofZ (nfloor x)).
End NumOps.

(** *** Exact reals *)
Definition Rfloor (x : R) : Z := Int_part x.
Definition Rtrunc (x : R) : Z := if Rle_dec 0 x then Int_part x else (- Int_part (- x))%Z.
Definition Rleb (x y : R) : bool := if Rle_dec x y then true else false.
Definition Rltb (x y : R) : bool := if Rlt_dec x y then true else false.

#[export] Instance NumR : Num R := {|
  n0 := 0%R; n1 := 1%R;
  nadd := Rplus; nsub := Rminus; nmul := Rmult; ndiv := Rdiv; nopp := Ropp;
  nofZ := IZR; nltb := Rltb; nleb := Rleb;
  nfloor := Rfloor; ntrunc := fun x => Some (Rtrunc x) |}.

(** *** Rationals (executable) *)
Definition Qtrunc (x : Q) : Z := Z.quot (Qnum x) (Zpos (Qden x)).
#[export] Instance NumQ : Num Q := {|
  n0 := 0%Q; n1 := 1%Q;
  nadd := fun a b => Qred (Qplus a b); nsub := fun a b => Qred (Qminus a b);
  nmul := fun a b => Qred (Qmult a b); ndiv := fun a b => Qred (Qdiv a b); nopp := Qopp;
  nofZ := inject_Z;
  nltb := fun a b => negb (Qle_bool b a); nleb := Qle_bool;
  nfloor := Qfloor; ntrunc := fun x => Some (Qtrunc x) |}.

(** *** IEEE 754 binary64, round to nearest even (Coq's own [spec_float] reference semantics) *)
Definition fprec : Z := 53.
Definition femax : Z := 1024.
Definition SF64 := spec_float.
(** Conversion of an integer to the nearest double. *)
Definition SFofZ (z : Z) : spec_float := binary_normalize fprec femax z 0 false.
(** Truncation towards zero of a finite double; None for infinities and NaN. *)
Definition SFtruncZ (x : spec_float) : option Z :=
  match x with
  | S754_zero _ => Some 0
  | S754_finite s m e =>
      let a := if 0 <=? e then Zpos m * 2 ^ e else Zpos m / 2 ^ (- e) in
      Some (if s then - a else a)
  | _ => None
  end.
Definition SFfloorZ (x : spec_float) : Z :=
  match x with
  | S754_finite s m e =>
      let v := if s then Zneg m else Zpos m in
      if 0 <=? e then v * 2 ^ e else v / 2 ^ (- e)
  | _ => 0
  end.
#[export] Instance NumSF : Num spec_float := {|
  n0 := S754_zero false; n1 := SFofZ 1;
  nadd := SFadd fprec femax; nsub := SFsub fprec femax;
  nmul := SFmul fprec femax; ndiv := SFdiv fprec femax; nopp := SFopp;
  nofZ := SFofZ;
  nltb := SFltb; nleb := SFleb;
  nfloor := SFfloorZ; ntrunc := SFtruncZ |}.

(** ** Three-component vectors and 3x3 matrices (rows are the cell vectors) *)
Record V3 (A : Type) := mkV { vx : A; vy : A; vz : A }.
Arguments mkV {A}. Arguments vx {A}. Arguments vy {A}. Arguments vz {A}.
Record M3 (A : Type) := mkM { mr0 : V3 A; mr1 : V3 A; mr2 : V3 A }.
Arguments mkM {A}. Arguments mr0 {A}. Arguments mr1 {A}. Arguments mr2 {A}.

Section Vec.
  Context {A : Type} {NA : Num A}.
  Local Open Scope num_scope.
  Definition v0 : V3 A := mkV n0 n0 n0.
  Definition vmap (f : A -> A) (v : V3 A) : V3 A := mkV (f (vx v)) (f (vy v)) (f (vz v)).
  Definition vmap2 (f : A -> A -> A) (u v : V3 A) : V3 A :=
    mkV (f (vx u) (vx v)) (f (vy u) (vy v)) (f (vz u) (vz v)).
  Definition vadd := vmap2 nadd.
  Definition vsub := vmap2 nsub.
  Definition vscale (c : A) (v : V3 A) := vmap (nmul c) v.
  (** row vector times matrix: `np.einsum('ijk,jkl->ijl', v, M)` at fixed i, j. *)
  Definition vecmat (v : V3 A) (m : M3 A) : V3 A :=
    mkV (vx v * vx (mr0 m) + vy v * vx (mr1 m) + vz v * vx (mr2 m))
        (vx v * vy (mr0 m) + vy v * vy (mr1 m) + vz v * vy (mr2 m))
        (vx v * vz (mr0 m) + vy v * vz (mr1 m) + vz v * vz (mr2 m)).
  Definition mdet (m : M3 A) : A :=
    let a := mr0 m in let b := mr1 m in let c := mr2 m in
    vx a * (vy b * vz c - vz b * vy c) - vy a * (vx b * vz c - vz b * vx c)
      + vz a * (vx b * vy c - vy b * vx c).
  (** `np.linalg.inv`: the unique inverse, LinAlgError when singular. Written with cofactors;
      LAPACK's elimination computes the same matrix up to rounding. *)
  Definition minv (m : M3 A) : Res (M3 A) :=
    let a := mr0 m in let b := mr1 m in let c := mr2 m in
    let d := mdet m in
    if neqb d n0 then Raise LinAlgError else
    Ok (mkM
      (mkV ((vy b * vz c - vz b * vy c) / d) ((vz a * vy c - vy a * vz c) / d) ((vy a * vz b - vz a * vy b) / d))
      (mkV ((vz b * vx c - vx b * vz c) / d) ((vx a * vz c - vz a * vx c) / d) ((vz a * vx b - vx a * vz b) / d))
      (mkV ((vx b * vy c - vy b * vx c) / d) ((vy a * vx c - vx a * vy c) / d) ((vx a * vy b - vy a * vx b) / d))).
End Vec.

(** A NumPy array of shape [site, observation, 3]: the observation count is kept explicitly so
    that the shape is defined for zero sites too. *)
Record Arr (A : Type) := mkArr { a_obs : nat; a_rows : list (list (V3 A)) }.
Arguments mkArr {A}. Arguments a_obs {A}. Arguments a_rows {A}.
(** All rows really have the recorded length (true of every NumPy array). *)
Definition arr_wf {A} (a : Arr A) : Prop := Forall (fun r => length r = a_obs a) (a_rows a).
