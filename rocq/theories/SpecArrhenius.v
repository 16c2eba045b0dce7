(** * SpecArrhenius: vocabulary for the temperature relationships *)
From Verif Require Import Base ModelArrhenius.
From Coq Require Import Reals.

(** The first temperature of the first earlier call without `bounds` that had any temperature. *)
Fixpoint first_default {A} (calls : list (bounds_arg A * list A)) : option A :=
  match calls with
  | [] => None
  | (BDefault, t :: _) :: _ => Some t
  | _ :: rest => first_default rest
  end.
(** The caller's lists are not the default object. *)
Definition own_lists {A} (calls : list (bounds_arg A * list A)) : Prop :=
  Forall (fun c => forall addr, fst c = BList addr -> addr <> default_list) calls.
