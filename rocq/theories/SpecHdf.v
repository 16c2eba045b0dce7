(** * SpecHdf: vocabulary for saving and loading dictionaries *)
From Verif Require Import Base ModelHdf.
From Coq Require Import Ascii Permutation.
Open Scope string_scope.

(** A name that is one component of an HDF5 path. *)
Definition key_name (k : string) : Prop := k <> "" /\ k <> "." /\ ~ In "/"%char (list_ascii_of_string k).
(** Keys of a dictionary: all different, all usable as names. *)
Definition key_names {V} (d : list (string * V)) : Prop := NoDup (map fst d) /\ Forall (fun kv => key_name (fst kv)) d.

Section SpecHdf.
  Context {T F : Type}.
  Notation pyval := (pyval T F).

  (** Arrays, numbers and strings. *)
  Inductive atom : pyval -> Prop :=
  | atom_arr a : atom (VArr a) | atom_int z : atom (VInt z) | atom_bool b : atom (VBool b)
  | atom_float x : atom (VFloat x) | atom_str s : atom (VStr s) | atom_bytes s : atom (VBytes s).
  Definition flat (v : pyval) : Prop := atom v \/ v = VNone.

  (** The first name in alphabetical order does not start with "list". *)
  Definition not_listlike {V} (d : list (string * V)) : Prop :=
    forall k v, In (k, v) d -> (forall k' v', In (k', v') d -> String.compare k k' <> Gt) -> String.prefix "list" k = false.

  (** Elements a list may have: atoms and non-empty dictionaries of atoms and None. *)
  Inductive item : pyval -> Prop :=
  | item_atom v : atom v -> item v
  | item_dict d : d <> [] -> key_names d -> Forall (fun kv => flat (snd kv)) d -> item (VDict d).

  Inductive supported : pyval -> Prop :=
  | sup_flat v : flat v -> supported v
  | sup_list l : l <> [] -> Forall item l -> supported (VList l)
  | sup_dict d : d <> [] -> key_names d -> not_listlike d -> Forall (fun kv => supported (snd kv)) d -> supported (VDict d).

  (** What a value becomes: the same, except that integers and bools come back as NumPy scalars,
      text as bytes, and the text NULL as None; dictionaries are compared as sets of pairs, lists
      in order. *)
  Inductive loads_as : pyval -> pyval -> Prop :=
  | la_arr a : loads_as (VArr a) (VArr a)
  | la_int z : loads_as (VInt z) (VNpInt z)
  | la_bool b : loads_as (VBool b) (VNpBool b)
  | la_float x : loads_as (VFloat x) (VFloat x)
  | la_str s : s <> "NULL" -> loads_as (VStr s) (VBytes s)
  | la_bytes s : s <> "NULL" -> loads_as (VBytes s) (VBytes s)
  | la_null_str : loads_as (VStr "NULL") VNone
  | la_null_bytes : loads_as (VBytes "NULL") VNone
  | la_none : loads_as VNone VNone
  | la_list l l' : Forall2 loads_as l l' -> loads_as (VList l) (VList l')
  | la_dict d d1 d' : Permutation d d1 ->
      Forall2 (fun kv kv' => fst kv = fst kv' /\ loads_as (snd kv) (snd kv')) d1 d' -> loads_as (VDict d) (VDict d').

  (** Values that come back unchanged. *)
  Inductive unchanged : pyval -> Prop :=
  | un_arr a : unchanged (VArr a) | un_float x : unchanged (VFloat x) | un_none : unchanged VNone
  | un_bytes s : s <> "NULL" -> unchanged (VBytes s)
  | un_list l : Forall unchanged l -> unchanged (VList l)
  | un_dict d : Forall (fun kv => unchanged (snd kv)) d -> unchanged (VDict d).
  (** Python's equality of dictionaries and lists. *)
  Inductive py_same : pyval -> pyval -> Prop :=
  | ps_refl v : py_same v v
  | ps_list l l' : Forall2 py_same l l' -> py_same (VList l) (VList l')
  | ps_dict d d1 d' : Permutation d d1 ->
      Forall2 (fun kv kv' => fst kv = fst kv' /\ py_same (snd kv) (snd kv')) d1 d' -> py_same (VDict d) (VDict d').
End SpecHdf.
