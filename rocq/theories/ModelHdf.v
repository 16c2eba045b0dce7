(** * ModelHdf: saving and loading (kinisi/analyzer.py lines 33-67 and 362-427)

    An HDF5 file is a tree of groups and datasets. h5py iterates over the members of a group in
    increasing name order; that order is kept in the tree itself. *)
From Verif Require Import Base.
From Coq Require Import Ascii.
Open Scope Z_scope.
Open Scope string_scope.

(** ** Python values that can occur in the dictionaries

    [T] is the type of ndarrays. A NumPy integer or bool scalar (np.int64, np.bool_) is neither an
    int nor a float for `isinstance`; np.float64 is a float. *)
Inductive pyval (T F : Type) :=
| VArr (a : T) | VInt (z : Z) | VBool (b : bool) | VFloat (x : F)
| VNpInt (z : Z) | VNpBool (b : bool)
| VStr (s : string) | VBytes (s : string) | VNone
| VList (l : list (pyval T F)) | VDict (d : list (string * pyval T F))
| VOther.
Arguments VArr {T F}. Arguments VInt {T F}. Arguments VBool {T F}. Arguments VFloat {T F}.
Arguments VNpInt {T F}. Arguments VNpBool {T F}.
Arguments VStr {T F}. Arguments VBytes {T F}. Arguments VNone {T F}. Arguments VList {T F}.
Arguments VDict {T F}. Arguments VOther {T F}.

(** What a dataset can hold. Python's int and bool become NumPy scalars, str becomes bytes. *)
Inductive leaf (T F : Type) :=
| LArr (a : T) | LInt (z : Z) | LBool (b : bool) | LFloat (x : F) | LBytes (s : string).
Arguments LArr {T F}. Arguments LInt {T F}. Arguments LBool {T F}. Arguments LFloat {T F}.
Arguments LBytes {T F}.

Inductive node (T F : Type) :=
| Dataset (l : leaf T F)
| Group (members : list (string * node T F)).
Arguments Dataset {T F}. Arguments Group {T F}.

(** ** Paths *)
Definition slash : ascii := "/"%char.
(** A path is split at slashes; empty components and "." are ignored (HDF5). *)
Definition component (cur : string) : list string :=
  if (String.eqb cur "" || String.eqb cur ".")%bool then [] else [cur].
Fixpoint split_path_aux (cur : string) (s : string) : list string :=
  match s with
  | EmptyString => component cur
  | String c t =>
      if Ascii.eqb c slash then component cur ++ split_path_aux "" t
      else split_path_aux (cur ++ String c "") t
  end%list%string.
Definition split_path (s : string) : list string := split_path_aux "" s.

Section Hdf.
  Context {T F : Type}.
  Notation pyval := (pyval T F).
  Notation node := (node T F).

  Fixpoint lookup (k : string) (l : list (string * node)) : option node :=
    match l with
    | [] => None
    | (k', v) :: t => if String.eqb k k' then Some v else lookup k t
    end.
  (** Insert or replace, keeping names in increasing order. *)
  Fixpoint place (k : string) (v : node) (l : list (string * node)) : list (string * node) :=
    match l with
    | [] => [(k, v)]
    | (k', v') :: t =>
        match String.compare k k' with
        | Eq => (k, v) :: t
        | Lt => (k, v) :: l
        | Gt => (k', v') :: place k v t
        end
    end.

  (** `h5file[path] = value`: missing groups are created; an existing object with that name, or a
      dataset on the way, is an error (h5py raises ValueError / OSError). *)
  Fixpoint h5_set (path : list string) (v : leaf T F) (members : list (string * node))
    : Res (list (string * node)) :=
    match path with
    | [] => Raise ValueError
    | [k] => match lookup k members with
             | Some _ => Raise ValueError
             | None => Ok (place k (Dataset v) members)
             end
    | k :: rest =>
        match lookup k members with
        | Some (Dataset _) => Raise ValueError
        | Some (Group sub) => let! sub' := h5_set rest v sub in Ok (place k (Group sub') members)
        | None => let! sub' := h5_set rest v [] in Ok (place k (Group sub') members)
        end
    end.
  (** `h5file[path]`: KeyError when missing. *)
  Fixpoint h5_get (path : list string) (n : node) : Res node :=
    match path with
    | [] => Ok n
    | k :: rest =>
        match n with
        | Dataset _ => Raise KeyError
        | Group m => match lookup k m with
                     | None => Raise KeyError
                     | Some n' => h5_get rest n'
                     end
        end
    end.

  (** ** _dict_to_group (lines 362-384) *)

  (** `isinstance(value, (np.ndarray, int, float, str, bytes))` and the dataset it becomes. *)
  Definition storable (v : pyval) : option (leaf T F) :=
    match v with
    | VArr a => Some (LArr a) | VInt z => Some (LInt z) | VBool b => Some (LBool b)
    | VFloat x => Some (LFloat x) | VStr s => Some (LBytes s) | VBytes s => Some (LBytes s)
    | _ => None
    end.

  (** Decimal rendering of a list position in `f'/list{i}'`. *)
  Definition digit (n : nat) : ascii := ascii_of_nat (48 + n).
  Fixpoint dec_digits (fuel n : nat) (acc : string) : string :=
    match fuel with
    | O => acc
    | S f => let acc' := String (digit (Nat.modulo n 10)) acc in
             match Nat.div n 10 with O => acc' | q => dec_digits f q acc' end
    end.
  Definition dec (n : nat) : string := dec_digits (S n) n "".

  Definition file := list (string * node).

  (** A failing write leaves everything written before it in the file: the first component is the
      file afterwards. *)
  Definition wres := (file * Res unit)%type.
  Definition h5_write (f : file) (path : string) (l : leaf T F) : wres :=
    match h5_set (split_path path) l f with Ok f' => (f', Ok tt) | Raise e => (f, Raise e) end.

  (** [put path v]: what lines 371-383 do for one value stored under [path] (= path + key). *)
  Fixpoint put (path : string) (v : pyval) (f : file) {struct v} : wres :=
    match v with
    | VList l =>
        (fix go (i : nat) (l : list pyval) (f : file) : wres :=
           match l with
           | [] => (f, Ok tt)
           | d :: rest =>
               let r := match storable d with
                        | Some lf => h5_write f (path ++ "/list" ++ dec i) lf     (* line 375 *)
                        | None =>
                            match d with
                            | VDict dd =>                                         (* line 377 *)
                                (fix gd (dd : list (string * pyval)) (f : file) : wres :=
                                   match dd with
                                   | [] => (f, Ok tt)
                                   | (k, x) :: t =>
                                       match put (path ++ "/list" ++ dec i ++ "/" ++ k) x f with
                                       | (f', Ok _) => gd t f'
                                       | (f', Raise e) => (f', Raise e)
                                       end
                                   end) dd f
                            | _ => (f, Ok tt)     (* any other list element is silently skipped *)
                            end
                        end in
               match r with
               | (f', Ok _) => go (S i) rest f'
               | (f', Raise e) => (f', Raise e)
               end
           end) O l f
    | VDict d =>                                                                  (* line 379 *)
        (fix gd (dd : list (string * pyval)) (f : file) : wres :=
           match dd with
           | [] => (f, Ok tt)
           | (k, x) :: t =>
               match put (path ++ "/" ++ k) x f with
               | (f', Ok _) => gd t f'
               | (f', Raise e) => (f', Raise e)
               end
           end) d f
    | VNone => h5_write f path (LBytes "NULL")                                    (* line 381 *)
    | _ => match storable v with
           | Some lf => h5_write f path lf                                        (* line 371 *)
           | None => (f, Raise ValueError)                                        (* line 383 *)
           end
    end.
  (** [_dict_to_group h5file path my_dict]; [path] ends in a slash. *)
  Fixpoint dict_to_group (path : string) (d : list (string * pyval)) (f : file) : wres :=
    match d with
    | [] => (f, Ok tt)
    | (k, x) :: t =>
        match put (path ++ k) x f with
        | (f', Ok _) => dict_to_group path t f'
        | (f', Raise e) => (f', Raise e)
        end
    end.

  (** ** _group_to_dict (lines 387-427) *)

  (** `value[()]` with the 'NULL' convention (lines 400-406, 413-419). *)
  Definition load_leaf (l : leaf T F) : pyval :=
    match l with
    | LArr a => VArr a | LInt z => VNpInt z | LBool b => VNpBool b | LFloat x => VFloat x
    | LBytes s => if String.eqb s "NULL" then VNone else VBytes s
    end.

  (** `int(s)` for a string of decimal digits; anything else is taken to raise ValueError (Python
      also accepts signs, underscores and blanks). *)
  Definition digit_val (c : ascii) : option nat :=
    let n := nat_of_ascii c in
    if (Nat.leb 48 n && Nat.leb n 57)%bool then Some (n - 48)%nat else None.
  Fixpoint parse_dec_aux (s : string) (acc : nat) : option nat :=
    match s with
    | EmptyString => Some acc
    | String c t => match digit_val c with
                    | Some v => parse_dec_aux t (10 * acc + v)%nat
                    | None => None
                    end
    end.
  Definition parse_dec (s : string) : Res nat :=
    if String.eqb s "" then Raise ValueError else opt_res ValueError (parse_dec_aux s 0).

  Fixpoint drop4 (n : nat) (s : string) : string :=
    match n, s with S k, String _ t => drop4 k t | _, _ => s end.
  Fixpoint take4 (n : nat) (s : string) : string :=
    match n, s with S k, String c t => String c (take4 k t) | _, _ => "" end.

  Fixpoint insert_nat (x : nat) (l : list nat) : list nat :=
    match l with [] => [x] | y :: t => if Nat.leb x y then x :: l else y :: insert_nat x t end.
  Definition sort_nat (l : list nat) : list nat := fold_right insert_nat [] l.

  (** The recursion is on [fuel], Python's recursion limit: running out raises RecursionError (a
      RuntimeError). *)
  Fixpoint group_to_dict (fuel : nat) (root : node) (path : string) : Res (list (string * pyval)) :=
    match fuel with
    | O => Raise RuntimeError
    | S fuel' =>
        let! g := h5_get (split_path path) root in
        match g with
        | Dataset _ => Raise AttributeError
        | Group members =>
            mapM (fun kv =>
              let key := fst kv in
              match snd kv with
              | Dataset l => Ok (key, load_leaf l)
              | Group _ =>
                  let! sub := h5_get (split_path (path ++ key ++ "/")) root in
                  match sub with
                  | Dataset _ => Raise AttributeError
                  | Group sub_members =>
                      let key_list := map fst sub_members in
                      let! k0 := opt_res IndexError (hd_error key_list) in
                      if String.eqb (take4 4 k0) "list" then
                        let! ids := mapM (fun s => parse_dec (drop4 4 s)) key_list in
                        let! items := mapM (fun i =>
                            let p := path ++ key ++ "/list" ++ dec i in
                            let! value := h5_get (split_path p) root in
                            match value with
                            | Dataset l => Ok (load_leaf l)
                            | Group _ => let! d := group_to_dict fuel' root p in Ok (VDict d)
                            end) (sort_nat ids) in
                        Ok (key, VList items)
                      else let! d := group_to_dict fuel' root (path ++ key ++ "/") in
                           Ok (key, VDict d)
                  end
              end) members
        end
    end.

  (** ** Analyzer.save / Analyzer.load (lines 33-67) *)

  (** `filename.rsplit('.', 1)[0] + '.hdf'` *)
  Definition dot_char : ascii := "."%char.
  Fixpoint has_dot (s : string) : bool :=
    match s with EmptyString => false | String c t => Ascii.eqb c dot_char || has_dot t end.
  Fixpoint rsplit_dot (s : string) : string :=
    match s with
    | EmptyString => ""
    | String c t => if Ascii.eqb c dot_char && negb (has_dot t) then "" else String c (rsplit_dot t)
    end.
  Definition hdf_name (filename : string) : string := rsplit_dot filename ++ ".hdf".

  (** The file system: which HDF5 file each name holds. Directories and permissions are not
      modelled. *)
  Definition fs := string -> option file.
  Definition fs_set (s : fs) (name : string) (f : file) : fs :=
    fun n => if String.eqb n name then Some f else s n.

  Definition save (s : fs) (filename : string) (d : list (string * pyval)) : fs * Res unit :=
    let name := hdf_name filename in
    match s name with
    | Some _ => (s, Raise ValueError)
    | None => let '(f, r) := dict_to_group "/" d [] in (fs_set s name f, r)
    end.
  (** A missing file is h5py's FileNotFoundError, here KeyError. *)
  Definition load (fuel : nat) (s : fs) (filename : string) : Res (list (string * pyval)) :=
    let! f := opt_res KeyError (s (hdf_name filename)) in
    group_to_dict fuel (Group f) "/".
End Hdf.
Arguments file T F : clear implicits.
