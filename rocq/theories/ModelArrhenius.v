(** * ModelArrhenius: kinisi/arrhenius.py

    All line numbers refer to /repo/kinisi/arrhenius.py. uravu's Relationship (fitting, MCMC,
    nested sampling) is not modelled. *)
From Verif Require Import Base.
From Coq Require Import Reals.

(** arrhenius (lines 81-93); [k] is R_eV, the Boltzmann constant in eV/K (lines 20-22). *)
Definition arrhenius (k T Ea pre : R) : R := (pre * exp (-1 * Ea / (k * T)))%R.
(** super_arrhenius (lines 162-174) *)
Definition super_arrhenius (k T Ea pre T0 : R) : R := (pre * exp (-1 * Ea / (k * (T - T0))))%R.

(** Lines 21-22: R_no_mol = R / N_A; R_eV = R_no_mol / eV. *)
Definition R_eV (gas_R n_a ev : R) : R := (gas_R / n_a / ev)%R.

(** extrapolate (lines 70-78, 151-159) and distribution (62-68, 143-149): the function at one
    temperature for every posterior sample. *)
Definition extrapolate (k T : R) (chain : list (R * R)) : list R :=
  map (fun s => arrhenius k T (fst s) (snd s)) chain.
Definition super_extrapolate (k T : R) (chain : list (R * R * R)) : list R :=
  map (fun s => super_arrhenius k T (fst (fst s)) (snd (fst s)) (snd s)) chain.
Definition arrhenius_distribution (k : R) (temps : list R) (chain : list (R * R)) : list (list R) :=
  map (fun T => extrapolate k T chain) temps.

(** ** SuperArrhenius.__init__ (lines 112-120)

    `bounds` may be a list object, which line 119 changes in place, or a tuple. Lists live in a heap
    from addresses to contents; the default value of the argument is one list object, created when
    the class is defined, at address [default_list]. *)
Definition par_bound (A : Type) := (A * option A)%type.
Definition heap (A : Type) := nat -> list (par_bound A).
Inductive bounds_arg (A : Type) :=
| BDefault                       (* argument omitted *)
| BList (addr : nat)             (* a list object of the caller *)
| BTuple (l : list (par_bound A)).   (* a tuple: item assignment raises TypeError *)
Arguments BDefault {A}. Arguments BList {A}. Arguments BTuple {A}.
Definition default_list : nat := 0.

Fixpoint set_nth {T} (n : nat) (x : T) (l : list T) : list T :=
  match n, l with
  | O, _ :: t => x :: t
  | S k, y :: t => y :: set_nth k x t
  | _, [] => []
  end.

Section Super.
  Context {A : Type} (zero one big : A).
  (** Lines 115-116: [(0, 1), (0, 1e20), (0, None)] *)
  Definition default_bounds : list (par_bound A) := [(zero, Some one); (zero, Some big); (zero, None)].
  Definition write (h : heap A) (addr : nat) (l : list (par_bound A)) : heap A :=
    fun n => if Nat.eqb n addr then l else h n.

  (** Lines 118-119 for bounds that are the list object [addr]. *)
  Definition super_list (h : heap A) (addr : nat) (temperature : list A) : heap A * Res (list (par_bound A)) :=
    match py_index (h addr) 2 with
    | Raise e => (h, Raise e)
    | Ok (_, Some _) => (h, Ok (h addr))
    | Ok (_, None) =>
        match py_index temperature 0 with
        | Raise e => (h, Raise e)
        | Ok t0 => let b := set_nth 2 (zero, Some t0) (h addr) in (write h addr b, Ok b)
        end
    end.
  (** Lines 118-120: the heap afterwards and the bounds handed to Relationship. *)
  Definition super_init (h : heap A) (arg : bounds_arg A) (temperature : list A) : heap A * Res (list (par_bound A)) :=
    match arg with
    | BDefault => super_list h default_list temperature
    | BList addr => super_list h addr temperature
    | BTuple l =>
        (h, match py_index l 2 with
            | Raise e => Raise e
            | Ok (_, Some _) => Ok l
            | Ok (_, None) => let! _ := py_index temperature 0 in Raise TypeError
            end)
    end.

  (** A history of constructor calls in one process. *)
  Fixpoint super_history (h : heap A) (calls : list (bounds_arg A * list A)) : heap A * list (Res (list (par_bound A))) :=
    match calls with
    | [] => (h, [])
    | (a, t) :: rest =>
        let '(h1, r) := super_init h a t in
        let '(h2, rs) := super_history h1 rest in (h2, r :: rs)
    end.
  (** The heap when the module has been imported; [user] holds the lists made by the caller. *)
  Definition fresh_heap (user : heap A) : heap A := write user default_list default_bounds.
End Super.
