(** * ProofsCentrePath: C127, displacements of molecules in double precision *)
From Verif Require Import Base ModelParser Spec SpecStats SpecDouble SpecUnwrap SpecParser SpecMol Lemmas ProofsDisp ProofsBoot ProofsMol ProofsMolTraj SpecCentreRound SpecCentres.
From Verif Require ProofsFloat ProofsUnwrap ProofsCentres ProofsCentreRound ProofsMolList.
From Coq Require Import Reals Lra Lia Psatz.
From Coq.Floats Require Import SpecFloat.
From Flocq Require Import Core.
Open Scope Z_scope.
Notation abs_le := ProofsUnwrap.abs_le.

(** ** Three axes *)
Definition values_of (v : V3 spec_float) : V3 R := mkV (value (vx v)) (value (vy v)) (value (vz v)).
Lemma centre_round circ w (atoms : list (V3 spec_float)) (u : list (V3 R)) : fair_circ circ -> atoms <> [] -> Z.of_nat (length atoms) <= 2 ^ 40 ->
  usual_masses w (length atoms) -> (forall i, Forall in_reach (map (fun v => part v i) atoms)) ->
  (forall i, images (map (fun v => part v i) u) (map value (map (fun v => part v i) atoms))) -> (forall i, spans_less (map (fun v => part v i) u)) ->
  exists y, molecule_centre circ w atoms = Ok y /\ forall i, nearly_wraps (length atoms) (part y i) (part (com3 (weights_of (mass_values w) (length atoms)) u) i).
Proof.
  intros FC NE HL HM HR HI HS.
  assert (A : forall i, exists y, molecule_axis circ w (map (fun v => part v i) atoms) = Ok y
     /\ nearly_wraps (length atoms) y (centre_of_mass (weights_of (mass_values w) (length atoms)) (map (fun v => part v i) u))).
  { intros i. destruct (ProofsCentreRound.axis_round circ w (map (fun v => part v i) atoms) (map (fun v => part v i) u)) as (y & E & N); rewrite ?map_length; auto.
    - destruct atoms; [easy|discriminate].
    - rewrite map_length in N. eauto. }
  destruct (A AX) as (x & Ex & Nx), (A AY) as (y & Ey & Ny), (A AZ) as (z & Ez & Nz). exists (mkV x y z). split.
  - unfold molecule_centre. change (map vx atoms) with (map (fun v => part v AX) atoms). rewrite Ex. cbn [bind].
    change (map vy atoms) with (map (fun v => part v AY) atoms). rewrite Ey. cbn [bind].
    change (map vz atoms) with (map (fun v => part v AZ) atoms). rewrite Ez. reflexivity.
  - intros []; assumption.
Qed.

(** ** The selected copy of a position *)
Definition snap (v r : R) : R := (v + IZR (Zfloor (r - v + / 2)))%R.
Lemma snap_near v r (k : Z) e : (e < / 2)%R -> (Rabs (v + IZR k - r) <= e)%R -> (Rabs (snap v r - r) <= e)%R.
Proof.
  intros He H. unfold snap. replace (Zfloor (r - v + / 2)) with k; [exact H|]. symmetry. apply Zfloor_imp. apply abs_le in H. rewrite plus_IZR. lra.
Qed.
Lemma snap_whole v r : is_integer (v - snap v r).
Proof. exists (- Zfloor (r - v + / 2)). unfold snap. rewrite opp_IZR. ring. Qed.

(** ** Frames *)
Lemma frame_inv circ (masses : option (list spec_float)) indices drift n (p : nat -> V3 spec_float) r d :
  molecule_frame circ masses (map minus_one indices) drift (tab n p) = Ok r ->
  length r = (length indices + length drift)%nat
  /\ (forall b mol, nth_error indices b = Some mol -> Forall (valid_site n) (minus_one mol)
       /\ molecule_centre circ masses (map (fun i => p (site n (i - 1))) mol) = Ok (nth b r d))
  /\ (forall b i, nth_error drift b = Some i -> valid_site n i /\ nth (length indices + b) r d = p (site n i)).
Proof.
  unfold molecule_frame. intros H. inv_bind H cs E1. inv_bind H fw E2. injection H as <-. apply mapM_ok in E1.
  assert (L : length cs = length indices) by (rewrite <- (Forall2_length _ _ _ E1); apply map_length).
  pose proof (ProofsCentres.gather_valid _ _ _ _ E2) as V. rewrite gather_tab in E2 by exact V. injection E2 as <-.
  split; [now rewrite app_length, L, map_length|]. split.
  - intros b mol E. destruct (Forall2_nth_error _ _ _ b (minus_one mol) E1) as (c & C1 & C2); [now rewrite nth_error_map, E|].
    inv_bind C2 atoms C3. pose proof (ProofsCentres.gather_valid _ _ _ _ C3) as W. split; [exact W|].
    rewrite gather_tab in C3 by exact W. injection C3 as <-. unfold minus_one in C2. rewrite map_map in C2.
    rewrite app_nth1 by (apply nth_error_Some; congruence). now rewrite (nth_error_nth _ _ _ C1).
  - intros b i E. split; [rewrite Forall_forall in V; apply V; eapply nth_error_In; exact E|].
    rewrite app_nth2 by lia. rewrite L, Nat.add_comm, Nat.add_sub. apply nth_error_nth. now rewrite nth_error_map, E.
Qed.
Lemma get_inv circ natoms (coords : list (list (V3 spec_float))) indices masses framework new ids :
  get_molecules circ natoms coords indices masses framework = Ok (new, ids) ->
  (forall mol, In mol indices -> match masses with Some ws => length ws = length mol | None => True end)
  /\ ids = (centre_ids indices, framework_ids indices (drift_of natoms indices framework))
  /\ mapM (molecule_frame circ masses (map minus_one indices) (drift_of natoms indices framework)) coords = Ok new.
Proof.
  intros H. set (drift := drift_of natoms indices framework). unfold get_molecules in H. inv_bind H u1 E1. destruct u1. apply guard_ok in E1.
  change (match framework with PyList l => map (fun i : Z => (i - 1)%Z) l | _ => complement natoms (List.concat (map (map (fun z : Z => (z - 1)%Z)) indices)) end)
    with drift in H.
  change (map (map (fun z : Z => (z - 1)%Z)) indices) with (map minus_one indices) in H.
  inv_bind H u2 E2. inv_bind H u3 E3. inv_bind H u4 E4. inv_bind H u5 E5. inv_bind H c E6. injection H as <- <-.
  split; [|split; [reflexivity|exact E6]]. intros mol M. destruct masses as [ws|]; [|trivial].
  destruct u2. apply guard_ok, Nat.eqb_eq in E2. rewrite E2, (same_length_In _ _ E1 M). destruct indices as [|m0 l]; [contradiction|].
  cbn [map hd]. unfold minus_one. apply map_length.
Qed.

(** ** Trajectories *)
Definition reach3 (v : V3 spec_float) (x : V3 R) : Prop :=
  forall i, finite_double (part v i) /\ (Rabs (value (part v i)) <= 2)%R /\ is_integer (value (part v i) - part x i).
Lemma error_mono m n : (m <= n)%nat -> (centre_error m <= centre_error n)%R.
Proof. intros H. unfold centre_error. apply le_INR in H. apply Rmult_le_compat_r; lra. Qed.
Lemma error_small n : Z.of_nat n <= 2 ^ 40 -> (0 <= centre_error n < / 100)%R.
Proof. intros H. unfold centre_error. pose proof (ProofsCentreRound.few n H). pose proof (pos_INR n). lra. Qed.
Section Path.
  Context (circ : option (list spec_float) -> list spec_float -> Res spec_float) (FC : fair_circ circ).
  Context (side : V3 spec_float) (n natoms size : nat) (c : nat -> nat -> V3 spec_float) (x : nat -> nat -> V3 R).
  Context (indices : list (list Z)) (masses : option (list spec_float)) (framework : pyseq Z) (fw : list Z).
  Context (Hside : forall i, usual_length (part side i)).
  Context (Hfw : molecule_framework natoms indices (given_framework framework) fw).
  Context (Hc : forall f a, (f <= n)%nat -> (a < natoms)%nat -> reach3 (c f a) (x f a)).
  Context (Hmol : forall mol, In mol indices -> mol <> [] /\ (length mol <= size)%nat) (Hsize : Z.of_nat size <= 2 ^ 40).
  Context (Hmass : match masses with Some ws => Forall usual_length ws | None => True end).
  Context (Hspan : forall f mol i, (f <= n)%nat -> In mol indices -> spans_less (map (fun j => part (x f (site natoms (j - 1))) i) mol)).
  Let centre := centres natoms (mass_values masses) indices fw x.

  Lemma one_frame f r d b i : (f <= n)%nat -> molecule_frame circ masses (map minus_one indices) fw (tab natoms (c f)) = Ok r ->
    (forall mol, In mol indices -> match masses with Some ws => length ws = length mol | None => True end) -> (b < sites indices fw)%nat ->
    finite_double (part (nth b r d) i) /\ (Rabs (value (part (nth b r d) i)) <= 2)%R
    /\ exists k : Z, (Rabs (value (part (nth b r d) i) + IZR k - part (centre f b) i) <= centre_error size)%R.
  Proof.
    intros Hf E HW Hb. destruct (frame_inv _ _ _ _ _ _ _ d E) as (_ & V1 & V2). unfold centre, centres. pose proof (error_small size Hsize) as ES.
    destruct (nth_error indices b) as [mol|] eqn:Em.
    - destruct (V1 b mol Em) as [VS C]. pose proof (nth_error_In _ _ Em) as IM. destruct (Hmol mol IM) as [NE LS].
      assert (AT : forall j, In j mol -> (site natoms (j - 1) < natoms)%nat).
      { intros j J. apply site_lt. rewrite Forall_forall in VS. apply VS. unfold minus_one. apply in_map_iff. now exists j. }
      destruct (centre_round circ masses (map (fun j => c f (site natoms (j - 1))) mol) (map (fun j => x f (site natoms (j - 1))) mol) FC) as (y & Ey & Ny).
      + intros Z. apply map_eq_nil in Z. easy.
      + rewrite map_length. lia.
      + rewrite map_length. specialize (HW mol IM). destruct masses; [now split|exact I].
      + intros a. rewrite map_map. apply Forall_map, Forall_forall. intros j J. destruct (Hc f _ Hf (AT j J) a) as (P & Q & _). now split.
      + intros a. rewrite !map_map. unfold images. clear - Hc Hf AT. induction mol as [|j mol IH]; [constructor|]. cbn [map]. constructor.
        * destruct (Hc f _ Hf (AT j (or_introl eq_refl)) a) as (_ & _ & k & K). exists k. lra.
        * apply IH. intros q Q. apply AT. now right.
      + intros a. rewrite map_map. now apply Hspan.
      + rewrite Ey in C. injection C as <-. rewrite !map_length in Ny. destruct (Ny i) as (P & Q & k & K). split; [exact P|]. split; [apply abs_le; lra|].
        exists k. eapply Rle_trans; [exact K|now apply error_mono].
    - apply nth_error_None in Em. unfold sites in Hb. destruct (nth_error fw (b - length indices)) as [j|] eqn:Ej.
      + destruct (V2 _ _ Ej) as [VS C]. replace (length indices + (b - length indices))%nat with b in C by lia. rewrite C.
        destruct (Hc f _ Hf (site_lt _ _ VS) i) as (P & Q & k & K). split; [exact P|]. split; [exact Q|]. exists (- k). rewrite opp_IZR.
        apply abs_le. lra.
      + apply nth_error_None in Ej. lia.
  Qed.

  Context (new : list (list (V3 spec_float))) (ids : list Z * list Z)
    (Hnew : get_molecules circ natoms (tab (S n) (fun f => tab natoms (c f))) indices masses framework = Ok (new, ids)).
  Context (Hn : Z.of_nat n <= 2 ^ 20).
  Context (Hstep : forall f b i, (f < n)%nat -> (b < sites indices fw)%nat ->
    (Rabs (part (centre (S f) b) i - part (centre f b) i) <= / 2 - / 2 ^ 47 - 2 * centre_error size)%R).

  Lemma path_proof : ids = (centre_ids indices, framework_ids indices fw)
    /\ exists d, get_disp new (tab (S n) (fun _ => box side)) = Ok d /\ a_obs d = n /\ shape (a_rows d) (sites indices fw) n
    /\ forall b t v i, arr_entry d b t = Some v -> finite_double (part v i)
       /\ (Rabs (value (part v i) - (part (centre (S t) b) i - part (centre 0 b) i) * value (part side i))
            <= (INR (S t) ^ 2 * / 2 ^ 49 + 2 * centre_error size) * value (part side i))%R.
  Proof.
    destruct (get_inv _ _ _ _ _ _ _ _ Hnew) as (HW & E1 & E2).
    rewrite (framework_unique _ _ _ _ _ (drift_spec natoms indices framework) Hfw) in E1, E2. split; [exact E1|].
    destruct (mapM_tab_ok _ _ _ _ [] E2) as [EN EF]. pose (z := mkV (S754_zero false) (S754_zero false) (S754_zero false)).
    pose (cc f b := nth b (nth f new []) z). set (N := sites indices fw).
    assert (ET : new = tab (S n) (fun f => tab N (cc f))).
    { rewrite EN at 1. apply tab_ext. intros f Hf. pose proof (frame_inv _ _ _ _ _ _ _ z (EF f Hf)) as (L & _ & _). unfold N, sites. rewrite <- L.
      unfold tab, cc. symmetry. apply map_nth_seq. }
    pose (y f b := mkV (snap (value (vx (cc f b))) (vx (centre f b))) (snap (value (vy (cc f b))) (vy (centre f b))) (snap (value (vz (cc f b))) (vz (centre f b)))).
    assert (PY : forall f b i, part (y f b) i = snap (value (part (cc f b) i)) (part (centre f b) i)) by (intros f b []; reflexivity).
    assert (ES := error_small size Hsize).
    assert (FB : forall f b i, (f <= n)%nat -> (b < N)%nat -> finite_double (part (cc f b) i) /\ (Rabs (value (part (cc f b) i)) <= 2)%R
       /\ is_integer (value (part (cc f b) i) - part (y f b) i) /\ (Rabs (part (y f b) i - part (centre f b) i) <= centre_error size)%R).
    { intros f b i Hf Hb. destruct (one_frame f (nth f new []) z b i Hf (EF f ltac:(lia)) HW Hb) as (P & Q & k & K). fold (cc f b) in P, Q, K.
      split; [exact P|]. split; [exact Q|]. rewrite PY. split; [apply snap_whole|]. eapply snap_near; [lra|exact K]. }
    destruct (ProofsUnwrap.C74_proof side n N cc y Hside) as (d & Ed & Od & Sd & Bd).
    - intros f b i Hf Hb. destruct (FB f b i Hf Hb) as (P & Q & R0 & _). auto.
    - intros f b i Hf Hb. destruct (FB f b i ltac:(lia) Hb) as (_ & _ & _ & A1). destruct (FB (S f) b i ltac:(lia) Hb) as (_ & _ & _ & A2).
      specialize (Hstep f b i Hf Hb). apply abs_le in A1. apply abs_le in A2. apply abs_le in Hstep. apply abs_le. lra.
    - exact Hn.
    - exists d. rewrite ET. split; [exact Ed|]. split; [exact Od|]. split; [exact Sd|]. intros b t v i Ev. destruct (Bd b t v i Ev) as [F B]. split; [exact F|].
      assert (Hb : (b < N)%nat /\ (t < n)%nat).
      { destruct Sd as [S1 S2]. unfold arr_entry, entry in Ev. destruct (nth_error (a_rows d) b) as [row|] eqn:Er; [|discriminate]. split.
        - rewrite <- S1. apply nth_error_Some. congruence.
        - rewrite Forall_forall in S2. rewrite <- (S2 row) by (eapply nth_error_In; exact Er). apply nth_error_Some. congruence. }
      destruct Hb as [Hb Ht]. destruct (FB 0%nat b i ltac:(lia) Hb) as (_ & _ & _ & A1). destruct (FB (S t) b i ltac:(lia) Hb) as (_ & _ & _ & A2).
      destruct (ProofsUnwrap.usual_len _ (Hside i)) as [L _]. pose proof (ProofsUnwrap.len_pos _ L) as P. set (l := value (part side i)) in *.
      assert (D : (Rabs ((part (y (S t) b) i - part (y 0%nat b) i) * l - (part (centre (S t) b) i - part (centre 0 b) i) * l) <= 2 * centre_error size * l)%R).
      { rewrite <- Rmult_minus_distr_r, Rabs_mult, (Rabs_pos_eq l) by lra. apply Rmult_le_compat_r; [lra|]. apply abs_le in A1. apply abs_le in A2. apply abs_le. lra. }
      apply abs_le in B. apply abs_le in D. apply abs_le. lra.
  Qed.
End Path.

(** ** Witnesses *)
Import ProofsFloat ProofsUnwrap.
(** The circular mean to the nearest 1/1024 below. *)
Definition coarse_circ (w : option (list spec_float)) (s : list spec_float) : Res spec_float :=
  match circular_mean_R (mass_values w) (map value s) with
  | Ok r => Ok (SFdiv fprec femax (SFofZ (Zfloor ((r - IZR (Zfloor r)) * 1024))) (SFofZ 1024))
  | Raise e => Raise e
  end.
Lemma coarse_fair : fair_circ coarse_circ.
Proof.
  intros w s r E. unfold coarse_circ. rewrite E. eexists. split; [reflexivity|]. pose proof (Zfloor_lb r) as L. pose proof (Zfloor_ub r) as U.
  set (q := ((r - IZR (Zfloor r)) * 1024)%R). pose proof (Zfloor_lb q) as L'. pose proof (Zfloor_ub q) as U'. set (k := Zfloor q) in *.
  assert (K0 : 0 <= k) by (apply Zfloor_lub; unfold q; lra). assert (K1 : k <= 1024) by (apply le_IZR; unfold q in *; lra).
  destruct (ofZ_small k) as [F V]; [lia|]. destruct (ofZ_small 1024) as [F2 V2]; [lia|].
  assert (R0 : rep (IZR k / 1024)). { replace (IZR k / 1024)%R with (IZR k * bpow radix2 (-10))%R by (change (bpow radix2 (-10)) with (/ 1024)%R; reflexivity). apply rep_scaled; lia. }
  apply IZR_le in K0, K1. destruct (fv_div _ _ _ _ (conj F V) (conj F2 V2)) as [Fd Vd]; [lra|apply small_bound, abs_le; lra|].
  rewrite rnd_rep in Vd by exact R0. split; [exact Fd|]. rewrite Vd. split; [lra|]. exists (- Zfloor r). rewrite opp_IZR. unfold q in *. apply abs_le. lra.
Qed.
(** A pair of atoms with masses 1 and 3, crossing the side of the cell. *)
Definition pair_at (f a : nat) : V3 spec_float :=
  mkV (match f, a with O, O => eighths 7 | O, S _ => eighths 1 | S _, O => eighths 1 | S _, S _ => eighths 3 end) (eighths 3) (S754_zero false).
Definition pair_true (f a : nat) : V3 R :=
  mkV (match f, a with O, O => 7 / 8 | O, S _ => 9 / 8 | S _, O => 9 / 8 | S _, S _ => 11 / 8 end)%R (3 / 8)%R 0%R.
Definition pair_masses : option (list spec_float) := Some [SFofZ 1; SFofZ 3].
Lemma small_usual z : 1 <= z <= 16 -> usual_length (SFofZ z) /\ value (SFofZ z) = IZR z.
Proof.
  intros H. destruct (ofZ_small z) as [F V]; [lia|]. split; [|exact V]. split; [exact F|]. rewrite V. rewrite <- !(bpow_powerRZ radix2).
  assert (1 <= IZR z <= 16)%R by (split; apply IZR_le; lia). split.
  - apply Rle_trans with (bpow radix2 0); [apply bpow_le; lia|]. change (bpow radix2 0) with 1%R. lra.
  - apply Rle_trans with (bpow radix2 4); [change (bpow radix2 4) with 16%R; lra|]. apply bpow_le. lia.
Qed.
Lemma pair_reach f a : reach3 (pair_at f a) (pair_true f a).
Proof.
  destruct eighth7 as [F7 V7], eighth1 as [F1 V1], eighth3 as [F3 V3], zero_fv as [F0 V0].
  assert (A : forall y v r (k : Z), fv y v -> (Rabs v <= 2)%R -> (v - r = IZR k)%R -> finite_double y /\ (Rabs (value y) <= 2)%R /\ is_integer (value y - r)).
  { intros y v r k [F <-] B K. split; [exact F|]. split; [exact B|]. now exists k. }
  intros []; cbn [part pair_at pair_true vx vy vz].
  - destruct f, a.
    + apply (A _ _ _ 0 eighth7); [apply abs_le; lra|lra].
    + apply (A _ _ _ (-1) eighth1); [apply abs_le; lra|lra].
    + apply (A _ _ _ (-1) eighth1); [apply abs_le; lra|lra].
    + apply (A _ _ _ (-1) eighth3); [apply abs_le; lra|lra].
  - apply (A _ _ _ 0 eighth3); [apply abs_le; lra|lra].
  - apply (A _ _ _ 0 zero_fv); [apply abs_le; lra|lra].
Qed.
Lemma pair_span f i : spans_less (map (fun j => part (pair_true f (site 2 (j - 1))) i) [1; 2]).
Proof.
  cbn [map]. change (site 2 (1 - 1)) with 0%nat. change (site 2 (2 - 1)) with 1%nat.
  intros a b [<-|[<-|[]]] [<-|[<-|[]]]; destruct f, i; cbn [part pair_true vx vy vz]; apply abs_le; lra.
Qed.
Lemma pair_masses_ok : usual_masses pair_masses 2 /\ mass_values pair_masses = Some [1; 3]%R.
Proof.
  destruct (small_usual 1) as [U1 V1]; [lia|]. destruct (small_usual 3) as [U3 V3]; [lia|].
  split; [split; [reflexivity|apply Forall_cons; [exact U1|apply Forall_cons; [exact U3|apply Forall_nil]]]|]. cbn [mass_values pair_masses option_map map]. now rewrite V1, V3.
Qed.
Lemma pair_centre f : centres 2 (mass_values pair_masses) [[1; 2]] [] pair_true f 0 = mkV (match f with O => 17 / 16 | S _ => 21 / 16 end)%R (3 / 8)%R 0%R.
Proof.
  rewrite (proj2 pair_masses_ok). unfold centres. cbn [nth_error map length weights_of]. change (site 2 (1 - 1)) with 0%nat. change (site 2 (2 - 1)) with 1%nat.
  unfold com3, centre_of_mass, weighted, pair_true. destruct f; apply V3_eq; cbn; field.
Qed.
Lemma pair_success : exists new, get_molecules coarse_circ 2 (tab 2 (fun f => tab 2 (pair_at f))) [[1; 2]] pair_masses PyNone = Ok (new, ([0], [])).
Proof.
  assert (C : forall f, exists y, molecule_centre coarse_circ pair_masses [pair_at f 0; pair_at f 1] = Ok y).
  { intros f. destruct (centre_round coarse_circ pair_masses [pair_at f 0; pair_at f 1] [pair_true f 0; pair_true f 1] coarse_fair) as (y & E & _).
    - discriminate.
    - cbn. lia.
    - apply pair_masses_ok.
    - intros i. cbn [map]. apply Forall_cons; [|apply Forall_cons; [|apply Forall_nil]]; destruct (pair_reach f 0 i) as (A & B & _), (pair_reach f 1 i) as (A' & B' & _); now split.
    - intros i. cbn [map]. apply Forall2_cons; [|apply Forall2_cons; [|apply Forall2_nil]].
      + destruct (pair_reach f 0 i) as (_ & _ & k & K). exists k. lra.
      + destruct (pair_reach f 1 i) as (_ & _ & k & K). exists k. lra.
    - intros i. exact (pair_span f i).
    - eauto. }
  destruct (C 0%nat) as [y0 E0], (C 1%nat) as [y1 E1]. exists [[y0]; [y1]].
  unfold get_molecules. cbn [same_length forallb map length Nat.eqb guard bind andb tab seq hd pair_masses].
  unfold molecule_frame. cbn [mapM].
  change (gather [pair_at 0 0; pair_at 0 1] [1 - 1; 2 - 1]) with (Ok [pair_at 0 0; pair_at 0 1]).
  change (gather [pair_at 1 0; pair_at 1 1] [1 - 1; 2 - 1]) with (Ok [pair_at 1 0; pair_at 1 1]).
  unfold pair_masses in *. cbn [bind]. rewrite E0, E1. reflexivity.
Qed.
Lemma C127_example_proof : fair_circ coarse_circ /\ exists new d,
  get_molecules coarse_circ 2 (tab 2 (fun f => tab 2 (pair_at f))) [[1; 2]] pair_masses PyNone = Ok (new, ([0], []))
  /\ get_disp new (tab 2 (fun _ => box ten3)) = Ok d
  /\ exists v, arr_entry d 0 0 = Some v /\ (Rabs (value (vx v) - 5 / 2) <= / 2 ^ 43)%R.
Proof.
  split; [exact coarse_fair|]. destruct pair_success as [new E]. exists new.
  destruct (path_proof coarse_circ coarse_fair ten3 1 2 2 pair_at pair_true [[1; 2]] pair_masses PyNone []) with (new := new) (ids := ([0], [] : list Z)) as (_ & d & Ed & Od & Sd & Bd).
  - exact ten3_usual.
  - exact (drift_spec 2 [[1; 2]] PyNone).
  - intros f a _ _. apply pair_reach.
  - intros mol [<-|[]]. split; [discriminate|cbn; lia].
  - cbn; lia.
  - apply pair_masses_ok.
  - intros f mol i _ [<-|[]]. apply pair_span.
  - exact E.
  - cbn; lia.
  - intros f b i Hf Hb. destruct b; [|cbn in Hb; lia]. destruct f; [|lia]. rewrite !pair_centre. unfold centre_error. cbn [INR].
    destruct i; cbn [part vx vy vz]; apply abs_le; lra.
  - exists d. split; [exact E|]. split; [exact Ed|]. destruct Sd as [S1 S2].
    destruct (a_rows d) as [|row rows] eqn:Er; [discriminate|]. inversion S2 as [|? ? L _]; subst. destruct row as [|v row]; [discriminate|].
    exists v. assert (EV : arr_entry d 0 0 = Some v) by (unfold arr_entry, entry; now rewrite Er). split; [exact EV|].
    destruct (Bd 0%nat 0%nat v AX EV) as [_ B]. rewrite !pair_centre in B. cbn [part vx] in B. rewrite ten3_value in B.
    unfold centre_error in B. cbn [INR] in B. apply abs_le in B. apply abs_le. lra.
Qed.
(** Two atoms half a cell away from the guess on either side. *)
Lemma C127_bad_guess_proof : exists c s u, finite_double c /\ (0 <= value c <= 1)%R /\ Forall in_reach s /\ images u (map value s) /\ spans_less u
  /\ exists y, pseudo_com c None s = Ok y /\ forall k : Z, (/ 2 <= Rabs (value y + IZR k - centre_of_mass [1; 1] u))%R.
Proof.
  assert (H5 : fv (eighths 5) (5 / 8)). { split; [apply finite_compute; vm_compute; auto|]. change (eighths 5) with (S754_finite false 5629499534213120 (-53)). cbn [value]. rewrite powers. cbn. lra. }
  destruct eighth3 as [F3 V3], H5 as [F5 V5]. exists (S754_zero false), [eighths 3; eighths 5], [3 / 8; 5 / 8]%R.
  destruct zero_fv as [F0 V0]. split; [exact F0|]. split; [rewrite V0; lra|]. split.
  { apply Forall_cons; [|apply Forall_cons; [|apply Forall_nil]]; (split; [assumption|]); rewrite ?V3, ?V5; apply abs_le; lra. }
  split; [cbn [map]; rewrite V3, V5; apply Forall2_cons; [|apply Forall2_cons; [|apply Forall2_nil]]; exists 0; ring|]. split.
  { intros a b [<-|[<-|[]]] [<-|[<-|[]]]; apply abs_le; lra. }
  exists (S754_zero false). split; [reflexivity|]. intros k. rewrite V0. unfold centre_of_mass, weighted. cbn [combine map rsum fst snd].
  replace (0 + IZR k - (1 * (3 / 8) + (1 * (5 / 8) + 0)) / (1 + (1 + 0)))%R with (IZR k - / 2)%R by field.
  destruct (Z_le_gt_dec k 0) as [H|H].
  - apply IZR_le in H. rewrite Rabs_left1; lra.
  - assert (1 <= IZR k)%R by (apply IZR_le; lia). rewrite Rabs_pos_eq; lra.
Qed.
