(** * ProofsSuper: supercells (C83) *)
From Verif Require Import Base Spec SpecParser SpecStats SpecFit SpecAnalyzer ModelParser ModelDiffusion ModelHdf ModelAnalyzer
  Lemmas ProofsDisp ProofsIntervals ProofsWindows ProofsParser ProofsTraj ProofsBoot ProofsStats ProofsStats2 ProofsFit ProofsFit2 ProofsShape ProofsAnalyzer
  SpecRun SpecSym ProofsSym SpecGrid ProofsGrid SpecPool ProofsCollective ProofsPool SpecTrue ProofsTrue.
From Coq Require Import Reals Lra Lia Arith Sorting.Sorted.
Open Scope Z_scope.

(** ** The atoms chosen *)
Definition spread (c N : nat) (l : list Z) : list Z := List.concat (map (fun q => map (fun i => i + Z.of_nat (q * N)) l) (seq 0 c)).
Lemma select_app want sp l l' : forall i, select_where want sp i (l ++ l')%list = (select_where want sp i l ++ select_where want sp (i + Z.of_nat (length l)) l')%list.
Proof.
  induction l as [|s l IH]; intros i; cbn [app select_where length]; [now rewrite Z.add_0_r|].
  rewrite IH. replace (i + 1 + Z.of_nat (length l)) with (i + Z.of_nat (S (length l))) by lia. destruct (Bool.eqb _ _); reflexivity.
Qed.
Lemma select_shift want sp l : forall i, select_where want sp i l = map (fun j => j + i) (select_where want sp 0 l).
Proof.
  induction l as [|s l IH]; intros i; cbn [select_where]; [reflexivity|].
  rewrite (IH (i + 1)), (IH (0 + 1)). destruct (Bool.eqb _ _); cbn [map]; rewrite !map_map; [f_equal|]; apply map_ext; intros; lia.
Qed.
Lemma select_repeated want sp types c : select_where want sp 0 (repeated_types c types) = spread c (length types) (select_where want sp 0 types).
Proof.
  unfold repeated_types, spread.
  assert (H : forall q, select_where want sp (Z.of_nat (q * length types)) (List.concat (repeat types c))
     = List.concat (map (fun q => map (fun i => i + Z.of_nat (q * length types)) (select_where want sp 0 types)) (seq q c))).
  { induction c as [|c IH]; intros q; cbn [repeat List.concat seq map]; [reflexivity|].
    rewrite select_app, (select_shift _ _ types). f_equal. rewrite <- IH. f_equal. lia. }
  exact (H 0%nat).
Qed.
Lemma spread_nil c N l : (0 < c)%nat -> spread c N l = [] -> l = [].
Proof. destruct c as [|c]; [lia|]. destruct l; [reflexivity|]. discriminate. Qed.
Lemma spread_In c N l i : In i (spread c N l) <-> exists q j, (q < c)%nat /\ In j l /\ i = j + Z.of_nat (q * N).
Proof.
  unfold spread. rewrite in_concat. split.
  - intros (r & Hr & Hi). apply in_map_iff in Hr as (q & <- & Hq). apply in_map_iff in Hi as (j & <- & Hj). apply in_seq in Hq. exists q, j. split; [lia|]. auto.
  - intros (q & j & Hq & Hj & ->). exists (map (fun i => i + Z.of_nat (q * N)) l). split; [apply in_map_iff; exists q; split; [reflexivity|]; apply in_seq; lia|].
    apply in_map_iff. eauto.
Qed.
Lemma spread_length c N l : length (spread c N l) = (c * length l)%nat.
Proof.
  unfold spread. generalize 0%nat. induction c as [|c IH]; intros q; cbn [seq map List.concat]; [reflexivity|]. rewrite app_length, map_length, IH. lia.
Qed.
(** Mapping a function of the atom within its cell. *)
Lemma map_spread {T} (f : Z -> T) (g : Z -> T) c N l : (forall q j, (q < c)%nat -> In j l -> f (j + Z.of_nat (q * N)) = g j) ->
  map f (spread c N l) = List.concat (repeat (map g l) c).
Proof.
  unfold spread. intros H.
  assert (K : forall c q, (forall r j, (q <= r < q + c)%nat -> In j l -> f (j + Z.of_nat (r * N)) = g j) ->
     map f (List.concat (map (fun q => map (fun i => i + Z.of_nat (q * N)) l) (seq q c))) = List.concat (repeat (map g l) c)).
  { clear. induction c as [|c IH]; intros q H; cbn [seq map List.concat repeat]; [reflexivity|]. rewrite map_app, map_map. f_equal.
    - apply map_ext_in. intros j Hj. apply H; [lia|exact Hj].
    - apply IH. intros r j Hr Hj. apply H; [lia|exact Hj]. }
  apply K. intros r j Hr Hj. apply H; [lia|exact Hj].
Qed.
Definition within_cell (N : nat) (l : list Z) : Prop := Forall (fun i => 0 <= i < Z.of_nat N) l.
Lemma select_within want sp types : within_cell (length types) (select_where want sp 0 types).
Proof.
  apply Forall_forall. intros j Hj. apply (select_where_spec want sp types 0) in Hj as (b & name & -> & Hb & _).
  assert (b < length types)%nat by (apply nth_error_Some; congruence). lia.
Qed.
Lemma chosen_species types a sp I D : a_specie a = Some sp -> chosen types a = Ok (I, D) ->
  within_cell (length types) I /\ I <> []
  /\ forall c, (0 < c)%nat -> exists D', chosen (repeated_types c types) a = Ok (spread c (length types) I, D')
    /\ ((exists l, a_framework a = PyList l /\ D = l /\ D' = l) \/ (within_cell (length types) D /\ D' = spread c (length types) D)).
Proof.
  intros Hs H. unfold chosen in *. rewrite Hs in *. unfold get_indices in *. cbv zeta in *.
  assert (E : I = select_where true sp 0 types /\ I <> [] /\ D = match a_framework a with PyList l => l | _ => select_where false sp 0 types end).
  { destruct (select_where true sp 0 types); [discriminate|]. destruct (a_framework a); injection H as <- <-; repeat split; discriminate. }
  destruct E as (-> & NE & ->). split; [apply select_within|]. split; [exact NE|]. intros c Hc. rewrite !select_repeated.
  destruct (spread c (length types) (select_where true sp 0 types)) as [|i l] eqn:Es; [exfalso; apply NE; eapply spread_nil; eassumption|].
  destruct (a_framework a) as [|l'|].
  - eexists. split; [reflexivity|]. right. split; [apply select_within|reflexivity].
  - eexists. split; [reflexivity|]. left. eauto.
  - eexists. split; [reflexivity|]. right. split; [apply select_within|reflexivity].
Qed.

(** ** Positions *)
Lemma site_within N i : 0 <= i < Z.of_nat N -> Z.of_nat (site N i) = i /\ (site N i < N)%nat.
Proof. intros H. unfold site. destruct (Z.ltb_spec i 0); [lia|]. lia. Qed.
Lemma site_spread c N i q : 0 <= i < Z.of_nat N -> (q < c)%nat -> site (c * N) (i + Z.of_nat (q * N)) = (site N i + q * N)%nat
  /\ (site (c * N) (i + Z.of_nat (q * N)) mod N = site N i)%nat /\ valid_site (c * N) (i + Z.of_nat (q * N)).
Proof.
  intros Hi Hq. destruct (site_within N i Hi) as [S1 S2].
  assert (E : site (c * N) (i + Z.of_nat (q * N)) = (site N i + q * N)%nat).
  { unfold site at 1. destruct (Z.ltb_spec (i + Z.of_nat (q * N)) 0); lia. }
  split; [exact E|]. rewrite E. split.
  - rewrite Nat.mod_add by lia. now apply Nat.mod_small.
  - unfold valid_site. nia.
Qed.
Lemma site_list c N i : (0 < c)%nat -> valid_site N i -> (site (c * N) i mod N = site N i)%nat /\ valid_site (c * N) i.
Proof.
  intros Hc Hi. unfold valid_site in *. split; [|nia]. unfold site. destruct (Z.ltb_spec i 0).
  - replace (Z.to_nat (i + Z.of_nat (c * N))) with (Z.to_nat (i + Z.of_nat N) + (c - 1) * N)%nat by nia.
    rewrite Nat.mod_add by lia. apply Nat.mod_small. lia.
  - apply Nat.mod_small. lia.
Qed.
Section Super.
  Context (s : V3 nat) (shift : nat -> V3 Z) (cell : M3 R) (natoms : nat) (x : nat -> nat -> V3 R).
  Context (Hx : (0 < vx s)%nat) (Hy : (0 < vy s)%nat) (Hz : (0 < vz s)%nat).
  Let big := repeated_cell s cell.
  Let y := repeated_atoms s shift natoms x.
  Lemma cart_repeated f b : cart big (y f b) = cart cell (plus3 (x f (b mod natoms)%nat) (ivec (shift (b / natoms)%nat))).
  Proof.
    apply lt_INR in Hx, Hy, Hz. cbn [INR] in *. unfold big, y, repeated_atoms, repeated_cell, cart, scale3. cbv zeta. cbn [vx vy vz mr0 mr1 mr2].
    apply V3_eq; cbn [vx vy vz]; field; repeat split; lra.
  Qed.
  Lemma drifting_repeated k b t : drifting big k y b t = drifting cell k x (b mod natoms)%nat t.
  Proof. unfold drifting. rewrite !cart_repeated. unfold cart, plus3, minus3. cbn [vx vy vz]. f_equal; ring. Qed.
  Lemma volume_repeated : cell_volume cell <> 0%R -> cell_volume big <> 0%R.
  Proof.
    intros H. apply lt_INR in Hx, Hy, Hz. cbn [INR] in *. unfold big, repeated_cell, cell_volume, scale3 in *. cbn [mr0 mr1 mr2 vx vy vz] in *.
    match goal with |- ?e <> _ => match type of H with ?v <> _ => replace e with (INR (vx s) * INR (vy s) * INR (vz s) * v)%R by ring end end.
    repeat apply Rmult_integral_contrapositive_currified; lra.
  Qed.
  Lemma half_smaller (v : R) (n : nat) : (0 < n)%nat -> (- / 2 <= v < / 2 -> - / 2 <= v / INR n < / 2)%R.
  Proof.
    intros Hn [H1 H2]. assert (L : (1 <= INR n)%R) by (apply (le_INR 1); lia). 
    assert (I : (0 < / INR n <= 1)%R) by (split; [apply Rinv_0_lt_compat; lra|rewrite <- Rinv_1; apply Rinv_le_contravar; lra]).
    unfold Rdiv. destruct (Rle_or_lt 0 v); split; nra.
  Qed.
  Lemma steps_repeated n k c : (0 < natoms)%nat -> small_steps n natoms k x -> small_steps n (c * natoms) k y.
  Proof.
    intros HN H f b Hf Hb. specialize (H f (b mod natoms)%nat Hf (Nat.mod_upper_bound b natoms ltac:(lia))).
    unfold within_half, y, repeated_atoms, minus3, plus3 in *. cbv zeta. cbn [vx vy vz] in *. destruct H as (A & B & C).
    apply (half_smaller _ _ Hx) in A. apply (half_smaller _ _ Hy) in B. apply (half_smaller _ _ Hz) in C.
    apply lt_INR in Hx, Hy, Hz. cbn [INR] in *.
    split; [|split].
    - match goal with |- (_ <= ?e < _)%R => match type of A with (_ <= ?v < _)%R => replace e with v by (field; lra) end end. exact A.
    - match goal with |- (_ <= ?e < _)%R => match type of B with (_ <= ?v < _)%R => replace e with v by (field; lra) end end. exact B.
    - match goal with |- (_ <= ?e < _)%R => match type of C with (_ <= ?v < _)%R => replace e with v by (field; lra) end end. exact C.
  Qed.
End Super.
Lemma rsum_repeated (l : list R) c : rsum (List.concat (repeat l c)) = (INR c * rsum l)%R.
Proof. induction c as [|c IH]; cbn [repeat List.concat]; [cbn; ring|]. rewrite rsum_app, IH, S_INR. ring. Qed.
Lemma length_repeated {T} (l : list T) c : length (List.concat (repeat l c)) = (c * length l)%nat.
Proof. induction c as [|c IH]; cbn [repeat List.concat]; [reflexivity|]. rewrite app_length, IH. lia. Qed.
Lemma map_repeated {S T} (f : S -> T) l c : map f (List.concat (repeat l c)) = List.concat (repeat (map f l) c).
Proof. induction c as [|c IH]; cbn [repeat List.concat]; [reflexivity|]. now rewrite map_app, IH. Qed.
Lemma average_repeated (l : list R) c : (0 < c)%nat -> average (List.concat (repeat l c)) = average l.
Proof.
  intros Hc. unfold average. rewrite rsum_repeated, length_repeated, mult_INR. apply lt_INR in Hc. cbn [INR] in Hc.
  unfold Rdiv. rewrite Rinv_mult. transitivity (INR c * / INR c * (rsum l * / INR (length l)))%R; [ring|]. rewrite Rinv_r by lra. ring.
Qed.
Lemma average3_repeated (l : list (V3 R)) c : (0 < c)%nat -> average3 (List.concat (repeat l c)) = average3 l.
Proof. intros Hc. unfold average3. now rewrite !map_repeated, !average_repeated by exact Hc. Qed.

(** The displacements after the drift correction agree atom by atom. *)
Lemma corrected_repeated s shift cell natoms x k c D D' b t : (0 < vx s)%nat -> (0 < vy s)%nat -> (0 < vz s)%nat -> (0 < c)%nat ->
  (D' = D /\ Forall (valid_site natoms) D \/ within_cell natoms D /\ D' = spread c natoms D) ->
  corrected (c * natoms) (drifting (repeated_cell s cell) k (repeated_atoms s shift natoms x)) D' b t = corrected natoms (drifting cell k x) D (b mod natoms) t.
Proof.
  intros Hx Hy Hz Hc HD. unfold corrected.
  assert (K : average3 (map (fun i => drifting (repeated_cell s cell) k (repeated_atoms s shift natoms x) (site (c * natoms) i) t) D')
     = average3 (map (fun i => drifting cell k x (site natoms i) t) D)).
  { destruct HD as [[-> HD]|[HD ->]].
    - f_equal. apply map_ext_in. intros i Hi. rewrite Forall_forall in HD. rewrite drifting_repeated by assumption. now rewrite (proj1 (site_list c natoms i Hc (HD i Hi))).
    - rewrite (map_spread _ (fun i => drifting cell k x (site natoms i) t)); [now apply average3_repeated|].
      intros q j Hq Hj. unfold within_cell in HD. rewrite Forall_forall in HD. rewrite drifting_repeated by assumption.
      now rewrite (proj1 (proj2 (site_spread c natoms j q (HD j Hj) Hq))). }
  assert (N : D' = [] <-> D = []).
  { destruct HD as [[-> HD]|[HD ->]]; [tauto|]. split; [now apply spread_nil|]. intros ->. unfold spread.
    clear. induction (seq 0 c); [reflexivity|]. exact IHl. }
  destruct D' as [|i' D'], D as [|i D]; try (exfalso; assert (E := N); destruct E as [E1 E2]; (discriminate (E1 eq_refl) || discriminate (E2 eq_refl))).
  - now apply drifting_repeated.
  - rewrite K. now rewrite drifting_repeated.
Qed.
Lemma window_repeated s shift cell natoms x k c I D D' T m : (0 < vx s)%nat -> (0 < vy s)%nat -> (0 < vz s)%nat -> (0 < c)%nat -> within_cell natoms I ->
  (D' = D /\ Forall (valid_site natoms) D \/ within_cell natoms D /\ D' = spread c natoms D) ->
  multi_window (c * natoms) T (corrected (c * natoms) (drifting (repeated_cell s cell) k (repeated_atoms s shift natoms x)) D') (spread c natoms I) m
  = copies c (multi_window natoms T (corrected natoms (drifting cell k x) D) I m).
Proof.
  intros Hx Hy Hz Hc HI HD. unfold multi_window, copies. cbn [a_obs a_rows]. f_equal. apply map_spread.
  intros q j Hq Hj. unfold within_cell in HI. rewrite Forall_forall in HI.
  destruct (site_spread c natoms j q (HI j Hj) Hq) as (_ & E & _).
  unfold tab. apply map_ext. intros o. unfold window_obs.
  destruct o; rewrite !(corrected_repeated s shift cell natoms x k c D D') by assumption; now rewrite E.
Qed.
Lemma enough_more L c T n : (0 < c)%nat -> enough L T n = true -> enough (c * L) T n = true.
Proof. unfold enough. intros Hc H. apply Nat.ltb_lt in H. apply Nat.ltb_lt. nia. Qed.
Lemma filter_prefix {T} (f f' : T -> bool) l : filter f l = firstn (length (filter f l)) l -> filter f' l = firstn (length (filter f' l)) l ->
  (forall x, f x = true -> f' x = true) -> forall q m, nth_error (firstn (length (filter f l)) l) q = Some m -> nth_error (firstn (length (filter f' l)) l) q = Some m.
Proof.
  intros H H' K q m Hm.
  assert (L : (length (filter f l) <= length (filter f' l))%nat).
  { clear -K. induction l as [|y l IH]; cbn; [lia|]. specialize (K y). destruct (f y), (f' y); cbn; try lia. }
  assert (Hq : (q < length (filter f l))%nat).
  { assert (Q : nth_error (firstn (length (filter f l)) l) q <> None) by congruence. apply nth_error_Some in Q. rewrite firstn_length in Q. lia. }
  apply firstn_nth_error in Hm. rewrite nth_error_firstn by lia. exact Hm.
Qed.

(** ** Reading the supercell *)
Lemma supercell_read i circ s shift c cell types vol vol' n natoms k x img a p p' sp :
  faithful_read i circ cell types vol n natoms k x a p -> a_specie a = Some sp -> (0 < c)%nat -> (0 < vx s)%nat -> (0 < vy s)%nat -> (0 < vz s)%nat ->
  parser_by i geomspace_R circ (supercell_frames i s c shift cell types vol' n natoms x img) a = Ok p' ->
  faithful_read i circ (repeated_cell s cell) (repeated_types c types) vol' n (c * natoms) k (repeated_atoms s shift natoms x) a p'
  /\ within_cell natoms (p_indices p) /\ p_indices p' = spread c natoms (p_indices p)
  /\ (p_drift_indices p' = p_drift_indices p /\ Forall (valid_site natoms) (p_drift_indices p)
      \/ within_cell natoms (p_drift_indices p) /\ p_drift_indices p' = spread c natoms (p_drift_indices p)).
Proof.
  intros F Hsp Hc Hx Hy Hz E. destruct (read_forms _ _ _ _ _ _ _ _ _ _ _ F) as (tis & RF). assert (HC := rf_chosen _ _ _ _ _ _ _ _ _ _ RF).
  assert (F0 := F). destruct F as [Fc Ft Fk Ek Ea Fs Fa Fm FS Fi Fd _].
  destruct (chosen_species _ _ _ _ _ Hsp HC) as (W & NE & K). destruct (K c Hc) as (D' & C' & HD). rewrite Ft in *.
  assert (HN : (0 < natoms)%nat).
  { destruct (p_indices p) as [|i0 l]; [congruence|]. inversion W; subst. lia. }
  assert (Lt : length (repeated_types c types) = (c * natoms)%nat) by (unfold repeated_types; now rewrite length_repeated, Ft).
  assert (S' := steps_repeated s shift natoms x Hx Hy Hz n k c HN Fs).
  assert (V' := volume_repeated s cell Hx Hy Hz Fc).
  destruct (read_raw _ _ _ _ _ _ _ _ _ _ _ _ V' Lt Fk Ek Ea S' E) as (st & coords & latt & q & Et & _ & Ed & Ef & Eq).
  destruct (finish_inv _ _ _ _ _ _ _ Ef) as (c1 & I1 & D1 & disp & r & E1 & E2 & E3 & Er).
  destruct (parser_init_sel _ _ _ _ _ _ _ _ E3) as [EI ED]. apply (choose_chosen _ _ _ _ _ _ _ Fa) in E1. rewrite Et, C' in E1. injection E1 as <- <-.
  assert (PI : p_indices p' = spread c natoms (p_indices p)) by (rewrite Eq, Er; destruct i; exact EI).
  assert (PD : p_drift_indices p' = D') by (rewrite Eq, Er; destruct i; exact ED).
  assert (HD' : p_drift_indices p' = p_drift_indices p /\ Forall (valid_site natoms) (p_drift_indices p)
      \/ within_cell natoms (p_drift_indices p) /\ p_drift_indices p' = spread c natoms (p_drift_indices p)).
  { rewrite PD. destruct HD as [(l & _ & Hl & Hl')|HD]; [left; split; [congruence|exact Fd]|right; exact HD]. }
  assert (V : forall l, within_cell natoms l -> Forall (valid_site (c * natoms)) (spread c natoms l)).
  { intros l Hl. apply Forall_forall. intros j Hj. apply spread_In in Hj as (q0 & j0 & Hq & Hj & ->). unfold within_cell in Hl. rewrite Forall_forall in Hl.
    exact (proj2 (proj2 (site_spread c natoms j0 q0 (Hl j0 Hj) Hq))). }
  split; [|auto]. split; auto.
  - rewrite PI. now apply V.
  - destruct HD' as [[-> HD']|[HD' ->]]; [|now apply V]. eapply Forall_impl; [|exact HD']. intros j Hj. exact (proj2 (site_list c natoms j Hc Hj)).
  - exists img. exact E.
Qed.
Lemma C83_displacements_proof i circ s shift c cell types vol vol' n natoms k x img a p p' sp :
  faithful_read i circ cell types vol n natoms k x a p -> a_specie a = Some sp -> (0 < c)%nat -> (0 < vx s)%nat -> (0 < vy s)%nat -> (0 < vz s)%nat ->
  parser_by i geomspace_R circ (supercell_frames i s c shift cell types vol' n natoms x img) a = Ok p' ->
  p_intervals p' = p_intervals p /\ p_delta_t p' = p_delta_t p /\ length (p_indices p') = (c * length (p_indices p))%nat
  /\ (forall q d, nth_error (p_disp_3d p) q = Some d -> nth_error (p_disp_3d p') q = Some (copies c d))
  /\ (forall q no, nth_error (p_n_o p) q = Some no -> nth_error (p_n_o p') q = Some (INR c * no)%R).
Proof.
  intros F Hsp Hc Hx Hy Hz E. destruct (supercell_read _ _ _ _ _ _ _ _ _ _ _ _ _ _ _ _ _ _ F Hsp Hc Hx Hy Hz E) as (F' & W & EI & HD).
  destruct (read_forms _ _ _ _ _ _ _ _ _ _ _ F) as (tis & RF). destruct (read_forms _ _ _ _ _ _ _ _ _ _ _ F') as (tis' & RF').
  assert (ET := same_intervals _ _ _ _ _ _ _ _ _ _ _ _ _ _ _ _ _ _ _ F F' RF RF'). subst tis'.
  destruct RF as [A1 A2 A3 A4 A5 A6]. destruct RF' as [B1 B2 B3 B4 B5 B6]. cbv zeta in A6, B6.
  rewrite EI in B6. rewrite EI, spread_length. rewrite spread_length in B6.
  destruct A6 as (A6 & A7 & A8). destruct B6 as (B6 & B7 & B8).
  assert (P := filter_prefix _ _ _ A6 B6 (fun m => enough_more _ _ _ m Hc)).
  split; [congruence|]. split; [congruence|]. split; [reflexivity|]. split.
  - intros q d Hd. rewrite A7, nth_error_map in Hd. destruct (nth_error (firstn _ tis) q) as [m|] eqn:Em; [|discriminate]. injection Hd as <-.
    rewrite B7, nth_error_map, (P q m Em). cbn [option_map]. f_equal. now apply window_repeated.
  - intros q d Hd. rewrite A8, nth_error_map in Hd. destruct (nth_error (firstn _ tis) q) as [m|] eqn:Em; [|discriminate]. injection Hd as <-.
    rewrite B8, nth_error_map, (P q m Em). cbn [option_map]. f_equal. unfold obs_count. rewrite mult_INR. unfold Rdiv. ring.
Qed.

(** ** Statistics *)
Lemma entries_copies c d : entries (copies c d) = List.concat (repeat (entries d) c).
Proof. unfold entries, copies. cbn [a_rows]. induction c as [|c IH]; cbn [repeat List.concat]; [reflexivity|]. now rewrite concat_app, IH. Qed.
Lemma msd_values_copies axes c d : msd_values axes (copies c d) = List.concat (repeat (msd_values axes d) c).
Proof. unfold msd_values. now rewrite entries_copies, map_repeated. Qed.
Lemma non_gaussian_repeated l c : (0 < c)%nat -> non_gaussian (List.concat (repeat l c)) = non_gaussian l.
Proof. intros Hc. unfold non_gaussian. now rewrite map_repeated, !average_repeated by exact Hc. Qed.
Lemma variance_repeated l c (no : R) : (0 < c)%nat -> (1 < length l)%nat ->
  (sample_variance (List.concat (repeat l c)) / (INR c * no) * (INR c * INR (length l) - 1) = sample_variance l / no * (INR (length l) - 1))%R.
Proof.
  intros Hc Hl. unfold sample_variance. rewrite average_repeated, map_repeated, rsum_repeated, length_repeated, mult_INR by exact Hc.
  apply (le_INR 1) in Hc. apply lt_INR in Hl. cbn [INR] in Hc, Hl.
  set (S := rsum _). set (L := INR (length l)) in *. set (C := INR c) in *.
  assert (K : (C * L - 1 <> 0)%R) by nra. unfold Rdiv. rewrite Rinv_mult.
  transitivity (C * / C * ((C * L - 1) * / (C * L - 1)) * S * / no)%R; [ring|]. rewrite !Rinv_r by lra.
  transitivity (((L - 1) * / (L - 1)) * S * / no)%R; [|ring]. rewrite Rinv_r by lra. ring.
Qed.

Section Present.
  Context {G Seed RS : Type} (X : Ext R G Seed RS).
  Lemma sub_sample_longer {T T'} (f : T -> T') k (l bl : list T) (l' bl' : list T') : sub_sample k l bl -> sub_sample k l' bl' ->
    (forall q d, nth_error l q = Some d -> nth_error l' q = Some (f d)) ->
    (forall q d, nth_error bl q = Some d -> nth_error bl' q = Some (f d)) /\ (length bl <= length bl')%nat.
  Proof.
    intros S1 S2 H. assert (K : forall q d, nth_error bl q = Some d -> nth_error bl' q = Some (f d)) by (intros q d; rewrite S1, S2; apply H).
    split; [exact K|]. destruct (Nat.le_gt_cases (length bl) (length bl')) as [|L]; [assumption|].
    destruct (nth_error bl (length bl')) as [d|] eqn:E; [|apply nth_error_None in E; lia]. apply K in E.
    assert (E' : nth_error bl' (length bl') <> None) by congruence. apply nth_error_Some in E'. lia.
  Qed.
  (** An interval reported for the small cell is reported for the large one. *)
  Lemma report_present u ns n_o n_o' axes Qf Qf' shown shown' b b' (f : Arr R -> Arr R) m m' j t :
    (forall q d, nth_error (b_displacements b) q = Some d -> nth_error (b_displacements b') q = Some (f d)) -> (m <= m')%nat ->
    (forall d, 1 < length (Qf d) -> 1 < length (Qf' (f d)))%nat ->
    boot_report X u ns n_o (b_delta_t b) axes Qf (firstn m (b_displacements b)) shown b ->
    boot_report X u ns n_o' (b_delta_t b') axes Qf' (firstn m' (b_displacements b')) shown' b' ->
    nth_error (b_dt b) j = Some t -> nth_error (b_dt b') j <> None.
  Proof.
    intros K Hm HQ H H' Ht. assert (L := br_dt_len _ _ _ _ _ _ _ _ _ _ H). assert (L' := br_dt_len _ _ _ _ _ _ _ _ _ _ H').
    apply nth_error_Some. rewrite L'.
    assert (Hj : (j < length shown)%nat) by (rewrite <- L; apply nth_error_Some; congruence).
    destruct (nth_error shown j) as [d|] eqn:Ed; [|apply nth_error_None in Ed; lia].
    destruct (br_shown _ _ _ _ _ _ _ _ _ _ H) as (rest & E & F1 & _). destruct (br_shown _ _ _ _ _ _ _ _ _ _ H') as (rest' & E' & _ & F2).
    assert (Pd : (1 < length (Qf d))%nat) by (rewrite Forall_forall in F1; apply F1; eapply nth_error_In; exact Ed).
    assert (E1 : nth_error (firstn m (b_displacements b)) j = Some d) by (rewrite E, nth_error_app1; assumption).
    assert (Hjm : (j < m)%nat).
    { assert (Q : nth_error (firstn m (b_displacements b)) j <> None) by congruence. apply nth_error_Some in Q. rewrite firstn_length in Q. lia. }
    apply firstn_nth_error, K in E1. destruct (Nat.lt_ge_cases j (length shown')) as [|L2]; [assumption|]. exfalso.
    assert (E2 : nth_error (firstn m' (b_displacements b')) j = Some (f d)) by (rewrite nth_error_firstn by lia; exact E1).
    rewrite E', nth_error_app2 in E2 by exact L2. apply nth_error_In in E2. rewrite Forall_forall in F2. exact (F2 _ E2 (HQ d Pd)).
  Qed.
  Lemma half_le a b : (a <= b)%nat -> (Nat.div a 2 <= Nat.div b 2)%nat. Proof. apply Nat.div_le_mono. lia. Qed.
  Lemma copies_more axes c d : (0 < c)%nat -> (1 < length (msd_values axes d) -> 1 < length (msd_values axes (copies c d)))%nat.
  Proof. intros Hc. rewrite msd_values_copies, length_repeated. nia. Qed.

  Section Entries.
    Context (d d' : AnalyzerData R) (c : nat) (Hc : (0 < c)%nat)
      (Hd : forall q x, nth_error (an_disp_3d d) q = Some x -> nth_error (an_disp_3d d') q = Some (copies c x))
      (Ht : an_delta_t d' = an_delta_t d)
      (Hn : forall q no, nth_error (an_n_o d) q = Some no -> nth_error (an_n_o d') q = Some (INR c * no)%R)
      (W : Forall arr_wf (an_disp_3d d)) (W' : Forall arr_wf (an_disp_3d d'))
      (u : BootParams R) (Hk : 0 < u_sub_sample_dt u) (Hb : u_block u = false).
    Lemma entries_shared axes k ns Qf Qf' b b' j t : entry_of X axes d k ns Qf b -> entry_of X axes d' k ns Qf' b' ->
      nth_error (b_dt b) j = Some t -> nth_error (b_dt b') j <> None ->
      nth_error (b_dt b') j = Some t /\ exists x no, nth_error (an_disp_3d d) (j * k) = Some x
        /\ nth_error (b_n b) j = Some (average (Qf x)) /\ nth_error (b_n b') j = Some (average (Qf' (copies c x)))
        /\ nth_error (b_v b) j = Some (sample_variance (Qf x) / ns no (length (a_rows x)))%R
        /\ nth_error (b_v b') j = Some (sample_variance (Qf' (copies c x)) / ns (INR c * no)%R (c * length (a_rows x))%nat)%R
        /\ (exists gp, nth_error (b_ngp b) j = Some gp /\ nth_error (b_ngp b') j = Some gp)
        /\ (exists e, length e = length (entries x) /\ nth_error (b_euclidian b) j = Some e /\ nth_error (b_euclidian b') j = Some (List.concat (repeat e c))).
    Proof.
      intros E E' Hj Hj'. destruct (nth_error (b_dt b') j) as [t'|] eqn:Et'; [|congruence].
      destruct (E j t Hj) as (x & no & A1 & A2 & A3 & A4 & A5 & A6 & A7). destruct (E' j t' Et') as (x' & no' & B1 & B2 & B3 & B4 & B5 & B6 & B7).
      rewrite Ht in B2. split; [congruence|]. exists x, no. rewrite (Hd _ _ A1) in B1. injection B1 as <-. rewrite (Hn _ _ A6) in B6. injection B6 as <-.
      rewrite copies_rows in B7. repeat (split; [assumption|]). split.
      - exists (non_gaussian (map (sqlen axes) (entries x))). split; [exact A4|]. rewrite B4. f_equal. rewrite entries_copies, map_repeated. now apply non_gaussian_repeated.
      - exists (map (fun v => x_sqrt X (sqlen axes v)) (entries x)). split; [now rewrite map_length|]. split; [exact A5|]. now rewrite B5, entries_copies, map_repeated.
    Qed.
    Lemma super_diffusion g g1 an an' g' g1' : diffusion_analyzer X d u g = Ok (an, g') -> diffusion_analyzer X d' u g1 = Ok (an', g1') ->
      forall j t, nth_error (b_dt (an_diff an)) j = Some t -> nth_error (b_dt (an_diff an')) j = Some t
        /\ exists m gp e v v', nth_error (b_n (an_diff an)) j = Some m /\ nth_error (b_n (an_diff an')) j = Some m
          /\ nth_error (b_ngp (an_diff an)) j = Some gp /\ nth_error (b_ngp (an_diff an')) j = Some gp
          /\ nth_error (b_euclidian (an_diff an)) j = Some e /\ nth_error (b_euclidian (an_diff an')) j = Some (List.concat (repeat e c))
          /\ nth_error (b_v (an_diff an)) j = Some v /\ nth_error (b_v (an_diff an')) j = Some v'
          /\ (v' * (INR c * INR (length e) - 1) = v * (INR (length e) - 1))%R.
    Proof.
      intros H H' j t Hj.
      destruct (diffusion_entry X _ _ _ _ _ Hk Hb H) as (axes & N & E). destruct (diffusion_entry X _ _ _ _ _ Hk Hb H') as (axes' & N' & E').
      assert (axes' = axes) by (eapply names_unique; eassumption). subst axes'.
      assert (P : nth_error (b_dt (an_diff an')) j <> None /\ forall x, nth_error (an_disp_3d d) (j * Z.to_nat (u_sub_sample_dt u)) = Some x -> (1 < length (msd_values axes x))%nat).
      { unfold diffusion_analyzer in H, H'. inv_bind H r R1. destruct r as [b r1]. injection H as <- <-. inv_bind H' r' R1'. destruct r' as [b' r1']. injection H' as <- <-. cbn [an_diff] in *.
        destruct (msd_run X u _ _ _ _ _ _ Hk R1) as (ax & shown & N1 & N2 & N3 & N4 & N5 & N6).
        destruct (msd_run X u _ _ _ _ _ _ Hk R1') as (ax' & shown' & N1' & N2' & N3' & N4' & N5' & N6').
        assert (ax = axes) by (eapply names_unique; eassumption). subst ax. assert (ax' = axes) by (eapply names_unique; eassumption). subst ax'.
        destruct (sub_sample_longer (copies c) _ _ _ _ _ N3 N3' Hd) as [K L].
        rewrite <- (firstn_all (b_displacements b)) in N6. rewrite <- (firstn_all (b_displacements b')) in N6'.
        split; [exact (report_present _ _ _ _ _ _ _ _ _ _ _ _ _ _ _ _ K L (fun x => copies_more axes c x Hc) N6 N6' Hj)|].
        intros x Hx. destruct (br_shown _ _ _ _ _ _ _ _ _ _ N6) as (rest & ER & F1 & _). rewrite firstn_all in ER.
        assert (Lj : (j < length shown)%nat) by (rewrite <- (br_dt_len _ _ _ _ _ _ _ _ _ _ N6); apply nth_error_Some; congruence).
        rewrite <- N3, ER, nth_error_app1 in Hx by exact Lj. rewrite Forall_forall in F1. apply F1. eapply nth_error_In; exact Hx. }
      destruct P as [P P2].
      destruct (entries_shared _ _ _ _ _ _ _ _ _ E E' Hj P) as (E1 & x & no & A1 & A2 & A3 & A4 & A5 & (gp & A6 & A7) & (e & A8 & A9 & A10)).
      split; [exact E1|]. rewrite msd_values_copies in A3, A5. rewrite average_repeated in A3 by exact Hc. unfold bare in A4, A5.
      do 5 eexists. repeat (split; [eassumption|]). specialize (P2 x A1).
      assert (Le : length e = length (msd_values axes x)) by (unfold msd_values; now rewrite map_length). rewrite Le. now apply variance_repeated.
    Qed.
    Lemma collective_shared axes k Qf Qf' b b' : (forall x, In x (an_disp_3d d) -> (0 < length (a_rows x))%nat) ->
      (forall x, In x (an_disp_3d d) -> Qf' (copies c x) = map (Rmult (INR c * INR c)) (Qf x)) ->
      entry_of X axes d k per_atom Qf b -> entry_of X axes d' k per_atom Qf' b' ->
      (forall j t, nth_error (b_dt b) j = Some t -> nth_error (b_dt b') j <> None) -> grown c b b'.
    Proof.
      intros HR HQ E E' P j t Hj. destruct (entries_shared _ _ _ _ _ _ _ _ _ E E' Hj (P j t Hj)) as (E1 & x & no & A1 & A2 & A3 & A4 & A5 & _).
      split; [exact E1|]. assert (Ix := nth_error_In _ _ A1). rewrite (HQ x Ix) in A3, A5. rewrite average_scale in A3. rewrite sample_variance_scale in A5.
      do 2 eexists. split; [exact A2|]. split; [exact A3|]. split; [exact A4|]. rewrite A5. f_equal. unfold per_atom. rewrite mult_INR.
      specialize (HR x Ix). apply lt_INR in HR. assert (Hc' := lt_INR _ _ Hc). cbn [INR] in HR, Hc'.
      replace (INR c * no / (INR c * INR (length (a_rows x))))%R with (no / INR (length (a_rows x)))%R by (field; lra). unfold Rdiv. ring.
    Qed.
    Lemma super_jump g g1 an an' g' g1' : (forall x, In x (an_disp_3d d) -> (0 < length (a_rows x))%nat) ->
      jump_diffusion_analyzer X d u g = Ok (an, g') -> jump_diffusion_analyzer X d' u g1 = Ok (an', g1') -> grown c (an_diff an) (an_diff an').
    Proof.
      intros HR H H'.
      destruct (jump_entry X _ _ _ _ _ Hk Hb W H) as (axes & N & E). destruct (jump_entry X _ _ _ _ _ Hk Hb W' H') as (axes' & N' & E').
      assert (axes' = axes) by (eapply names_unique; eassumption). subst axes'.
      apply (collective_shared axes _ _ _ _ _ HR (fun x _ => mstd_values_copies axes c x) E E').
      intros j t Hj. unfold jump_diffusion_analyzer in H, H'. inv_bind H r R1. destruct r as [b r1]. injection H as <- <-. inv_bind H' r' R1'. destruct r' as [b' r1']. injection H' as <- <-. cbn [an_diff] in *.
      destruct (mstd_run X u _ _ _ _ _ _ Hk W R1) as (ax & shown & N1 & N2 & N3 & N4 & N5 & N6).
      destruct (mstd_run X u _ _ _ _ _ _ Hk W' R1') as (ax' & shown' & N1' & N2' & N3' & N4' & N5' & N6').
      assert (ax = axes) by (eapply names_unique; eassumption). subst ax. assert (ax' = axes) by (eapply names_unique; eassumption). subst ax'.
      destruct (sub_sample_longer (copies c) _ _ _ _ _ N3 N3' Hd) as [K L].
      refine (report_present _ _ _ _ _ _ _ _ _ _ _ _ _ _ _ _ K (half_le _ _ L) _ N6 N6' Hj). intros x. rewrite mstd_values_copies, map_length. auto.
    Qed.
    Lemma super_conductivity q natoms g g1 an an' g' g1' : (0 < natoms)%nat -> Forall (fun x => length (a_rows x) = natoms) (an_disp_3d d) ->
      Forall (fun x => length (a_rows x) = (c * natoms)%nat) (an_disp_3d d') ->
      conductivity_analyzer X d (QScalar q) u g = Ok (an, g') -> conductivity_analyzer X d' (QScalar q) u g1 = Ok (an', g1') -> grown c (an_diff an) (an_diff an').
    Proof.
      intros HN HR HR' H H'. assert (QS : forall (n : nat) l, QScalar q = QArray l -> length l = n) by discriminate.
      destruct (conductivity_entry X _ _ _ _ _ _ natoms Hk Hb W HR (QS _) H) as (axes & N & E).
      destruct (conductivity_entry X _ _ _ _ _ _ (c * natoms)%nat Hk Hb W' HR' (QS _) H') as (axes' & N' & E').
      assert (axes' = axes) by (eapply names_unique; eassumption). subst axes'. cbn [charges] in *.
      assert (HR0 := HR). rewrite Forall_forall in HR, W.
      apply (collective_shared axes _ _ _ _ _ (fun x Ix => eq_ind_r (fun n => (0 < n)%nat) HN (HR x Ix)) (fun x Ix => mscd_values_copies q natoms c x (W x Ix) (HR x Ix)) E E').
      rewrite <- Forall_forall in W.
      intros j t Hj. unfold conductivity_analyzer in H, H'. inv_bind H r R1. destruct r as [b r1]. injection H as <- <-. inv_bind H' r' R1'. destruct r' as [b' r1']. injection H' as <- <-. cbn [an_diff] in *.
      destruct (mscd_run X u _ _ _ _ _ _ _ natoms Hk W HR0 (QS _) R1) as (ax & shown & N1 & N2 & N3 & N4 & N5 & N6).
      destruct (mscd_run X u _ _ _ _ _ _ _ (c * natoms)%nat Hk W' HR' (QS _) R1') as (ax' & shown' & N1' & N2' & N3' & N4' & N5' & N6').
      assert (ax = axes) by (eapply names_unique; eassumption). subst ax. assert (ax' = axes) by (eapply names_unique; eassumption). subst ax'.
      destruct (sub_sample_longer (copies c) _ _ _ _ _ N3 N3' Hd) as [K L].
      refine (report_present _ _ _ _ _ _ _ _ _ _ _ _ _ _ _ _ K (half_le _ _ L) _ N6 N6' Hj). intros x. unfold mscd_values. rewrite !tab_length. auto.
    Qed.
  End Entries.
End Present.
Lemma in_parsers i : In (parser_by i) parsers.
Proof. destruct i; cbn; auto. Qed.
Section Final.
  Context {G Seed RS : Type} (X : Ext R G Seed RS).
  Lemma C83_diffusion_proof i circ s shift c cell types vol vol' n natoms k x img a p p' sp u g an g' h an' h' :
    faithful_read i circ cell types vol n natoms k x a p -> a_specie a = Some sp -> (0 < c)%nat -> (0 < vx s)%nat -> (0 < vy s)%nat -> (0 < vz s)%nat ->
    parser_by i geomspace_R circ (supercell_frames i s c shift cell types vol' n natoms x img) a = Ok p' ->
    0 < u_sub_sample_dt u -> u_block u = false ->
    diffusion_analyzer X (of_parsed p) u g = Ok (an, g') -> diffusion_analyzer X (of_parsed p') u h = Ok (an', h') ->
    forall j t, nth_error (b_dt (an_diff an)) j = Some t -> nth_error (b_dt (an_diff an')) j = Some t
      /\ exists m gp e v v', nth_error (b_n (an_diff an)) j = Some m /\ nth_error (b_n (an_diff an')) j = Some m
        /\ nth_error (b_ngp (an_diff an)) j = Some gp /\ nth_error (b_ngp (an_diff an')) j = Some gp
        /\ nth_error (b_euclidian (an_diff an)) j = Some e /\ nth_error (b_euclidian (an_diff an')) j = Some (List.concat (repeat e c))
        /\ nth_error (b_v (an_diff an)) j = Some v /\ nth_error (b_v (an_diff an')) j = Some v'
        /\ (v' * (INR c * INR (length e) - 1) = v * (INR (length e) - 1))%R.
  Proof.
    intros F Hsp Hc Hx Hy Hz E Hk Hb H H'. destruct (C83_displacements_proof _ _ _ _ _ _ _ _ _ _ _ _ _ _ _ _ _ _ F Hsp Hc Hx Hy Hz E) as (_ & Ht & _ & Hd & Hn).
    exact (super_diffusion X (of_parsed p) (of_parsed p') c Hc Hd Ht Hn u Hk Hb g h an an' g' h' H H').
  Qed.
  Lemma C83_collective_proof i circ s shift c cell types vol vol' n natoms k x img a p p' sp u q :
    faithful_read i circ cell types vol n natoms k x a p -> a_specie a = Some sp -> (0 < c)%nat -> (0 < vx s)%nat -> (0 < vy s)%nat -> (0 < vz s)%nat ->
    parser_by i geomspace_R circ (supercell_frames i s c shift cell types vol' n natoms x img) a = Ok p' ->
    0 < u_sub_sample_dt u -> u_block u = false -> forall g an g' h an' h',
    (jump_diffusion_analyzer X (of_parsed p) u g = Ok (an, g') /\ jump_diffusion_analyzer X (of_parsed p') u h = Ok (an', h'))
    \/ (conductivity_analyzer X (of_parsed p) (QScalar q) u g = Ok (an, g') /\ conductivity_analyzer X (of_parsed p') (QScalar q) u h = Ok (an', h')) ->
    grown c (an_diff an) (an_diff an').
  Proof.
    intros F Hsp Hc Hx Hy Hz E Hk Hb g an g' h an' h' HA. destruct (C83_displacements_proof _ _ _ _ _ _ _ _ _ _ _ _ _ _ _ _ _ _ F Hsp Hc Hx Hy Hz E) as (_ & Ht & HL & Hd & Hn).
    destruct (fr_read _ _ _ _ _ _ _ _ _ _ _ F) as (img0 & E0).
    assert (W := parsers_shapes _ _ _ _ _ _ (in_parsers i) E0). assert (W' := parsers_shapes _ _ _ _ _ _ (in_parsers i) E).
    assert (HR := parsers_rows _ _ _ _ _ (in_parsers i) E0). assert (HR' := parsers_rows _ _ _ _ _ (in_parsers i) E). rewrite HL in HR'.
    assert (NE : (0 < length (p_indices p))%nat).
    { destruct (read_forms _ _ _ _ _ _ _ _ _ _ _ F) as (tis & RF). destruct (chosen_species _ _ _ _ _ Hsp (rf_chosen _ _ _ _ _ _ _ _ _ _ RF)) as (_ & NE & _).
      destruct (p_indices p); [congruence|cbn; lia]. }
    destruct HA as [[H H']|[H H']].
    - refine (super_jump X (of_parsed p) (of_parsed p') c Hc Hd Ht Hn W W' u Hk Hb g h an an' g' h' _ H H'). intros y Hy'. rewrite Forall_forall in HR. now rewrite (HR y Hy').
    - exact (super_conductivity X (of_parsed p) (of_parsed p') c Hc Hd Ht Hn W W' u Hk Hb q _ g h an an' g' h' NE HR HR' H H').
  Qed.
End Final.

(** ** Example: the walk of one Li atom beside an O atom, the cell doubled along x *)
Definition doubled : V3 nat := mkV 2%nat 1%nat 1%nat.
Definition one_along (q : nat) : V3 Z := mkV (Z.of_nat q) 0 0.
Lemma C83_example_proof : forall G Seed RS (X : Ext R G Seed RS) circ (g : G) s, gentle s -> exists p p' an an' jn jn' cn cn',
  faithful_read Ase circ unit_cell ["Li"; "O"]%string 1%R 4 2 1 (walk s) walk_params p
  /\ parser_by Ase geomspace_R circ (supercell_frames Ase doubled 2 one_along unit_cell ["Li"; "O"]%string 2%R 4 2 (walk s) no_image) walk_params = Ok p'
  /\ diffusion_analyzer X (of_parsed p) (demo_boot 1 "xyz") g = Ok (an, g) /\ diffusion_analyzer X (of_parsed p') (demo_boot 1 "xyz") g = Ok (an', g)
  /\ jump_diffusion_analyzer X (of_parsed p) (demo_boot 1 "xyz") g = Ok (jn, g) /\ jump_diffusion_analyzer X (of_parsed p') (demo_boot 1 "xyz") g = Ok (jn', g)
  /\ conductivity_analyzer X (of_parsed p) (QScalar 1%R) (demo_boot 1 "xyz") g = Ok (cn, g) /\ conductivity_analyzer X (of_parsed p') (QScalar 1%R) (demo_boot 1 "xyz") g = Ok (cn', g)
  /\ b_dt (an_diff an) = [1; 2]%R /\ p_indices p = [0] /\ p_indices p' = [0; 2].
Proof.
  intros G Seed RS X circ g s HG. destruct (walk_read circ s HG) as (p & F & _ & EI & _ & M1 & M2 & M3 & P2 & P1).
  assert (K : exists p', parser_by Ase geomspace_R circ (supercell_frames Ase doubled 2 one_along unit_cell ["Li"; "O"]%string 2%R 4 2 (walk s) no_image) walk_params = Ok p'
    /\ p_indices p' = [0; 2] /\ length (p_delta_t p') = 2%nat /\ length (p_disp_3d p') = 2%nat /\ length (p_n_o p') = 2%nat
    /\ Forall (fun d => 1 < a_obs d)%nat (p_disp_3d p') /\ Forall (fun d => 1 < length (entries d))%nat (p_disp_3d p')).
  { unfold supercell_frames. cbn [parser_by handed_over]. rewrite (frames_of_ext _ _ _ _ _ _ _ (no_image_id _)).
    change (2 * 2)%nat with 4%nat.
    assert (SM : small_steps 4 4 1 (repeated_atoms doubled one_along 2 (walk s))).
    { apply (steps_repeated doubled one_along 2 (walk s) ltac:(cbn; lia) ltac:(cbn; lia) ltac:(cbn; lia) 4 1 2); [lia|now apply walk_small]. }
    assert (VO : cell_volume (repeated_cell doubled unit_cell) <> 0%R) by (apply volume_repeated; try (cbn; lia); exact unit_cell_volume).
    rewrite (ase_run geomspace_R circ _ _ _ 4 4 1 _ _ ["Li"%string] [0; 2] [1; 3])
      by (first [exact VO | exact SM | lia | reflexivity]).
    unfold walk_params, upto. cbn [hop_params a_time_step pynum_val a_step_skip a_opts]. rewrite kept_one.
    rewrite (parser_init_ints geomspace_R 4 4 _ [0; 2] [1; 3] 1 2 2 "multi-origin" 8 8) by (first [repeat constructor; cbn; lia | lia]).
    change (tab _ (lin _ 2 _)) with (map Z.of_nat [1;2]%nat).
    rewrite get_disps_multi' by (repeat constructor; cbn; lia).
    assert (E' : Rltb 8 (in_gigabytes (fold_right Z.add 0 (map (estimate (length [0; 2]) 4 8) [1;2]%nat))) = false).
    { apply Rltb_false. unfold in_gigabytes. cbn. lra. }
    rewrite E'. cbn [bind]. eexists. split; [reflexivity|]. do 4 (split; [reflexivity|]). split; repeat constructor. }
  destruct K as (p' & E & EI' & L1 & L2 & L3 & O1 & O2).
  assert (T : forall r, length (p_delta_t r) = 2%nat -> length (p_disp_3d r) = 2%nat -> length (p_n_o r) = 2%nat -> Forall (fun d => 1 < a_obs d)%nat (p_disp_3d r) ->
     Forall (fun d => 1 < length (entries d))%nat (p_disp_3d r) -> Forall arr_wf (p_disp_3d r) -> Forall (fun d => length (a_rows d) = length (p_indices r)) (p_disp_3d r) ->
     exists an jn cn, diffusion_analyzer X (of_parsed r) (demo_boot 1 "xyz") g = Ok (an, g) /\ jump_diffusion_analyzer X (of_parsed r) (demo_boot 1 "xyz") g = Ok (jn, g)
       /\ conductivity_analyzer X (of_parsed r) (QScalar 1%R) (demo_boot 1 "xyz") g = Ok (cn, g) /\ b_dt (an_diff an) = firstn 2 (p_delta_t r)).
  { intros r T1 T2 T3 T4 T5 T6 T7. assert (NE : p_disp_3d r <> []) by (intros C; rewrite C in T2; discriminate).
    destruct (msd_total X (demo_boot 1 "xyz") (p_delta_t r) (p_disp_3d r) (p_n_o r) all_axes g eq_refl eq_refl names_xyz NE T5 ltac:(lia) ltac:(lia)) as (b & B).
    destruct (mstd_total X (demo_boot 1 "xyz") (p_delta_t r) (p_disp_3d r) (p_n_o r) all_axes g eq_refl eq_refl names_xyz NE T6 T4 ltac:(lia) ltac:(lia)) as (b2 & B2).
    destruct (mscd_total X (demo_boot 1 "xyz") (p_delta_t r) (p_disp_3d r) (QScalar 1%R) (p_n_o r) all_axes (length (p_indices r)) g eq_refl eq_refl names_xyz NE T6 T7 ltac:(discriminate) T4 ltac:(lia) ltac:(lia)) as (b3 & B3).
    exists (mkAn (of_parsed r) b), (mkAn (of_parsed r) b2), (mkAn (of_parsed r) b3).
    unfold diffusion_analyzer, jump_diffusion_analyzer, conductivity_analyzer. cbn [of_parsed an_delta_t an_disp_3d an_n_o an_diff]. rewrite B, B2, B3.
    do 3 (split; [reflexivity|]). rewrite (dt_shown X (demo_boot 1 "xyz") _ _ _ _ _ _ eq_refl B T5), T2. reflexivity. }
  destruct (fr_read _ _ _ _ _ _ _ _ _ _ _ F) as (img0 & E0).
  destruct (T p ltac:(now rewrite M1) M2 M3 P1 P2 (parsers_shapes _ _ _ _ _ _ (in_parsers Ase) E0) (parsers_rows _ _ _ _ _ (in_parsers Ase) E0)) as (an & jn & cn & A1 & A2 & A3 & A4).
  destruct (T p' L1 L2 L3 O1 O2 (parsers_shapes _ _ _ _ _ _ (in_parsers Ase) E) (parsers_rows _ _ _ _ _ (in_parsers Ase) E)) as (an' & jn' & cn' & A1' & A2' & A3' & _).
  exists p, p', an, an', jn, jn', cn, cn'. rewrite M1 in A4. repeat (split; [assumption|]). assumption.
Qed.
