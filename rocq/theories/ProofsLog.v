(** * ProofsLog: C49 and C50 with logarithmic spacing *)
From Verif Require Import Base ModelParser Spec SpecParser SpecDouble SpecRun SpecLog Lemmas ProofsIntervals ProofsGeom ProofsFloat.
From Coq Require Import Reals Lra Lia Psatz Sorted.
From Coq.Floats Require Import SpecFloat.
From Flocq Require Import Core.
From Flocq.Prop Require Import Mult_error.
Open Scope Z_scope.

(** ** The grid *)
Lemma ln_ge x : (1 <= x)%R -> (1 - / x <= ln x)%R.
Proof.
  intros H. assert (P : (0 < / x)%R) by (apply Rinv_0_lt_compat; lra).
  assert (E : (ln x = - ln (/ x))%R) by (rewrite ln_Rinv by lra; lra). rewrite E.
  assert (K : (ln (/ x) <= / x - 1)%R); [|lra].
  assert (Q := exp_ineq1_le (ln (/ x))). rewrite exp_ln in Q by exact P. lra.
Qed.
Lemma point_low a b n i : 1 <= a < b -> (0 < i)%nat -> (S i < n)%nat -> Z.of_nat n <= 3 * (b - a) + 1 ->
  (IZR a * (1 + / (3 * IZR b)) <= geometric_point a b n i)%R.
Proof.
  intros Hab Hi Hn HN. unfold geometric_point.
  assert (A1 : (1 <= IZR a)%R) by (apply IZR_le; lia). assert (AB : (IZR a + 1 <= IZR b)%R) by (rewrite <- plus_IZR; apply IZR_le; lia).
  apply Rmult_le_compat_l; [lra|]. unfold Rpower.
  eapply Rle_trans; [|apply exp_ineq1_le]. apply Rplus_le_compat_l.
  assert (Q : (1 <= IZR b / IZR a)%R) by (apply Rmult_le_reg_r with (IZR a); [lra|]; unfold Rdiv; rewrite Rmult_assoc, Rinv_l by lra; lra).
  assert (L := ln_ge _ Q). replace (/ (IZR b / IZR a))%R with (IZR a / IZR b)%R in L by (field; lra).
  assert (N0 : (1 <= INR (n - 1))%R) by (apply (le_INR 1); lia).
  assert (I0 : (1 <= INR i)%R) by (apply (le_INR 1); lia).
  assert (NB : (INR (n - 1) <= 3 * (IZR b - IZR a))%R).
  { rewrite INR_IZR_INZ, <- minus_IZR, <- mult_IZR. apply IZR_le. lia. }
  assert (V : (0 < / INR (n - 1))%R) by (apply Rinv_0_lt_compat; lra).
  assert (W : (0 < / IZR b)%R) by (apply Rinv_0_lt_compat; lra).
  apply Rle_trans with (/ INR (n - 1) * (1 - IZR a / IZR b))%R.
  - apply Rmult_le_reg_l with (INR (n - 1)); [lra|]. rewrite <- Rmult_assoc, Rinv_r, Rmult_1_l by lra.
    apply Rle_trans with (3 * (IZR b - IZR a) * / (3 * IZR b))%R.
    + apply Rmult_le_compat_r; [left; apply Rinv_0_lt_compat; lra|exact NB].
    + right. field. lra.
  - assert (Z0 : (0 <= 1 - IZR a / IZR b)%R).
    { assert (IZR a / IZR b <= 1)%R; [|lra]. apply Rmult_le_reg_r with (IZR b); [lra|]. unfold Rdiv. rewrite Rmult_assoc, Rinv_l by lra. lra. }
    unfold Rdiv at 2. apply Rmult_le_compat; [lra|exact Z0| |exact L]. nra.
Qed.
Lemma point_high a b n i : 1 <= a <= b -> (i < n)%nat -> (geometric_point a b n i <= IZR b)%R.
Proof.
  intros Hab Hi. unfold geometric_point.
  assert (A1 : (1 <= IZR a)%R) by (apply IZR_le; lia). assert (AB : (IZR a <= IZR b)%R) by (apply IZR_le; lia).
  assert (Q : (1 <= IZR b / IZR a)%R) by (apply Rmult_le_reg_r with (IZR a); [lra|]; unfold Rdiv; rewrite Rmult_assoc, Rinv_l by lra; lra).
  replace (IZR b) with (IZR a * (IZR b / IZR a))%R at 2 by (field; lra). apply Rmult_le_compat_l; [lra|].
  rewrite <- (Rpower_1 (IZR b / IZR a)) at 2 by lra. apply Rle_Rpower; [exact Q|].
  destruct (Nat.eq_dec n 1) as [->|]; [assert (i = 0)%nat as -> by lia; cbn; unfold Rdiv; rewrite Rmult_0_l; lra|].
  assert (N0 : (1 <= INR (n - 1))%R) by (apply (le_INR 1); lia).
  apply Rmult_le_reg_r with (INR (n - 1)); [lra|]. unfold Rdiv. rewrite Rmult_assoc, Rinv_l, Rmult_1_r, Rmult_1_l by lra. apply le_INR. lia.
Qed.

Lemma sorted_increasing l : StronglySorted Z.lt l -> strictly_increasing l.
Proof.
  induction 1 as [|x l S IH F]; intros i j y z Hij Ey Ez; [destruct i; discriminate|].
  destruct j as [|j]; [lia|]. cbn [nth_error] in Ez. destruct i as [|i].
  - injection Ey as <-. rewrite Forall_forall in F. apply F. now apply nth_error_In in Ez.
  - cbn [nth_error] in Ey. apply (IH i j); [lia|assumption|assumption].
Qed.
Lemma sorted_ends l a b : StronglySorted Z.lt l -> In a l -> In b l -> Forall (fun z => a <= z <= b) l ->
  hd_error l = Some a /\ last l 0 = b.
Proof.
  intros S Ia Ib F. rewrite Forall_forall in F. split.
  - destruct l as [|x l]; [easy|]. cbn. f_equal. destruct Ia as [|Ia]; [easy|]. inversion S as [|? ? ? Fx]; subst. rewrite Forall_forall in Fx.
    specialize (Fx a Ia). specialize (F x (or_introl eq_refl)). lia.
  - destruct (exists_last (l := l)) as (q & z & E); [intros ->; easy|]. rewrite E, last_last.
    assert (Hz : a <= z <= b) by (apply F; rewrite E, in_app_iff; right; left; reflexivity).
    rewrite E in Ib. apply in_app_iff in Ib. destruct Ib as [Ib|[<-|[]]]; [|reflexivity].
    assert (b < z); [|lia]. clear -S E Ib. subst l. induction q as [|x q IH]; [easy|]. cbn in S. inversion S as [|? ? S' Fx]; subst.
    destruct Ib as [<-|Ib]; [|now apply IH]. rewrite Forall_forall in Fx. apply Fx, in_app_iff. right. now left.
Qed.

(** The accurate grid stays between its ends. *)
Lemma grid_log g a b n l : accurate_geomspace g -> 1 <= a <= b -> b < 2 ^ 40 -> (a < b -> n <= 3 * (b - a) + 1) -> (a = b -> n <= 2) ->
  g a b n = Ok l ->
  let u := unique l in
  strictly_increasing u /\ Forall (fun z => a <= z <= b) u /\ (1 <= n -> hd_error u = Some a) /\ (2 <= n -> last u 0 = b)
  /\ Z.of_nat (length u) <= Z.max 0 n.
Proof.
  intros G Hab Hb Hn Hn2 E. cbn zeta. specialize (G a b n Hab Hb ltac:(destruct (Z.eq_dec a b); lia)).
  destruct (Z.ltb_spec n 0) as [|N0]; [destruct G as [e G]; congruence|]. destruct G as (l' & E' & Ln & G).
  assert (l' = l) by congruence. subst l'.
  assert (F : Forall (fun z => a <= z <= b) l).
  { apply Forall_forall. intros z Iz. destruct (In_nth_error _ _ Iz) as [i Ei]. assert (Hi : (i < length l)%nat) by (apply nth_error_Some; congruence).
    destruct (G i z Ei) as (G0 & G1 & G2). destruct (Nat.eq_dec i 0) as [I0|I0]; [rewrite (G0 I0); lia|].
    destruct (Nat.eq_dec (S i) (length l)) as [I1|I1]; [rewrite (G1 ltac:(lia) I1); lia|].
    destruct (G2 ltac:(lia) ltac:(lia)) as (x & Hx & Zx).
    destruct (Z.eq_dec a b) as [AB|AB]; [specialize (Hn2 AB); lia|].
    assert (Lo := point_low a b (length l) i ltac:(lia) ltac:(lia) ltac:(lia) ltac:(lia)).
    assert (Hi' := point_high a b (length l) i ltac:(lia) Hi).
    set (pt := geometric_point a b (length l) i) in *.
    assert (A1 : (1 <= IZR a)%R) by (apply IZR_le; lia). assert (B1 : (1 <= IZR b <= 1099511627776)%R) by (split; apply IZR_le; lia).
    apply Rabs_le_inv in Hx. assert (P44 : (2 ^ 44 = 17592186044416)%R) by (cbn; lra). rewrite P44 in Hx.
    assert (B3 : (/ 3298534883328 <= / (3 * IZR b))%R) by (apply Rinv_le_contravar; lra).
    assert (L2 : (IZR a * (1 + / 3298534883328) <= pt)%R).
    { eapply Rle_trans; [|exact Lo]. apply Rmult_le_compat_l; lra. }
    assert (IZR a <= x < IZR b + 1)%R by (split; lra).
    split.
    - assert (a < z + 1); [|lia]. apply lt_IZR. rewrite plus_IZR. lra.
    - assert (z < b + 1); [|lia]. apply lt_IZR. rewrite plus_IZR. lra. }
  assert (SU := unique_sorted l).
  assert (FU : Forall (fun z => a <= z <= b) (unique l)).
  { apply Forall_forall. intros z Hz. rewrite Forall_forall in F. exact (F z (proj1 (unique_In z l) Hz)). }
  split; [now apply sorted_increasing|]. split; [exact FU|].
  assert (Ia : 1 <= n -> In a (unique l)).
  { intros N1. apply unique_In. destruct l as [|x l]; [cbn in Ln; lia|]. destruct (G 0%nat x eq_refl) as (G0 & _). rewrite <- (G0 eq_refl). now left. }
  assert (Ib : 2 <= n -> In b (unique l)).
  { intros N2. apply unique_In. destruct (exists_last (l := l)) as (q & z & El); [intros ->; cbn in Ln; lia|].
    assert (Lq : length l = S (length q)) by (rewrite El, app_length; cbn [length]; lia).
    assert (Eq : nth_error l (length q) = Some z) by (rewrite El, nth_error_app2 by lia; rewrite Nat.sub_diag; reflexivity).
    destruct (G (length q) z Eq) as (_ & G1 & _). rewrite <- G1 by lia. rewrite El, in_app_iff. right. now left. }
  split; [|split].
  - intros N1. destruct (Z.eq_dec n 1) as [n1|n1].
    + assert (length l = 1)%nat by lia. destruct l as [|x [|? ?]]; try discriminate. cbn. destruct (G 0%nat x eq_refl) as (G0 & _). now rewrite (G0 eq_refl).
    + apply (sorted_ends _ a b SU (Ia N1) (Ib ltac:(lia)) FU).
  - intros N2. apply (sorted_ends _ a b SU (Ia ltac:(lia)) (Ib N2) FU).
  - assert (K := unique_length l). lia.
Qed.

(** ** The parser *)
Section Init.
  Context (geomspace : Z -> Z -> Z -> Res (list Z)) (disp : Arr spec_float) (indices drift_indices : list Z)
            (ts : spec_float) (ss : Z) (o : Options spec_float) (p : Parsed spec_float).
  Context (HO : parser_init geomspace disp indices drift_indices ts ss o = Ok p) (HL : o_spacing o = "logarithmic"%string).
  Let u := SFmul fprec femax (SFofZ ss) ts.
  Let T := Z.of_nat (a_obs (p_dc p)).
  Let mn := match o_min_dt o with Some m => m | None => u end.
  Let mx := match o_max_dt o with Some m => m | None => SFmul fprec femax (SFofZ T) u end.
  Lemma init_log : exists mi b g, SFtruncZ (SFdiv fprec femax mn u) = Some mi /\ mi < T
    /\ SFtruncZ (SFdiv fprec femax mx u) = Some b
    /\ geomspace (if mi =? 0 then 1 else mi) b (if T - mi + 1 <? o_n_steps o then T - mi + 1 else o_n_steps o) = Ok g
    /\ p_intervals p = unique g.
  Proof.
    unfold mn, mx, T. clear T mn mx. rename HL into HL'. revert HO. unfold parser_init. numSF. fold u.
    destruct (correct_drift drift_indices disp) as [dc|]; [|discriminate]. cbn [bind].
    unfold get_time_intervals. numSF. fold u. rewrite HL'. cbn [String.eqb Ascii.eqb Bool.eqb].
    unfold py_div at 1. destruct (neqb u n0) eqn:EU; [discriminate|]. cbn [bind]. numSF.
    unfold py_int at 1. numSF.
    destruct (SFtruncZ (SFdiv fprec femax match o_min_dt o with Some m => m | None => u end u)) as [mi|] eqn:E1; cbn [opt_res bind]; [|discriminate].
    destruct (Z.leb_spec (Z.of_nat (a_obs dc)) mi) as [|L]; [discriminate|].
    unfold py_div. rewrite EU. cbn [bind]. numSF. unfold py_int. numSF. rewrite E1. cbn [opt_res bind].
    destruct (SFtruncZ (SFdiv fprec femax match o_max_dt o with Some m => m | None => SFmul fprec femax (SFofZ (Z.of_nat (a_obs dc))) u end u)) as [b|] eqn:E2; cbn [opt_res bind]; [|discriminate].
    destruct (geomspace _ _ _) as [g|] eqn:E3; [|discriminate]. cbn [bind].
    destruct (get_disps _ _ _ _ _ _ _ _) as [r|]; [|discriminate]. cbn [bind]. intros H. injection H as <-. cbn [p_dc p_intervals].
    exists mi, b, g. repeat split; assumption.
  Qed.
End Init.

(** The ends of the grid for an omitted max_dt. *)
Lemma default_ends ts ss T mi b (mn : option spec_float) :
  let u := SFmul fprec femax (SFofZ ss) ts in
  is_double ts -> (0 < value ts)%R -> 0 < ss ->
  (mn = None \/ exists m, mn = Some m /\ is_double m /\ (0 <= value m)%R) ->
  SFtruncZ (SFdiv fprec femax match mn with Some m => m | None => u end u) = Some mi -> mi < T ->
  SFtruncZ (SFdiv fprec femax (SFmul fprec femax (SFofZ T) u) u) = Some b -> 0 <= T < 2 ^ 49 ->
  finite_double u /\ (0 < value u)%R /\ 0 <= mi /\ T - 1 <= b <= T /\ 1 <= (if mi =? 0 then 1 else mi) <= b
  /\ ((if mi =? 0 then 1 else mi) < b -> T - mi + 1 <= 3 * (b - (if mi =? 0 then 1 else mi)) + 1)
  /\ ((if mi =? 0 then 1 else mi) = b -> T - mi + 1 <= 2).
Proof.
  intros u D P Sp Hmn E1 L E2 HT.
  destruct (unit_cases ts ss D P Sp) as [[Fu Pu]|[s Eu]]; [fold u in Fu, Pu|fold u in Eu; rewrite Eu, trunc_div_inf in E2; discriminate].
  assert (Nu : value u <> 0%R) by lra.
  assert (M0 : 0 <= mi).
  { destruct Hmn as [Hmn|(x & Hmn & Dx & Px)]; rewrite Hmn in E1.
    - apply self_quotient in E1; [lia|assumption|assumption].
    - exact (nonneg_quotient x u mi Dx Px Fu Pu E1). }
  assert (B : T - 1 <= b <= T) by (apply (length_quotient T u b Fu Nu); [lia|exact E2]).
  assert (B2 : T = 1 \/ T = 2 -> b = T).
  { intros HT'. apply (length_quotient_exact T u b Fu Nu); [lia| |exact E2].
    destruct HT' as [->| ->]; [rewrite Rmult_1_l; now apply finite_rep|].
    apply finite_rep in Fu. replace (IZR 2 * value u)%R with (value u * bpow radix2 1)%R by (cbn; lra).
    apply mult_bpow_pos_exact_FLT; [exact Fu|lia]. }
  assert (B3 : T = 1 /\ b = 1 \/ T = 2 /\ b = 2 \/ 3 <= T) by (destruct (Z.eq_dec T 1); [left; split; [|rewrite B2]; lia|]; destruct (Z.eq_dec T 2); [right; left; split; [|rewrite B2]; lia|lia]).
  clear B2. split; [exact Fu|]. split; [exact Pu|]. destruct (Z.eqb_spec mi 0); repeat split; try assumption; try lia.
Qed.

Lemma C49_log_proof geomspace disp indices drift_indices ts ss o p :
  accurate_geomspace geomspace ->
  is_double ts -> (0 < value ts)%R -> 0 < ss -> o_max_dt o = None ->
  (o_min_dt o = None \/ exists mn, o_min_dt o = Some mn /\ is_double mn /\ (0 <= value mn)%R) ->
  o_spacing o = "logarithmic"%string ->
  parser_init geomspace disp indices drift_indices ts ss o = Ok p ->
  let T := Z.of_nat (a_obs (p_dc p)) in T < 2 ^ 40 ->
  Forall (fun z => 1 <= z <= T) (p_intervals p) /\ strictly_increasing (p_intervals p)
  /\ (2 <= o_n_steps o -> T - 1 <= last (p_intervals p) 0 <= T).
Proof.
  intros G D P Sp Hmx Hmn HL HO. cbn zeta. intros HT.
  destruct (init_log geomspace disp indices drift_indices ts ss o p HO HL) as (mi & b & g & E1 & L & E2 & E3 & EI).
  rewrite Hmx in E2. set (T := Z.of_nat (a_obs (p_dc p))) in *.
  destruct (default_ends ts ss T mi b (o_min_dt o) D P Sp Hmn E1 L E2 ltac:(lia)) as (Fu & Pu & M0 & B & AB & N1 & N2).
  set (n := if T - mi + 1 <? o_n_steps o then T - mi + 1 else o_n_steps o) in *.
  assert (Nn : n <= T - mi + 1) by (unfold n; destruct (Z.ltb_spec (T - mi + 1) (o_n_steps o)); lia).
  destruct (grid_log geomspace _ b n g G AB ltac:(lia) ltac:(lia) ltac:(lia) E3) as (SI & FA & HD & LA & _).
  rewrite EI. split; [|split].
  - eapply Forall_impl; [|exact FA]. cbn beta. intros z Hz. lia.
  - exact SI.
  - intros H2. rewrite LA; [exact B|]. unfold n. destruct (Z.ltb_spec (T - mi + 1) (o_n_steps o)); lia.
Qed.
Lemma C49_log_exact_proof geomspace disp indices drift_indices ts ss o p m e :
  accurate_geomspace geomspace ->
  is_double ts -> value ts = (IZR m * powerRZ 2 e)%R -> 0 < m -> -1074 <= e <= 900 -> 0 < ss -> o_max_dt o = None ->
  (o_min_dt o = None \/ exists mn, o_min_dt o = Some mn /\ is_double mn /\ (0 <= value mn)%R) ->
  o_spacing o = "logarithmic"%string ->
  parser_init geomspace disp indices drift_indices ts ss o = Ok p ->
  let T := Z.of_nat (a_obs (p_dc p)) in T < 2 ^ 40 -> m * ss * T < 2 ^ 53 ->
  2 <= o_n_steps o -> last (p_intervals p) 0 = T.
Proof.
  intros G D V Hm He Sp Hmx Hmn HL HO. cbn zeta. intros HT HM H2.
  assert (P : (0 < value ts)%R) by (rewrite V; apply Rmult_lt_0_compat; [apply IZR_lt; lia|apply powerRZ_lt; lra]).
  destruct (init_log geomspace disp indices drift_indices ts ss o p HO HL) as (mi & b & g & E1 & L & E2 & E3 & EI).
  rewrite Hmx in E2. set (T := Z.of_nat (a_obs (p_dc p))) in *.
  destruct (default_ends ts ss T mi b (o_min_dt o) D P Sp Hmn E1 L E2 ltac:(lia)) as (Fu & Pu & M0 & B & AB & N1 & N2).
  set (u := SFmul fprec femax (SFofZ ss) ts) in *. assert (Nu : value u <> 0%R) by lra.
  set (n := if T - mi + 1 <? o_n_steps o then T - mi + 1 else o_n_steps o) in *.
  assert (Nn : n <= T - mi + 1) by (unfold n; destruct (Z.ltb_spec (T - mi + 1) (o_n_steps o)); lia).
  destruct (grid_log geomspace _ b n g G AB ltac:(lia) ltac:(lia) ltac:(lia) E3) as (SI & FA & HD & LA & _).
  rewrite EI, LA by (unfold n; destruct (Z.ltb_spec (T - mi + 1) (o_n_steps o)); lia).
  assert (S53 : m * ss < 2 ^ 53) by nia.
  assert (Vu : value u = (IZR (ss * m) * bpow radix2 e)%R).
  { unfold u. assert (Ft : finite_double ts) by (apply value_pos_finite; [exact D|lra]).
    destruct (ofZ_small ss) as [Fs Es]; [nia|].
    destruct (mul_rounds _ _ Fs Ft) as [_ [[_ E]|[[s E] _]]].
    - rewrite E, Es, V, <- (bpow_powerRZ radix2), <- Rmult_assoc, <- mult_IZR. apply rnd_rep, rep_scaled; [nia|lia].
    - exfalso. destruct Fu as [_ Fu]. unfold u in Fu. rewrite E in Fu. exact Fu. }
  apply (length_quotient_exact T u b Fu Nu); [lia| |exact E2]. rewrite Vu, <- Rmult_assoc, <- mult_IZR. apply rep_scaled; [|lia]. nia.
Qed.

(** ** C50 *)
Lemma asked_start d m ts ss mn T mi b :
  let u := SFmul fprec femax (SFofZ ss) ts in
  (powerRZ 2 (-1022) <= d)%R -> (IZR (m * ss) * d <= powerRZ 2 1000)%R -> 1 <= m < 2 ^ 48 -> 0 < ss ->
  nearest_double ts d -> nearest_double mn (IZR (m * ss) * d) -> m * ss < 2 ^ 53 ->
  SFtruncZ (SFdiv fprec femax mn u) = Some mi ->
  SFtruncZ (SFdiv fprec femax (SFmul fprec femax (SFofZ T) u) u) = Some b ->
  (0 < value ts)%R /\ (0 <= value mn)%R /\ m - 1 <= mi <= m.
Proof.
  intros u Dl Du Hm S Nt Nm HMS E1 E2. rewrite <- !(bpow_powerRZ radix2) in Dl, Du.
  assert (D0 : (0 < d)%R) by (assert (0 < bpow radix2 (-1022))%R by apply bpow_gt_0; lra).
  assert (MS : (1 <= IZR m)%R /\ (1 <= IZR ss)%R) by (split; apply IZR_le; lia). destruct MS as [M1 S1].
  rewrite mult_IZR in Du. assert (MS1 : (1 <= IZR m * IZR ss)%R) by nra.
  assert (D1 : (d <= bpow radix2 1000)%R) by nra.
  assert (SD : (d <= IZR ss * d)%R) by nra. assert (MSD : (IZR ss * d <= IZR m * IZR ss * d)%R) by nra.
  assert (Et := nearest_error ts d Nt (conj Dl D1)).
  rewrite mult_IZR in Nm. assert (Em := nearest_error mn _ Nm (conj (Rle_trans _ _ _ Dl (Rle_trans _ _ _ SD MSD)) Du)).
  apply Rabs_le_inv in Et, Em.
  assert (EP : (0 < eps < / 1000000000000000)%R) by (unfold eps; lra).
  assert (Pt : (0 < value ts)%R) by nra.
  destruct (unit_cases ts ss (proj1 (proj1 Nt)) Pt S) as [[Fu Pu]|[s Eu]]; [fold u in Fu, Pu|fold u in Eu; rewrite Eu, trunc_div_inf in E2; discriminate].
  assert (Nu : value u <> 0%R) by lra.
  assert (Vu : (Rabs (value u - IZR ss * value ts) <= eps * (IZR ss * value ts))%R).
  { destruct (ofZ_small ss) as [Fs Es]; [nia|]. unfold u in *.
    destruct (mul_rounds _ _ Fs (proj1 Nt)) as [_ [[_ E]|[[s E] _]]].
    - rewrite E, Es. assert (Q := rel_multiple ss (value ts) (finite_rep ts (proj1 Nt))). rewrite (Rabs_pos_eq (IZR ss * value ts)) in Q by nra. exact Q.
    - exfalso. destruct Fu as [_ Fu]. rewrite E in Fu. exact Fu. }
  apply Rabs_le_inv in Vu. split; [exact Pt|]. split.
  { assert (0 <= IZR m * IZR ss * d)%R by nra. nra. }
  refine (quotient_near mn u m mi (proj1 Nm) Fu Nu ltac:(lia) _ E1).
  set (r := (IZR ss * d)%R) in *. assert (R0 : (0 < r)%R) by (unfold r; nra).
  replace (IZR m * IZR ss * d)%R with (IZR m * r)%R in Em by (unfold r; ring).
  assert (T1 : (- (eps * r) <= IZR ss * value ts - r <= eps * r)%R) by (unfold r; split; nra).
  set (q := (IZR ss * value ts)%R) in *.
  assert (M49 : (IZR m <= 281474976710656)%R) by (apply IZR_le; lia).
  assert (QB : (q <= 2 * r)%R) by (unfold eps in *; lra).
  assert (UB : (- (3 * eps * r) <= value u - r <= 3 * eps * r)%R) by (unfold eps in *; lra).
  assert (UL : (r / 2 <= value u)%R) by (unfold eps in *; lra).
  assert (G : (Rabs (value mn - IZR m * value u) <= / 4 * value u)%R).
  { apply Rabs_le. assert (- (3 * eps * r * IZR m) <= IZR m * (value u - r) <= 3 * eps * r * IZR m)%R.
    { set (k := (3 * eps * r)%R) in *. set (z := (value u - r)%R) in *. assert (IZR m * z <= IZR m * k)%R by (apply Rmult_le_compat_l; lra).
      assert (IZR m * (- k) <= IZR m * z)%R by (apply Rmult_le_compat_l; lra). lra. }
    assert (4 * eps * (r * IZR m) <= / 4 * (r * / 2))%R; [|split; lra].
    apply Rle_trans with (4 * eps * (r * 281474976710656))%R; [apply Rmult_le_compat_l; [lra|apply Rmult_le_compat_l; lra]|]. unfold eps. lra. }
  replace (value mn / value u - IZR m)%R with ((value mn - IZR m * value u) / value u)%R by (field; lra).
  unfold Rdiv. rewrite Rabs_mult, Rabs_inv, (Rabs_pos_eq (value u)) by lra.
  apply Rmult_le_reg_r with (value u); [lra|]. rewrite Rmult_assoc, Rinv_l by lra. lra.
Qed.
Lemma C50_log_proof geomspace disp indices drift_indices d m ts ss mn o p :
  accurate_geomspace geomspace ->
  (powerRZ 2 (-1022) <= d)%R -> (IZR (m * ss) * d <= powerRZ 2 1000)%R -> 1 <= m < 2 ^ 48 -> 0 < ss ->
  nearest_double ts d -> nearest_double mn (IZR (m * ss) * d) ->
  o_min_dt o = Some mn -> o_max_dt o = None -> o_spacing o = "logarithmic"%string -> 1 <= o_n_steps o ->
  parser_init geomspace disp indices drift_indices ts ss o = Ok p ->
  Z.of_nat (a_obs (p_dc p)) < 2 ^ 40 -> m * ss < 2 ^ 53 ->
  exists a, hd_error (p_intervals p) = Some a /\ m - 1 <= a <= m /\ 1 <= a.
Proof.
  intros GS Dl Du Hm S Nt Nm Hmn Hmx HL HS HO HT HMS.
  destruct (init_log geomspace disp indices drift_indices ts ss o p HO HL) as (mi & b & g & E1 & L & E2 & E3 & EI).
  rewrite Hmx in E2. set (T := Z.of_nat (a_obs (p_dc p))) in *.
  assert (E1' := E1). rewrite Hmn in E1'.
  destruct (asked_start d m ts ss mn T mi b Dl Du Hm S Nt Nm HMS E1' E2) as (Pt & Pm & Q).
  destruct (default_ends ts ss T mi b (o_min_dt o) (proj1 (proj1 Nt)) Pt S) as (Fu & Pu & M0 & B & AB & N1 & N2);
    [right; exists mn; split; [exact Hmn|split; [apply Nm|exact Pm]]|exact E1|exact L|exact E2|lia|].
  set (n := if T - mi + 1 <? o_n_steps o then T - mi + 1 else o_n_steps o) in *.
  assert (Nn : 1 <= n <= T - mi + 1) by (unfold n; destruct (Z.ltb_spec (T - mi + 1) (o_n_steps o)); lia).
  destruct (grid_log geomspace _ b n g GS AB ltac:(lia) ltac:(lia) ltac:(lia) E3) as (SI & FA & HD & LA & _).
  exists (if mi =? 0 then 1 else mi). rewrite EI. split; [apply HD; lia|]. destruct (Z.eqb_spec mi 0); lia.
Qed.

Lemma C50_log_exact_proof geomspace disp indices drift_indices d m ts ss mn o p :
  accurate_geomspace geomspace ->
  (0 < d)%R -> 1 <= m < 2 ^ 48 -> 0 < ss < 2 ^ 53 ->
  is_double ts -> value ts = d -> finite_double mn -> value mn = (IZR (m * ss) * d)%R ->
  (exists w, finite_double w /\ value w = (IZR ss * d)%R) ->
  o_min_dt o = Some mn -> o_max_dt o = None -> o_spacing o = "logarithmic"%string -> 1 <= o_n_steps o ->
  parser_init geomspace disp indices drift_indices ts ss o = Ok p ->
  Z.of_nat (a_obs (p_dc p)) < 2 ^ 40 -> hd_error (p_intervals p) = Some m.
Proof.
  intros GS D0 Hm S Dt Vt Fm Vm (w & Fw & Vw) Hmn Hmx HL HS HO HT.
  destruct (init_log geomspace disp indices drift_indices ts ss o p HO HL) as (mi & b & g & E1 & L & E2 & E3 & EI).
  rewrite Hmx in E2. set (T := Z.of_nat (a_obs (p_dc p))) in *.
  assert (1 <= IZR ss)%R by (apply IZR_le; lia). assert (0 <= IZR (m * ss))%R by (apply IZR_le; nia).
  destruct (default_ends ts ss T mi b (o_min_dt o) Dt ltac:(lra) ltac:(lia)) as (Fu & Pu & M0 & B & AB & N1 & N2);
    [right; exists mn; split; [exact Hmn|split; [apply Fm|rewrite Vm; apply Rmult_le_pos; lra]]|exact E1|exact L|exact E2|lia|].
  rewrite Hmn in E1. set (u := SFmul fprec femax (SFofZ ss) ts) in *. assert (Nu : value u <> 0%R) by lra.
  assert (Ft : finite_double ts) by (apply value_pos_finite; [exact Dt|lra]).
  assert (Vu : value u = (IZR ss * d)%R).
  { destruct (ofZ_small ss) as [Fs Es]; [lia|]. unfold u in *.
    destruct (mul_rounds _ _ Fs Ft) as [_ [[_ E]|[[s E] _]]].
    - rewrite E, Es, Vt. apply rnd_rep. rewrite <- Vw. now apply finite_rep.
    - exfalso. destruct Fu as [_ Fu]. rewrite E in Fu. exact Fu. }
  assert (Q : mi = m). { apply (quotient_exact mn u m mi Fm Fu Nu); [lia| |exact E1]. rewrite Vm, Vu, mult_IZR. field. split; lra. }
  set (n := if T - mi + 1 <? o_n_steps o then T - mi + 1 else o_n_steps o) in *.
  assert (Nn : 1 <= n <= T - mi + 1) by (unfold n; destruct (Z.ltb_spec (T - mi + 1) (o_n_steps o)); lia).
  destruct (grid_log geomspace _ b n g GS AB ltac:(lia) ltac:(lia) ltac:(lia) E3) as (SI & FA & HD & LA & _).
  rewrite EI, HD by lia. destruct (Z.eqb_spec mi 0); f_equal; lia.
Qed.

(** ** The contract is met by the real-number version *)
Lemma geometric_same a b n i : 1 <= a <= b -> (0 < i)%nat -> (S i < n)%nat -> geomspace_point_R a b n i = geometric_point a b n i.
Proof.
  intros Hab Hi Hn. unfold geomspace_point_R, geometric_point.
  rewrite (proj2 (Nat.eqb_neq i 0)) by lia. rewrite (proj2 (Nat.eqb_neq i (n - 1))) by lia. rewrite Bool.andb_false_r.
  assert (A1 : (1 <= IZR a)%R) by (apply IZR_le; lia). assert (B1 : (IZR a <= IZR b)%R) by (apply IZR_le; lia).
  assert (N0 : (1 <= INR (n - 1))%R) by (apply (le_INR 1); lia).
  rewrite linspace_point_R by lia. unfold Rpower, log10_R.
  assert (L10 : (0 < ln 10)%R) by (rewrite <- ln_1; apply ln_increasing; lra).
  rewrite <- (exp_ln (IZR a)) at 3 by lra. rewrite <- exp_plus. f_equal. assert (LQ : (ln (IZR b / IZR a) = ln (IZR b) - ln (IZR a))%R) by (unfold Rdiv; rewrite ln_mult, ln_Rinv by (try apply Rinv_0_lt_compat; lra); ring).
  rewrite LQ.
  field. split; lra.
Qed.
Lemma real_accurate : accurate_geomspace geomspace_R.
Proof.
  intros a b n Hab Hb Hn. unfold geomspace_R. rewrite (proj2 (Z.leb_gt a 0)), (proj2 (Z.leb_gt b 0)) by lia. cbn [orb].
  destruct (Z.ltb_spec n 0) as [|N0]; [eexists; reflexivity|]. eexists. split; [reflexivity|].
  split; [now rewrite map_length, seq_length|]. intros i z Ez. rewrite nth_error_lin in Ez.
  destruct (Nat.ltb_spec i (Z.to_nat n)) as [Hi|]; [|discriminate]. injection Ez as Ez. rewrite map_length, seq_length.
  split; [|split].
  - intros ->. rewrite <- Ez. unfold geomspace_point_R. cbn. now rewrite Rtrunc_IZR.
  - intros H1 H2. rewrite <- Ez. unfold geomspace_point_R. rewrite (proj2 (Nat.eqb_neq i 0)) by lia.
    rewrite (proj2 (Nat.ltb_lt 1 (Z.to_nat n))), (proj2 (Nat.eqb_eq i (Z.to_nat n - 1))) by lia. cbn [andb]. apply Rtrunc_IZR.
  - intros H1 H2. exists (geomspace_point_R a b (Z.to_nat n) i). rewrite (geometric_same a b _ i Hab H1 H2).
    split.
    + rewrite Rminus_diag_eq, Rabs_R0 by reflexivity. apply Rmult_le_pos; [left; apply Rinv_0_lt_compat, pow_lt; lra|].
      unfold geometric_point. apply Rmult_le_pos; [apply IZR_le; lia|left; apply exp_pos].
    + rewrite <- (geometric_same a b _ i Hab H1 H2). rewrite <- Ez. rewrite Rtrunc_pos.
      * destruct (Rfloor_bounds (geomspace_point_R a b (Z.to_nat n) i)) as [Q1 Q2]. lra.
      * rewrite (geometric_same a b _ i Hab H1 H2). unfold geometric_point. apply Rmult_le_pos; [apply IZR_le; lia|left; apply exp_pos].
Qed.

(** ** Witnesses *)
Definition spaced (mn : option spec_float) : Options spec_float := mkOptions mn None 100 "logarithmic" "multi-origin" (SFofZ 8) 8.
Lemma three_points g : accurate_geomspace g -> exists l, g 1 2 3 = Ok l /\ unique l = [1; 2].
Proof.
  intros G. assert (G' := G 1 2 3 ltac:(lia) ltac:(lia) ltac:(lia)). cbn in G'. destruct G' as (l & E & Ln & Gl). exists l. split; [exact E|].
  destruct (grid_log g 1 2 3 l G ltac:(lia) ltac:(lia) ltac:(lia) ltac:(lia) E) as (_ & F & _ & _ & _).
  destruct l as [|x [|y [|z [|? ?]]]]; try discriminate Ln.
  destruct (Gl 0%nat x eq_refl) as (Hx & _). destruct (Gl 2%nat z eq_refl) as (_ & Hz & _).
  rewrite (Hx eq_refl), (Hz ltac:(lia) eq_refl) in *. rewrite Forall_forall in F.
  assert (Hy : 1 <= y <= 2) by (apply F, unique_In; right; left; reflexivity).
  assert (y = 1 \/ y = 2) as [-> | ->] by lia; reflexivity.
Qed.
Lemma init_forward geomspace disp idx dr (ts : spec_float) ss o dc q mi n tis r :
  correct_drift dr disp = Ok dc ->
  let unit := nmul (nofZ ss) ts in
  let mn := match o_min_dt o with Some m => m | None => unit end in
  let mx := match o_max_dt o with Some m => m | None => nmul (nofZ (Z.of_nat (a_obs dc))) unit end in
  py_div mn unit = Ok q -> py_int q = Ok mi -> (Z.of_nat (a_obs dc) <=? mi) = false ->
  (if Z.of_nat (a_obs dc) - mi + 1 <? o_n_steps o then Z.of_nat (a_obs dc) - mi + 1 else o_n_steps o) = n ->
  get_time_intervals geomspace mn mx ss ts n (o_spacing o) = Ok tis ->
  get_disps ts ss idx (o_sampling o) (o_memory_limit o) (o_itemsize o) tis dc = Ok r ->
  exists p, parser_init geomspace disp idx dr ts ss o = Ok p /\ p_dc p = dc /\ p_intervals p = tis.
Proof.
  intros H1 unit mn mx H2 H3 H4 H5 H6 H7. unfold parser_init. rewrite H1. cbn [bind]. fold unit. fold mn mx. rewrite H2. cbn [bind]. rewrite H3. cbn [bind].
  rewrite H4, H5, H6. cbn [bind]. rewrite H7. cbn [bind]. eexists. split; [reflexivity|]. split; reflexivity.
Qed.
Ltac runs_log tis :=
  match goal with |- exists p, parser_init ?g ?d ?i ?dr ?ts ?ss ?o = Ok p /\ _ =>
    let r := eval vm_compute in (get_disps ts ss i (o_sampling o) (o_memory_limit o) (o_itemsize o) tis d) in
    match r with Ok ?r' =>
    let q := eval vm_compute in (py_div match o_min_dt o with Some m => m | None => nmul (nofZ ss) ts end (nmul (nofZ ss) ts)) in
    match q with Ok ?q' =>
    let mi := eval vm_compute in (py_int q') in
    match mi with Ok ?mi' =>
    let dc := eval vm_compute in d in
    let n := eval vm_compute in (if Z.of_nat (a_obs d) - mi' + 1 <? o_n_steps o then Z.of_nat (a_obs d) - mi' + 1 else o_n_steps o) in
    destruct (init_forward g d i dr ts ss o dc q' mi' n tis r') as (p & Ep & Ed & Et);
    [vm_compute; reflexivity|vm_compute; reflexivity|vm_compute; reflexivity|vm_compute; reflexivity|vm_compute; reflexivity| |vm_compute; reflexivity|
     exists p; split; [exact Ep|]; split; [rewrite Ed; reflexivity|exact Et]]
    end end end end.
Lemma C49_log_refuted_proof geomspace : accurate_geomspace geomspace -> exists disp ts o p, nearest_double ts (7 / 10)%R /\ o_max_dt o = None /\ o_min_dt o = None
  /\ o_spacing o = "logarithmic"%string /\ 2 <= o_n_steps o /\ parser_init geomspace disp [0] [] ts 1 o = Ok p
  /\ a_obs (p_dc p) = 3%nat /\ p_intervals p = [1; 2].
Proof.
  intros G. destruct (three_points geomspace G) as (l & El & Ul).
  assert (K : exists p, parser_init geomspace (still 3) [0] [] (decimal 7 10) 1 (spaced None) = Ok p /\ a_obs (p_dc p) = 3%nat /\ p_intervals p = [1; 2]).
  { runs_log [1; 2]. transitivity (let! g := geomspace 1 2 3 in Ok (unique g)); [vm_compute; reflexivity|]. rewrite El. cbn [bind]. now rewrite Ul. }
  destruct K as (p & K). exists (still 3), (decimal 7 10), (spaced None), p. split; [apply (nearest_ratio 7 10); lia|].
  repeat split; try apply K. cbn. lia.
Qed.
(** Asking for two to four frames: a run with time step 3/2 that meets the hypotheses. *)
Lemma C49_log_example_proof geomspace : accurate_geomspace geomspace -> exists p,
  parser_init geomspace (still 3) [0] [] (decimal 3 2) 1 (spaced (Some (decimal 6 2))) = Ok p /\ a_obs (p_dc p) = 3%nat /\ p_intervals p = [2; 3].
Proof.
  intros G. assert (G' := G 2 3 2 ltac:(lia) ltac:(lia) ltac:(lia)). cbn in G'. destruct G' as (l & El & Ln & Gl).
  destruct l as [|x [|y [|? ?]]]; try discriminate Ln.
  destruct (Gl 0%nat x eq_refl) as (Hx & _). destruct (Gl 1%nat y eq_refl) as (_ & Hy & _). rewrite (Hx eq_refl), (Hy ltac:(lia) eq_refl) in El.
  runs_log [2; 3]. transitivity (let! g := geomspace 2 3 2 in Ok (unique g)); [vm_compute; reflexivity|]. rewrite El. reflexivity.
Qed.
