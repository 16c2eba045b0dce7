(** * PropertiesCalib: C89, reported variances and the scatter of repeated measurements *)
From Verif Require Import Base Spec SpecParser SpecStats SpecRun SpecFit SpecMarkov SpecCalib ModelParser ModelDiffusion ModelHdf ProofsStats ProofsCalib.
From Coq Require Import Reals.
Open Scope Z_scope.

(** ** C89
    [es] are the possible runs of the same experiment with the probabilities [wt]; [m e] and [v e] are
    the mean squared displacement and its variance that run [e] reports for the interval [i].
    If all [K] squared displacements have the average [mu] and the variance [s2] over the runs, then
    [m] is right on average and the reported variance is on average
    K/(K-1) (s2 - variance of m) / n_o; with uncorrelated observations s2/n_o against the real s2/K. *)
Theorem C89_law : forall G Seed RS (X : Ext R G Seed RS) E (es : list E) (wt : E -> R) u dts disps n_o gi go b axes i K (no mu s2 : R) (d : E -> Arr R) (m v : E -> R),
  rsum (map wt es) = 1%R -> 0 < u_sub_sample_dt u -> u_block u = false -> names (pystr_text (u_dimension u)) axes -> (1 < K)%nat ->
  (forall e, In e es -> msd_bootstrap X u (dts e) (disps e) (n_o e) (gi e) = Ok (b e, go e)
     /\ nth_error (disps e) (i * Z.to_nat (u_sub_sample_dt u)) = Some (d e) /\ length (entries (d e)) = K /\ nth_error (n_o e) i = Some no
     /\ nth_error (b_n (b e)) i = Some (m e) /\ nth_error (b_v (b e)) i = Some (v e)) ->
  alike es wt K (fun e => square_of axes (d e)) mu s2 ->
  mean_over es wt m = mu /\ mean_over es wt v = (INR K / (INR K - 1) * (s2 - spread_over es wt m) / no)%R
  /\ (unrelated es wt K (fun e => square_of axes (d e)) mu -> spread_over es wt m = (s2 / INR K)%R /\ mean_over es wt v = (s2 / no)%R).
Proof. intros G Seed RS X E. exact (C89_law_proof X). Qed.
Print Assumptions C89_law.
(** The same for the total displacement ([na] atoms, [K] windows), whose n_o is divided by [na]. *)
Theorem C89_mstd_law : forall G Seed RS (X : Ext R G Seed RS) E (es : list E) (wt : E -> R) u dts disps n_o gi go b axes i K na (no mu s2 : R) (d : E -> Arr R) (m v : E -> R),
  rsum (map wt es) = 1%R -> 0 < u_sub_sample_dt u -> u_block u = false -> names (pystr_text (u_dimension u)) axes -> (1 < K)%nat ->
  (forall e, In e es -> mstd_bootstrap X u (dts e) (disps e) (n_o e) (gi e) = Ok (b e, go e) /\ Forall arr_wf (disps e)
     /\ nth_error (disps e) (i * Z.to_nat (u_sub_sample_dt u)) = Some (d e) /\ a_obs (d e) = K /\ length (a_rows (d e)) = na /\ nth_error (n_o e) i = Some no
     /\ nth_error (b_n (b e)) i = Some (m e) /\ nth_error (b_v (b e)) i = Some (v e)) ->
  alike es wt K (fun e => total_square_of axes (d e)) mu s2 ->
  mean_over es wt m = mu /\ mean_over es wt v = (INR K / (INR K - 1) * (s2 - spread_over es wt m) / (no / INR na))%R
  /\ (unrelated es wt K (fun e => total_square_of axes (d e)) mu -> spread_over es wt m = (s2 / INR K)%R /\ mean_over es wt v = (s2 / (no / INR na))%R).
Proof. intros G Seed RS X E. exact (C89_mstd_proof X). Qed.
Print Assumptions C89_mstd_law.
(** The same for the charge displacement. *)
Theorem C89_mscd_law : forall G Seed RS (X : Ext R G Seed RS) E (es : list E) (wt : E -> R) u dts disps q n_o gi go b i K na (no mu s2 : R) (d : E -> Arr R) (m v : E -> R),
  rsum (map wt es) = 1%R -> 0 < u_sub_sample_dt u -> u_block u = false -> (forall l, q = QArray l -> length l = na) -> (1 < K)%nat ->
  (forall e, In e es -> mscd_bootstrap X u (dts e) (disps e) q (n_o e) (gi e) = Ok (b e, go e) /\ Forall arr_wf (disps e)
     /\ Forall (fun d => length (a_rows d) = na) (disps e)
     /\ nth_error (disps e) (i * Z.to_nat (u_sub_sample_dt u)) = Some (d e) /\ a_obs (d e) = K /\ nth_error (n_o e) i = Some no
     /\ nth_error (b_n (b e)) i = Some (m e) /\ nth_error (b_v (b e)) i = Some (v e)) ->
  alike es wt K (fun e => charge_square_of (charges q na) (d e)) mu s2 ->
  mean_over es wt m = mu /\ mean_over es wt v = (INR K / (INR K - 1) * (s2 - spread_over es wt m) / (no / INR na))%R
  /\ (unrelated es wt K (fun e => charge_square_of (charges q na) (d e)) mu -> spread_over es wt m = (s2 / INR K)%R /\ mean_over es wt v = (s2 / (no / INR na))%R).
Proof. intros G Seed RS X E. exact (C89_mscd_proof X). Qed.
Print Assumptions C89_mscd_law.

(** Parser and bootstrap together. The interval of all [T] frames has one observation per atom: with
    uncorrelated, alike atoms its reported variance is right on average. *)
Theorem C89_whole_run_calibrated : forall G Seed RS (X : Ext R G Seed RS) E (es : list E) (wt : E -> R) u axes N T (x : E -> nat -> nat -> V3 R) idx drift (ts : R) ss o
    (p : E -> Parsed R) (gi go : E -> G) b i (m v : E -> R) (mu s2 : R),
  rsum (map wt es) = 1%R -> u_sub_sample_dt u = 1 -> u_block u = false -> names (pystr_text (u_dimension u)) axes ->
  Forall (valid_site N) idx -> Forall (valid_site N) drift -> sensible T (IZR ss * ts) o -> (1 < length idx)%nat ->
  (forall e, In e es -> parser_init geomspace_R (table N T (x e)) idx drift ts ss o = Ok (p e)
     /\ msd_bootstrap X u (p_delta_t (p e)) (p_disp_3d (p e)) (p_n_o (p e)) (gi e) = Ok (b e, go e)
     /\ nth_error (b_n (b e)) i = Some (m e) /\ nth_error (b_v (b e)) i = Some (v e)) ->
  o_sampling o = "multi-origin"%string -> (forall e, In e es -> nth_error (p_intervals (p e)) i = Some (Z.of_nat T)) ->
  alike es wt (length idx) (atom_square axes N x idx drift (T - 1)) mu s2 -> unrelated es wt (length idx) (atom_square axes N x idx drift (T - 1)) mu ->
  mean_over es wt m = mu /\ mean_over es wt v = spread_over es wt m.
Proof. intros G Seed RS X E. exact (C89_whole_run_proof X). Qed.
Print Assumptions C89_whole_run_calibrated.
(** With single-origin sampling there is one observation per atom in every interval, but the variance
    is divided by n_o = atoms * longest / n: it is too small by the factor n / longest. *)
Theorem C89_single_origin_law : forall G Seed RS (X : Ext R G Seed RS) E (es : list E) (wt : E -> R) u axes N T (x : E -> nat -> nat -> V3 R) idx drift (ts : R) ss o
    (p : E -> Parsed R) (gi go : E -> G) b i n L (m v : E -> R) (mu s2 : R),
  rsum (map wt es) = 1%R -> u_sub_sample_dt u = 1 -> u_block u = false -> names (pystr_text (u_dimension u)) axes ->
  Forall (valid_site N) idx -> Forall (valid_site N) drift -> sensible T (IZR ss * ts) o -> (1 < length idx)%nat ->
  (forall e, In e es -> parser_init geomspace_R (table N T (x e)) idx drift ts ss o = Ok (p e)
     /\ msd_bootstrap X u (p_delta_t (p e)) (p_disp_3d (p e)) (p_n_o (p e)) (gi e) = Ok (b e, go e)
     /\ nth_error (b_n (b e)) i = Some (m e) /\ nth_error (b_v (b e)) i = Some (v e)) ->
  o_sampling o = "single-origin"%string ->
  (forall e, In e es -> nth_error (p_intervals (p e)) i = Some (Z.of_nat n) /\ last (p_intervals (p e)) 0 = Z.of_nat L) ->
  alike es wt (length idx) (atom_square axes N x idx drift i) mu s2 -> unrelated es wt (length idx) (atom_square axes N x idx drift i) mu ->
  mean_over es wt m = mu /\ mean_over es wt v = (INR n / INR L * spread_over es wt m)%R.
Proof. intros G Seed RS X E. exact (C89_single_proof X). Qed.
Print Assumptions C89_single_origin_law.

(** The claim that the reported variance is the variance over repeated runs fails for an ideal random
    walk: too small for three of four frames, too large for two of three frames. *)
Theorem C89_variance_too_small_refuted : forall G Seed RS (X : Ext R G Seed RS) (g : G), exists p b m v, (forall e, In e walkers ->
    parser_init geomspace_R (table 2 4 (stroll e)) [0; 1] [] 1%R 1 (whole_span 4 "multi-origin") = Ok (p e)
    /\ msd_bootstrap X (demo_boot 1 "xyz") (p_delta_t (p e)) (p_disp_3d (p e)) (p_n_o (p e)) g = Ok (b e, g)
    /\ nth_error (p_intervals (p e)) 2 = Some 3 /\ nth_error (b_n (b e)) 2 = Some (m e) /\ nth_error (b_v (b e)) 2 = Some (v e))
  /\ (mean_over walkers fair v < spread_over walkers fair m)%R.
Proof. intros G Seed RS. exact C89_narrow_proof. Qed.
Print Assumptions C89_variance_too_small_refuted.
Theorem C89_variance_too_large_refuted : forall G Seed RS (X : Ext R G Seed RS) (g : G), exists p b m v, (forall e, In e walkers ->
    parser_init geomspace_R (table 2 3 (stroll e)) [0; 1] [] 1%R 1 (whole_span 3 "multi-origin") = Ok (p e)
    /\ msd_bootstrap X (demo_boot 1 "xyz") (p_delta_t (p e)) (p_disp_3d (p e)) (p_n_o (p e)) g = Ok (b e, g)
    /\ nth_error (p_intervals (p e)) 1 = Some 2 /\ nth_error (b_n (b e)) 1 = Some (m e) /\ nth_error (b_v (b e)) 1 = Some (v e))
  /\ (spread_over walkers fair m < mean_over walkers fair v)%R.
Proof. intros G Seed RS. exact C89_wide_proof. Qed.
Print Assumptions C89_variance_too_large_refuted.
(** And for single-origin sampling of the same walk. *)
Theorem C89_single_origin_refuted : forall G Seed RS (X : Ext R G Seed RS) (g : G), exists p b m v, (forall e, In e walkers ->
    parser_init geomspace_R (table 2 4 (stroll e)) [0; 1] [] 1%R 1 (whole_span 4 "single-origin") = Ok (p e)
    /\ msd_bootstrap X (demo_boot 1 "xyz") (p_delta_t (p e)) (p_disp_3d (p e)) (p_n_o (p e)) g = Ok (b e, g)
    /\ nth_error (p_intervals (p e)) 2 = Some 3 /\ nth_error (b_n (b e)) 2 = Some (m e) /\ nth_error (b_v (b e)) 2 = Some (v e))
  /\ (mean_over walkers fair v < spread_over walkers fair m)%R.
Proof. intros G Seed RS. exact C89_single_refuted_proof. Qed.
Print Assumptions C89_single_origin_refuted.

(** The random walk of two atoms meets the hypotheses of the laws: squares after two steps have the
    average 2 and the variance 4 and are uncorrelated. *)
Example C89_example : rsum (map fair walkers) = 1%R
  /\ alike walkers fair 2 (atom_square all_axes 2 stroll [0; 1] [] 2) 2%R 4%R /\ unrelated walkers fair 2 (atom_square all_axes 2 stroll [0; 1] [] 2) 2%R
  /\ forall e, In e walkers -> exists p, parser_init geomspace_R (table 2 3 (stroll e)) [0; 1] [] 1%R 1 (whole_span 3 "multi-origin") = Ok p
       /\ nth_error (p_intervals p) 2 = Some 3 /\ nth_error (p_n_o p) 2 = Some 2%R.
Proof. exact C89_example_proof. Qed.
