(** C99 - C101: the grid of the spatial inversion as an object (monitor/spatial.py). *)
From Coq Require Import Reals Lra List ZArith Permutation.
From mathcomp Require Import all_ssreflect all_algebra.
From Verif Require Import Lib.Base Lib.RField Model.Kernel Model.Inversion Model.GridInversion Model.DVGrid Model.GridCalls Spec.InversionSpec Spec.KernelSpec Spec.GridCallsSpec
  Proofs.KernelFacts Proofs.GridFacts Proofs.DVGridFacts Proofs.GridCallsFacts Props.GridInversion.
Set Implicit Arguments.
Unset Strict Implicit.

(** ** C99: results do not depend on earlier calls *)
(** Whatever was computed before with the same grid, also if it failed, a call returns what it returns on a new grid. *)
Theorem C99_history : forall g (cs : list call) c, snd (run (runs (new_grid g) cs) c) = snd (run (new_grid g) c).
Proof. move=> g cs c; exact: history. Qed.
Print Assumptions C99_history.
(** The model that a grid keeps is that of the last inversion that succeeded. *)
Theorem C99_model : forall g (cs : list call) c,
  s_vel (fst (run (runs (new_grid g) cs) c)) =
  match c, snd (run (new_grid g) c) with
  | Invert _, Ok (OModel (Some x)) => Some x
  | _, _ => s_vel (runs (new_grid g) cs)
  end.
Proof.
  move=> g cs c. have [_ [_ ->]] := run_ok c (runs_inv cs (new_inv g)).
  case: c => [a|a|a|x a].
  - have [E _] := run_ok (Invert a) (new_inv g). rewrite E. by case: (plain g (Invert a)) => [[[z|]|||]|].
  - rewrite /=. case: (prepared g a) => [[[i w] ks]|e] //=. case E: (solve _ _ _ _) => [o|e] //=. by have [n [G [v [y ->]]]] := solve_shape E.
  - rewrite /=. case: (prepared g a) => [[[i w] ks]|e] //=. case E: (solve _ _ _ _) => [o|e] //=. by have [n [G [v [y ->]]]] := solve_shape E.
  - rewrite /=. case: ifP => //= _. case: (snd (extract nil _ _)) => [i|e] //=. case: (or_tw _ _) => [tw|] //=. by case: (mapM _ _).
Qed.
Print Assumptions C99_model.
(** A grid knows every station once; all stations of the velocity changes used in a successful call are known, and no others than stations
    of velocity changes that were used. *)
Theorem C99_stations : forall g (cs : list call),
  List.NoDup (s_stats (runs (new_grid g) cs)) /\
  (forall c o u, In c cs -> snd (run (new_grid g) c) = Ok o -> In u (used (a_utc (args_of c)) (a_dvs (args_of c))) ->
     In (d_s0 (fst u)) (s_stats (runs (new_grid g) cs)) /\ In (d_s1 (fst u)) (s_stats (runs (new_grid g) cs))) /\
  (forall p, In p (s_stats (runs (new_grid g) cs)) -> exists c u, In c cs /\ In u (used (a_utc (args_of c)) (a_dvs (args_of c))) /\ (p = d_s0 (fst u) \/ p = d_s1 (fst u))).
Proof.
  move=> g cs. split; first by apply: runs_nodup; [exact: new_inv|exact: List.NoDup_nil]. split.
  - move=> c o u I. have [-> _] := run_ok c (new_inv g) => O U. by split; apply: (runs_all (new_inv g) I O); exists u; split; auto.
  - move=> p /(runs_only (new_inv g)) [//|[c [I [u [U P]]]]]. by exists c, u.
Qed.
Print Assumptions C99_stations.
(** An inversion after any history returns the best model: see C93_inversion. *)
Theorem C99_inversion : forall g (cs : list call) a i tw f0 f1,
  snd (extract nil (a_dvs a) (a_utc a)) = Ok i -> settings a i = Ok (tw, f0, f1) ->
  snd (run (runs (new_grid g) cs) (Invert a)) =
  bind (dv_grid g (i_pairs i) (i_corrs i) (i_vals i) tw.1 tw.2 f0 f1 (a_scaling a) (a_corr_len a) (a_std a)) (fun x => Ok (OModel x)).
Proof. move=> g cs a i tw f0 f1 E S. rewrite history. have [-> _] := run_ok (Invert a) (new_inv g). by rewrite invert_dv_grid E /= S. Qed.
Print Assumptions C99_inversion.

(** ** C100: order of the velocity changes, and velocity changes without a value *)
Theorem C100_order : forall g c dvs' o, is_forward c = false -> Permutation (a_dvs (args_of c)) dvs' -> uniform (args_of c) ->
  snd (run (new_grid g) c) = Ok o -> snd (run (new_grid g) (with_args c (with_dvs (args_of c) dvs'))) = Ok o.
Proof.
  move=> g c dvs' o F P U. have [-> _] := run_ok c (new_inv g). have [-> _] := run_ok (with_args c (with_dvs (args_of c) dvs')) (new_inv g). exact: plain_perm.
Qed.
Print Assumptions C100_order.
(** A velocity change that does not cover the time, has no value there, or a coherence of at most 0.001 or at least 1, changes nothing. *)
Theorem C100_irrelevant : forall g c l d r, a_dvs (args_of c) = l ++ d :: r -> ~ usable (args_of c) d ->
  snd (run (new_grid g) (with_args c (with_dvs (args_of c) (l ++ r)))) = snd (run (new_grid g) c).
Proof.
  move=> g c l d r E U. have [-> _] := run_ok c (new_inv g). have [-> _] := run_ok (with_args c (with_dvs (args_of c) (l ++ r))) (new_inv g). exact: plain_irrelevant E U.
Qed.
Print Assumptions C100_irrelevant.
(** when a velocity change is usable *)
Theorem C100_usable : forall a d s ss e es, d_starts d = s :: ss -> d_ends d = es ++ [e] ->
  (usable a d <-> (s <= a_utc a <= e)%Z /\ exists v c, List.nth (Spatial.closest (s :: ss) (a_utc a)) (d_value d) None = Some v /\
     List.nth (Spatial.closest (s :: ss) (a_utc a)) (d_corr d) None = Some c /\ Rlt (Rdiv 1 1000) c /\ Rlt c 1).
Proof.
  move=> a d s ss e es S E. rewrite /usable /picked S E rev_app_distr /=.
  case: Z.ltb_spec => A /=; first by split=> // [[[B _] _]]; lia.
  case: Z.ltb_spec => B /=; first by split=> // [[[_ C] _]]; lia.
  case: (List.nth _ (d_value d) None) => [v|]; last by split=> // [[_ [? [? [? _]]]]].
  case: (List.nth _ (d_corr d) None) => [c|]; last by split=> // [[_ [? [? [_ [? _]]]]]].
  rewrite /leb. case: Rle_dec => C /=; first by split=> // [[_ [? [? [_ [[<-] [D _]]]]]]]; lra.
  case: Rle_dec => D /=; first by split=> // [[_ [? [? [_ [[<-] [_ F]]]]]]]; lra.
  split=> // _. split; first lia. exists v, c. split=> //. split=> //. lra.
Qed.
Print Assumptions C100_usable.

(** ** C101: velocity changes measured in different windows *)
(** If all were measured in the same window and frequencies, or these are given, they are the ones used. *)
Theorem C101_settings_partial : forall a i d, snd (extract nil (a_dvs a) (a_utc a)) = Ok i -> uniform a -> In d (a_dvs a) -> usable a d ->
  settings a i = match setting_of a d with (Some tw, Some f0, Some f1) => Ok (tw, f0, f1) | _ => Raise AttributeError end.
Proof.
  move=> a i d /extract_iff [l [p [us [E [_ ->]]]]] U I V. rewrite settings_of. congr (match _ with pair _ _ => _ end).
  move: V. rewrite /usable. case P: (picked _ d) => [x|] // _.
  apply: (@uniform_used a l d p x U); first by rewrite E; apply: in_or_app; right; left. by apply/used_in.
Qed.
Print Assumptions C101_settings_partial.
(** All velocity changes are treated as if they had been measured with the settings of the last one. *)
Theorem C101_window_refuted : forall g c l d, a_dvs (args_of c) = l ++ [d] -> usable (args_of c) d ->
  snd (run (new_grid g) (with_args c (with_dvs (args_of c) (List.map (with_proc (d_proc d)) l ++ [d])))) = snd (run (new_grid g) c).
Proof.
  move=> g c l d E U. have [-> _] := run_ok c (new_inv g).
  have [-> _] := run_ok (with_args c (with_dvs (args_of c) (List.map (with_proc (d_proc d)) l ++ [d]))) (new_inv g). exact: plain_window.
Qed.
Print Assumptions C101_window_refuted.
Definition dv_a : dvr := mkDV [0]%Z [10]%Z [Some R1] [Some (Rdiv 1 2)] (R0, R0) (R1, R0) (Some (R1, Rplus R1 R1, R1, Rplus R1 R1)).
Definition dv_b : dvr := with_proc None dv_a.
Definition ex_args (l : list dvr) : args := mkArgs l 5 None None None R1 R1 R1.
Lemma half_picked d : d = dv_a \/ d = dv_b -> picked 5 d = Some (R1, Rdiv 1 2).
Proof. case=> ->; rewrite /picked /= /leb; (case: Rle_dec => [A|_]; first lra); (case: Rle_dec => [A|_]; first lra); by []. Qed.
Lemma both_extract d d' : d = dv_a \/ d = dv_b -> d' = dv_a \/ d' = dv_b ->
  snd (extract nil [d; d'] 5) = Ok (info_of [(d, (R1, Rdiv 1 2)); (d', (R1, Rdiv 1 2))] d').
Proof.
  move=> I I'. have V : used 5 [d; d'] = [(d, (R1, Rdiv 1 2)); (d', (R1, Rdiv 1 2))] by rewrite /used /= !half_picked.
  rewrite -V. apply/extract_iff. exists d', (R1, Rdiv 1 2), [(d, (R1, Rdiv 1 2))]. split=> //. split=> // q [u [J Q]].
  have Z : q = (R0, R0) \/ q = (R1, R0).
  { move: J; rewrite V /= => [[J|[J|[]]]]; rewrite -J /= in Q; [case: I|case: I'] => K; rewrite K /= in Q; exact: Q. }
  rewrite /outside /ltb. case: Z => -> /=; case: Rlt_dec => A; try lra; case: Rlt_dec => B; try lra; by [].
Qed.
Lemma ba_ok : exists w, plain (mkG 1 1 1 1 1 1) (Invert (ex_args [dv_b; dv_a])) = Ok (OModel (Some w)).
Proof.
  have B := both_extract (or_intror erefl : dv_b = dv_a \/ dv_b = dv_b) (or_introl erefl : dv_a = dv_a \/ dv_a = dv_b).
  have G : good_grid (mkG 1 1 1 1 1 1) by rewrite /good_grid /=; lra.
  have C : forall c, In c [Rdiv 1 2; Rdiv 1 2] -> Rlt 0 c /\ Rlt c 1 by move=> c [<-|[<-|[]]]; lra.
  have S : step_fits (middle R1 (Rplus R1 (Rplus R1 R1))) (g_dt (mkG 1 1 1 1 1 1)) by exists 2%nat; rewrite /middle /=; lra.
  have H0 : Rlt 0 1 by lra. have H1 : R1 <> R0 by exact: R1_neq_R0. have H2 : Rle 0 1 by lra. have H3 : Rlt R1 (Rplus R1 (Rplus R1 R1)) by lra. have H4 : Rlt R1 (Rplus R1 R1) by lra.
  have [ks [vs [icm [w [_ [_ [_ [E _]]]]]]]] := C93_inversion (pairs := [(R0, R0, (R1, R0)); (R0, R0, (R1, R0))]) [R1; R1] G H0 H1 H1 H2 H3 S H2 H4 C erefl.
  exists w. rewrite invert_dv_grid. rewrite -[snd (extract nil _ _)]/(snd (extract nil [dv_b; dv_a] 5)) B. cbn [bind]. rewrite settings_of.
  rewrite /setting_of. cbn -[dv_grid]. rewrite (_ : dv_grid _ _ _ _ _ _ _ _ _ _ _ = Ok (Some w)) //; exact: E.
Qed.
(** The order decides whether the inversion is possible. *)
Theorem C101_order_refuted : exists g l l', Permutation l l' /\
  (exists w, snd (run (new_grid g) (Invert (ex_args l))) = Ok (OModel (Some w))) /\ snd (run (new_grid g) (Invert (ex_args l'))) = Raise AttributeError.
Proof.
  exists (mkG 1 1 1 1 1 1), [dv_b; dv_a], [dv_a; dv_b]. split; first exact: perm_swap.
  have [-> _] := run_ok (Invert (ex_args [dv_b; dv_a])) (new_inv (mkG 1 1 1 1 1 1)). have [-> _] := run_ok (Invert (ex_args [dv_a; dv_b])) (new_inv (mkG 1 1 1 1 1 1)).
  split; first exact: ba_ok.
  have B := both_extract (or_introl erefl : dv_a = dv_a \/ dv_a = dv_b) (or_intror erefl : dv_b = dv_a \/ dv_b = dv_b).
  rewrite invert_dv_grid. by rewrite -[snd (extract nil _ _)]/(snd (extract nil [dv_a; dv_b] 5)) B.
Qed.
Print Assumptions C101_order_refuted.

(** ** non-vacuity *)
(** two velocity changes with the same settings, in both orders, after a call that failed *)
Example C100_example : let g := mkG 1 1 1 1 1 1 in uniform (ex_args [dv_a; dv_a]) /\ ~ usable (ex_args nil) (mkDV [0]%Z [1]%Z [Some R1] [Some R1] (R0, R0) (R0, R0) None) /\
  snd (run (new_grid g) (Invert (ex_args [dv_b]))) = Raise AttributeError /\
  exists w, snd (run (runs (new_grid g) [:: Invert (ex_args [dv_b])]) (Invert (ex_args [dv_b; dv_a]))) = Ok (OModel (Some w)).
Proof.
  split; first by move=> d d' [<-|[<-|[]]] [<-|[<-|[]]]. split; first by []. split.
  - have [-> _] := run_ok (Invert (ex_args [dv_b])) (new_inv (mkG 1 1 1 1 1 1)). rewrite invert_dv_grid [a_dvs _]/=.
    have V : used 5 [dv_b] = [(dv_b, (R1, Rdiv 1 2))] by rewrite /used /= half_picked; auto.
    have -> : snd (extract nil [dv_b] 5) = Ok (info_of [(dv_b, (R1, Rdiv 1 2))] dv_b); last by [].
    rewrite -V. apply/extract_iff. exists dv_b, (R1, Rdiv 1 2), nil. split=> //. split=> // q [u [J Q]].
    have Z : q = (R0, R0) \/ q = (R1, R0) by move: J; rewrite V /= => [[J|[]]]; rewrite -J /= in Q.
    rewrite /outside /ltb. case: Z => -> /=; case: Rlt_dec => A; try lra; case: Rlt_dec => B; try lra; by [].
  - rewrite history. have [-> _] := run_ok (Invert (ex_args [dv_b; dv_a])) (new_inv (mkG 1 1 1 1 1 1)).
    exact: ba_ok.
Qed.
