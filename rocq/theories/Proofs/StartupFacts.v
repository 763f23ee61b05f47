(** The programs of the processes that start. *)
From Verif Require Import Lib.Base Lib.Str Model.Collectives Model.Stations Model.Startup Spec.CollectiveSpec Spec.StartupSpec Proofs.CollectiveFacts.
Local Open Scope nat_scope.

Section Steps.
  Context {P R : Type}.
  Lemma contributions_map k (pay : nat -> P) (nx : nat -> list P -> prog P R) l : contributions k (map (fun r => Coll k (pay r) (nx r)) l) = Some (map pay l).
  Proof. induction l as [|r l IH]; [reflexivity|]. cbn [map contributions]. rewrite IH. now destruct k. Qed.
  Lemma step_all k (pay : nat -> P) (nx : nat -> list P -> prog P R) n : 1 <= n ->
    mstep (map (fun r => Coll k (pay r) (nx r)) (seq 0 n)) = Some (map (fun r => nx r (map pay (seq 0 n))) (seq 0 n)).
  Proof.
    intros N. set (l := seq 0 n). assert (E : l <> []) by (unfold l; destruct n; [lia|discriminate]). clearbody l. destruct l as [|r l]; [congruence|]. cbn [map mstep].
    pose proof (contributions_map k pay nx (r :: l)) as C. cbn [map] in C. rewrite C. do 2 f_equal. rewrite map_map. reflexivity.
  Qed.
  Lemma completes_step (ps qs : list (prog P R)) rs : mstep ps = Some qs -> completes qs rs -> completes ps rs.
  Proof. intros E (n & H). exists (S n). cbn [mrun]. now rewrite E. Qed.
  Lemma deadlocks_step (ps qs : list (prog P R)) : mstep ps = Some qs -> deadlocks qs -> deadlocks ps.
  Proof. intros E (n & H). exists (S n). cbn [mrun]. now rewrite E. Qed.
  (** all return the same *)
  Lemma completes_all (x : R) n : completes (map (fun _ : nat => @Done P R x) (seq 0 n)) (repeat x n).
  Proof. exists 0. cbn [mrun]. generalize 0 as i. induction n as [|n IH]; intros i; [reflexivity|]. cbn [seq map repeat]. now rewrite IH. Qed.
  (** the first one has returned, the second one waits *)
  Lemma deadlock_first (f : nat -> prog P R) n x k p nx : 2 <= n -> f 0 = Done x -> f 1 = Coll k p nx -> deadlocks (map f (seq 0 n)).
  Proof.
    intros N E0 E1. destruct n as [|[|n]]; [lia|lia|]. exists 0. cbn [mrun seq map]. rewrite E0. split; [reflexivity|]. exists (f 1). split; [right; now left|]. now rewrite E1.
  Qed.
End Steps.

Section General.
  Context {P R : Type}.
  Lemma contributions_done k (ps : list (prog P R)) x : In (Done x) ps -> contributions k ps = None.
  Proof.
    induction ps as [|p ps IH]; [contradiction|]. intros [->|I]; [reflexivity|]. destruct p as [y|k' v nx]; [reflexivity|]. cbn [contributions]. rewrite (IH I). now destruct (ckind_eqb k k').
  Qed.
  Lemma stuck (ps : list (prog P R)) x p : In (Done x) ps -> In p ps -> ~ is_done p -> deadlocks ps.
  Proof.
    intros I J N. exists 0. cbn [mrun]. split; [|eauto]. destruct ps as [|[y|k v nx] ps]; [reflexivity|reflexivity|]. cbn [mstep]. now rewrite (contributions_done k _ x I).
  Qed.
End General.

(** a process has raised an exception, another one waits *)
Definition dies {P A : Type} (ps : list (prog P (result A))) : Prop :=
  exists n, (exists e, In (Done (Raise e)) (mrun n ps)) /\ exists p, In p (mrun n ps) /\ ~ is_done p.
Lemma dies_deadlocks {P A : Type} (ps : list (prog P (result A))) : dies ps -> deadlocks ps.
Proof. intros (n & (e & I) & p & J & N). destruct (stuck _ _ _ I J N) as (m & E & X). exists (n + m). rewrite mrun_add. split; [exact E|exact X]. Qed.
Lemma dies_step {P A : Type} (ps qs : list (prog P (result A))) : mstep ps = Some qs -> dies qs -> dies ps.
Proof. intros E (n & X). exists (S n). cbn [mrun]. now rewrite E. Qed.
Lemma dies_first {P A : Type} (f : nat -> prog P (result A)) n e k p nx : 2 <= n -> f 0 = Done (Raise e) -> f 1 = Coll k p nx -> dies (map f (seq 0 n)).
Proof.
  intros N E0 E1. destruct n as [|[|n]]; [lia|lia|]. exists 0. cbn [mrun seq map]. rewrite E0, E1. split; [exists e; now left|]. eexists. split; [right; now left|]. intros X. exact X.
Qed.

Section Start.
  Variable archive : list folder.
  Variables network station component : value.
  Notation searches n ps := (map (fun r => search archive component r ps) (seq 0 n)).
  Notation all_stations n := (map (stations archive network station component) (seq 0 n)).

  Lemma search_ok ps raw n : 1 <= n -> concatM (translate archive component) ps = Ok raw ->
    completes (searches n ps) (repeat (Ok (unique3 raw, unique2 (map fst (unique3 raw)))) n).
  Proof.
    intros N E. set (pay r := PRaw (if Nat.eqb r 0 then Some (unique3 raw) else None)).
    rewrite (map_ext _ (fun r => Coll Bcast (pay r) finish)) by (intros r; unfold search, pay; rewrite E; now destruct (Nat.eqb r 0)).
    eapply completes_step; [apply (step_all Bcast pay (fun _ => finish) n N)|]. cbn beta. destruct n as [|n]; [lia|].
    change (map pay (seq 0 (S n))) with (PRaw (Some (unique3 raw)) :: map pay (seq 1 n)). cbn [finish]. apply completes_all.
  Qed.
  Lemma search_fails ps e n : 2 <= n -> concatM (translate archive component) ps = Raise e -> dies (searches n ps).
  Proof.
    intros N E. apply (dies_first _ n e Bcast (PRaw None) finish N).
    - unfold search. cbn [Nat.eqb]. now rewrite E.
    - reflexivity.
  Qed.
  Lemma sent_stations ns l n : 1 <= n -> unwrap network = Lst ns -> unwrap station = Str "*" -> concatM (available archive) ns = Ok l ->
    mstep (all_stations n) = Some (searches n l).
  Proof.
    intros N E1 E2 E. set (pay r := PStations (if Nat.eqb r 0 then Some l else None)).
    rewrite (map_ext _ (fun r => Coll Bcast (pay r) (received archive component r))) by (intros r; unfold stations, pay; rewrite E1, E2; cbn [String.eqb Ascii.eqb Bool.eqb]; rewrite E; now destruct (Nat.eqb r 0)).
    rewrite (step_all Bcast pay (fun r => received archive component r) n N). do 2 f_equal. destruct n as [|n]; [lia|]. reflexivity.
  Qed.
  Lemma shape_error n : pairs_of archive network station = Raise ValueError -> completes (all_stations n) (repeat (Raise ValueError) n) \/ exists ns, unwrap network = Lst ns /\ unwrap station = Str "*".
  Proof.
    unfold pairs_of, stations. intros H. destruct (unwrap network) as [a|ns|]; destruct (unwrap station) as [b|ss|]; try discriminate; try (left; apply completes_all).
    - destruct (_ && _); [left; apply completes_all|discriminate].
    - destruct (String.eqb_spec b "*") as [Q|NE]; [right; subst b; eauto|left; apply completes_all].
    - destruct (length ns =? length ss); [discriminate|left; apply completes_all].
  Qed.
  Lemma available_error ns e : concatM (available archive) ns = Raise e -> e <> ValueError.
  Proof.
    revert e. induction ns as [|x ns IH]; intros e; [discriminate|]. cbn [concatM]. destruct (available archive x) as [y|e'] eqn:A; cbn [bind].
    - destruct (concatM (available archive) ns) as [ys|e'']; [discriminate|]. cbn [bind]. intros Q. injection Q as <-. now apply IH.
    - intros Q. injection Q as <-. unfold available in A. destruct x as [s| |]; [|now injection A as <-|now injection A as <-]. destruct (map _ _); [now injection A as <-|discriminate].
  Qed.
  Lemma translate_error ps e : concatM (translate archive component) ps = Raise e -> e = TypeError.
  Proof.
    revert e. induction ps as [|x ps IH]; intros e; [discriminate|]. cbn [concatM]. destruct (translate archive component x) as [y|e'] eqn:A; cbn [bind].
    - destruct (concatM (translate archive component) ps) as [ys|e'']; [discriminate|]. cbn [bind]. intros Q. injection Q as <-. now apply IH.
    - intros Q. injection Q as <-. unfold translate in A. destruct (fst x); [|now injection A|now injection A]. destruct (snd x); [|now injection A|now injection A]. destruct component; [discriminate|now injection A|now injection A].
  Qed.

  (** the stations are the same on all processes *)
  Lemma stations_ok n x : 1 <= n -> find_stations archive network station component = Ok x -> completes (all_stations n) (repeat (Ok x) n).
  Proof.
    intros N. unfold find_stations. destruct (pairs_of archive network station) as [ps|] eqn:E; [|discriminate]. cbn [bind]. destruct (concatM (translate archive component) ps) as [raw|] eqn:T; [|discriminate]. cbn [bind]. intros Q. injection Q as <-.
    pose proof (search_ok ps raw n N T) as H. unfold pairs_of in E. destruct (unwrap network) as [a|ns|] eqn:U1; destruct (unwrap station) as [b|ss|] eqn:U2; try discriminate.
    - destruct (_ && _) eqn:C; [discriminate|]. injection E as <-. erewrite map_ext; [exact H|]. intros r. unfold stations. now rewrite U1, U2, C.
    - injection E as <-. erewrite map_ext; [exact H|]. intros r. unfold stations. now rewrite U1, U2.
    - destruct (String.eqb_spec b "*") as [Q|]; [subst b|discriminate]. eapply completes_step; [apply (sent_stations ns ps n N U1 U2 E)|]. exact H.
    - destruct (length ns =? length ss) eqn:C; [|discriminate]. injection E as <-. erewrite map_ext; [exact H|]. intros r. unfold stations. now rewrite U1, U2, C.
  Qed.
  Lemma stations_value_error n : find_stations archive network station component = Raise ValueError -> completes (all_stations n) (repeat (Raise ValueError) n).
  Proof.
    unfold find_stations. destruct (pairs_of archive network station) as [ps|e] eqn:E; cbn [bind].
    - destruct (concatM (translate archive component) ps) as [raw|e'] eqn:T; cbn [bind]; [discriminate|]. intros Q. injection Q as ->. now apply translate_error in T.
    - intros Q. injection Q as ->. destruct (shape_error n E) as [H|(ns & U1 & U2)]; [exact H|]. unfold pairs_of in E. rewrite U1, U2 in E. cbn [String.eqb Ascii.eqb Bool.eqb] in E. now apply available_error in E.
  Qed.
  Lemma stations_fail n e : 2 <= n -> find_stations archive network station component = Raise e -> e <> ValueError -> dies (all_stations n).
  Proof.
    intros N F NV. unfold find_stations in F. destruct (pairs_of archive network station) as [ps|e0] eqn:E; cbn [bind] in F.
    - destruct (concatM (translate archive component) ps) as [raw|e'] eqn:T; [discriminate|]. pose proof (search_fails ps e' n N T) as H. unfold pairs_of in E.
      destruct (unwrap network) as [a|ns|] eqn:U1; destruct (unwrap station) as [b|ss|] eqn:U2; try discriminate.
      + destruct (_ && _) eqn:C; [discriminate|]. injection E as <-. erewrite map_ext; [exact H|]. intros r. unfold stations. now rewrite U1, U2, C.
      + injection E as <-. erewrite map_ext; [exact H|]. intros r. unfold stations. now rewrite U1, U2.
      + destruct (String.eqb_spec b "*") as [Q|]; [subst b|discriminate]. eapply dies_step; [apply (sent_stations ns ps n ltac:(lia) U1 U2 E)|]. exact H.
      + destruct (length ns =? length ss) eqn:C; [|discriminate]. injection E as <-. erewrite map_ext; [exact H|]. intros r. unfold stations. now rewrite U1, U2, C.
    - injection F as ->. unfold pairs_of in E. destruct (unwrap network) as [a|ns|] eqn:U1; destruct (unwrap station) as [b|ss|] eqn:U2; try congruence.
      + destruct (_ && _); congruence.
      + destruct (String.eqb_spec b "*") as [Q|]; [subst b|congruence]. apply (dies_first _ n e Bcast (PStations None) (received archive component 1) N).
        * unfold stations. rewrite U1, U2. cbn [String.eqb Ascii.eqb Bool.eqb Nat.eqb]. now rewrite E.
        * unfold stations. rewrite U1, U2. reflexivity.
      + destruct (length ns =? length ss); congruence.
  Qed.

  Lemma start_step tr n : 1 <= n -> t_dirs tr = None ->
    mstep (start_all archive network station component tr n) =
    Some (map (fun r => match t_level tr with Some e => Done (Raise e) | None => at_root r (t_dump tr) (stations archive network station component r) end) (seq 0 n)).
  Proof.
    intros N D. unfold start_all. rewrite <- (step_all Bcast (fun _ => PStamp) (fun r _ => match t_level tr with Some e => Done (Raise e) | None => at_root r (t_dump tr) (stations archive network station component r) end) n N).
    f_equal. apply map_ext. intros r. unfold start, at_root at 1. rewrite D. now destruct (Nat.eqb r 0).
  Qed.
  Lemma at_root_none (f : nat -> prog sent found) n : map (fun r => at_root r None (f r)) (seq 0 n) = map f (seq 0 n).
  Proof. apply map_ext. intros r. unfold at_root. now destruct (Nat.eqb r 0). Qed.
  Lemma waits x : stations archive network station component 1 = Done x -> find_stations archive network station component = Raise ValueError.
  Proof.
    unfold stations, find_stations, pairs_of. destruct (unwrap network) as [a|ns|]; destruct (unwrap station) as [b|ss|]; cbn [search Nat.eqb]; try discriminate; try reflexivity.
    - now destruct (_ && _).
    - now destruct (String.eqb b _).
    - now destruct (length ns =? length ss).
  Qed.

  Lemma start_dies tr e n : 2 <= n -> first_process_fails archive network station component tr e -> find_stations archive network station component <> Raise ValueError ->
    dies (start_all archive network station component tr n).
  Proof.
    intros N [D|(D & L & F)] V.
    - apply (dies_first _ n e Bcast PStamp (fun _ => match t_level tr with Some e => Done (Raise e) | None => at_root 1 (t_dump tr) (stations archive network station component 1) end) N); [|reflexivity].
      unfold start, at_root at 1. cbn [Nat.eqb]. now rewrite D.
    - eapply dies_step; [apply start_step; [lia|assumption]|]. rewrite L. destruct F as [U|(U & NV & F)].
      + destruct (stations archive network station component 1) as [x|k p nx] eqn:E; [destruct V; now apply waits with x|].
        apply (dies_first _ n e k p nx N); unfold at_root; cbn [Nat.eqb]; [now rewrite U|exact E].
      + rewrite U, at_root_none. now apply stations_fail with e.
  Qed.
End Start.
