(** Proofs about Model.DVFile. *)
From Coq Require Import QArith.
From Verif Require Import Lib.Base Lib.Str Model.DVFile Spec.DVFileSpec.
Local Open Scope string_scope.

Lemma mapM_app {A B} (f : A -> result B) l1 l2 :
  mapM f (l1 ++ l2) = (do a <- mapM f l1; do b <- mapM f l2; Ok (a ++ b)%list).
Proof.
  induction l1 as [|x r IH]; cbn.
  - destruct (mapM f l2); reflexivity.
  - destruct (f x); cbn; [|reflexivity]. rewrite IH. destruct (mapM f r); cbn; [|reflexivity]. destruct (mapM f l2); reflexivity.
Qed.
Lemma dget_app {V} (a b : list (string * V)) k : dget (a ++ b) k = match dget a k with Some v => Some v | None => dget b k end.
Proof. induction a as [|[k' v] r IH]; cbn; [reflexivity|]. destruct (String.eqb k k'); [reflexivity|exact IH]. Qed.
Lemma dget_none {V} (a : list (string * V)) k : ~ In k (map fst a) -> dget a k = None.
Proof.
  induction a as [|[k' v] r IH]; cbn; intros H; [reflexivity|].
  destruct (String.eqb_spec k k') as [->|N]; [exfalso; apply H; now left|]. apply IH. tauto.
Qed.
Lemma dset_new {V} (d : list (string * V)) k v : ~ In k (map fst d) -> dset d k v = (d ++ [(k, v)])%list.
Proof.
  induction d as [|[k' v'] r IH]; cbn; intros H; [reflexivity|].
  destruct (String.eqb_spec k k') as [->|N]; [exfalso; apply H; now left|]. f_equal. apply IH. tauto.
Qed.
Lemma update_new {V} (new : list (string * V)) : forall d, NoDup (map fst new) -> (forall k, In k (map fst new) -> ~ In k (map fst d)) ->
  update d new = (d ++ new)%list.
Proof.
  induction new as [|[k v] r IH]; intros d N H; cbn; [now rewrite app_nil_r|].
  inversion N; subst. unfold update in IH. cbn [fst snd]. rewrite dset_new by (apply H; now left). rewrite IH; [now rewrite <- app_assoc|assumption|].
  intros k' K. rewrite map_app, in_app_iff. cbn. intros [I|[<-|[]]].
  - apply (H k'); [now right|exact I].
  - contradiction.
Qed.

(** what a header entry becomes in the file *)
Definition stored (kv : string * hval) : string * npv :=
  (fst kv, if mem (fst kv) t_keys then match snd kv with HTime t => NStamps [t] | HTimes l => NStamps l | _ => NObj end
           else np_wrap (snd kv)).
Lemma save_header_ok h : Forall entry_ok h -> save_header h = Ok (map stored h).
Proof.
  induction 1 as [|[k v] r (A & B & C & D) F IH]; [reflexivity|]. unfold save_header in *. cbn [mapM]. rewrite IH.
  change (map stored ((k, v) :: r)) with (stored (k, v) :: map stored r). generalize (map stored r). intros l.
  unfold stored. cbn [fst snd] in *. destruct (mem k t_keys); [|reflexivity].
  destruct v; try contradiction; reflexivity.
Qed.
Lemma load_stored kv : entry_ok kv -> load_member (stored kv) = Ok [kv].
Proof.
  destruct kv as [k v]. intros (A & B & C & D). unfold load_member, stored. cbn [fst snd] in *. rewrite A, B. cbn [orb].
  destruct (mem k t_keys).
  - destruct v; try contradiction; cbn; [reflexivity|]. destruct l as [|t [|t' l]]; try reflexivity. cbn in D. lia.
  - destruct v; try contradiction; reflexivity.
Qed.
Lemma load_header_app a b : load_header (a ++ b) = (do x <- load_header a; do y <- load_header b; Ok (x ++ y)%list).
Proof.
  unfold load_header. rewrite mapM_app. destruct (mapM load_member a); cbn; [|reflexivity].
  destruct (mapM load_member b); cbn; [|reflexivity]. now rewrite concat_app.
Qed.
Lemma load_header_stored h : Forall entry_ok h -> load_header (map stored h) = Ok h.
Proof.
  induction 1 as [|kv r E F IH]; [reflexivity|].
  change (map stored (kv :: r)) with ([stored kv] ++ map stored r)%list. rewrite load_header_app, IH.
  unfold load_header. cbn [mapM]. rewrite load_stored by exact E. reflexivity.
Qed.

(** names used by the format are not in the header *)
Lemma reserved_not_in h k : Forall entry_ok h -> mem k no_stats = true \/ mem k ["stretches"; "corrs"; "n_stat"] = true ->
  ~ In k (map fst (map stored h)).
Proof.
  intros F H I. rewrite map_map in I. apply in_map_iff in I as ([k' v] & E & I). cbn in E. subst k'.
  rewrite Forall_forall in F. destruct (F _ I) as (A & B & C & _). cbn [fst] in *. destruct H; congruence.
Qed.

Definition proc_part (p : option (list (string * pval))) : list (string * npv) :=
  match p with
  | None | Some [] => []
  | Some p => let num k := match dget p k with Some v => v | None => PNum 0 end in
     [("freq_min", N0 (num "freq_min")); ("freq_max", N0 (num "freq_max")); ("tw_len", N0 (num "tw_len")); ("tw_start", N0 (num "tw_start"));
      ("sides", N0 (get_p "sides" p (PStr "unknown"))); ("aligned", N0 (get_p "aligned" p (PBool false)))]
  end.
Definition arr_part (d : dv) : list (string * npv) :=
  ([("method_array", NText (dv_method d)); ("vt_array", NText (dv_type d)); ("corr", NArr (dv_corr d));
    ("value", NArr (dv_value d)); ("sim_mat", NArr (dv_sim d)); ("second_axis", NArr (dv_axis d))]
     ++ some_arr "stretches" (dv_stretches d) ++ some_arr "corrs" (dv_corrs d) ++ some_arr "n_stat" (dv_nstat d))%list.

Lemma arr_part_keys d k : In k (map fst (arr_part d)) ->
  In k ["method_array"; "vt_array"; "corr"; "value"; "sim_mat"; "second_axis"; "stretches"; "corrs"; "n_stat"].
Proof. unfold arr_part. destruct (dv_stretches d), (dv_corrs d), (dv_nstat d); cbn; intuition. Qed.
Lemma arr_part_nodup d : NoDup (map fst (arr_part d)).
Proof.
  unfold arr_part. destruct (dv_stretches d), (dv_corrs d), (dv_nstat d); cbn;
    repeat (constructor; [cbn; intuition discriminate|]); constructor.
Qed.

Lemma save_ok d : header_ok (dv_stats d) -> proc_ok (dv_proc d) ->
  save d = Ok (map stored (dv_stats d) ++ proc_part (dv_proc d) ++ arr_part d)%list.
Proof.
  intros [N F] P. unfold save. rewrite save_header_ok by exact F. cbn [bind].
  fold (arr_part d).
  assert (U : forall x, (forall k, In k (map fst x) -> mem k no_stats = true \/ mem k ["stretches"; "corrs"; "n_stat"] = true) -> NoDup (map fst x) ->
    update (map stored (dv_stats d)) x = (map stored (dv_stats d) ++ x)%list).
  { intros x X NX. apply update_new; [exact NX|]. intros k K. apply reserved_not_in; auto. }
  assert (UA : forall x, (forall k, In k (map fst x) -> ~ In k ["method_array"; "vt_array"; "corr"; "value"; "sim_mat"; "second_axis"; "stretches"; "corrs"; "n_stat"]) ->
    update (map stored (dv_stats d) ++ x) (arr_part d) = (map stored (dv_stats d) ++ x ++ arr_part d)%list).
  { intros x X. rewrite update_new; [now rewrite <- app_assoc|apply arr_part_nodup|].
    intros k K. apply arr_part_keys in K. rewrite map_app, in_app_iff. intros [I|I].
    - revert I. apply reserved_not_in; [exact F|]. cbn in K. intuition subst; cbn; auto.
    - exact (X k I K). }
  destruct (dv_proc d) as [[|e p]|] eqn:DP.
  - cbn [bind proc_part app]. rewrite <- (app_nil_r (map stored (dv_stats d))) at 1. rewrite UA by (intros k []). reflexivity.
  - cbn [proc_ok] in P.
    destruct (P "freq_min") as [q1 E1]; [cbn; tauto|]. destruct (P "freq_max") as [q2 E2]; [cbn; tauto|].
    destruct (P "tw_start") as [q3 E3]; [cbn; tauto|]. destruct (P "tw_len") as [q4 E4]; [cbn; tauto|].
    unfold lookup_p. rewrite E1, E2, E3, E4. cbn [bind]. unfold proc_part. rewrite E1, E2, E3, E4. cbv beta zeta.
    rewrite U.
    + rewrite UA; [reflexivity|]. cbn. intros k K. intuition (subst; discriminate).
    + cbn. intros k K. intuition (subst; cbn; auto).
    + cbn. repeat (constructor; [cbn; intuition discriminate|]). constructor.
  - cbn [bind proc_part app]. rewrite <- (app_nil_r (map stored (dv_stats d))) at 1. rewrite UA by (intros k []). reflexivity.
Qed.

(** entries that appear in the header of the object that is read *)
Definition first_row (k : string) (o : option arr) : list (string * hval) :=
  match o with Some (r :: _) => [(k, HArr r)] | _ => [] end.
Definition wrap0 (p : pval) : pval := match p with PArr0 q => PArr0 q | _ => PArr0 p end.
Definition read_proc (p : option (list (string * pval))) : list (string * pval) :=
  match p with
  | None | Some [] => []
  | Some p => let num k := match dget p k with Some v => v | None => PNum 0 end in
     [("freq_min", num "freq_min"); ("freq_max", num "freq_max"); ("tw_start", num "tw_start"); ("tw_len", num "tw_len");
      ("sides", wrap0 (get_p "sides" p (PStr "unknown"))); ("aligned", wrap0 (get_p "aligned" p (PBool false)))]
  end.

Lemma read_save d : header_ok (dv_stats d) -> proc_ok (dv_proc d) ->
  (do f <- save d; read_dv f) = Ok (mkDV (dv_corr d) (dv_value d) (dv_type d) (dv_sim d) (dv_axis d) (dv_method d)
    (dv_stats d ++ first_row "stretches" (dv_stretches d) ++ first_row "corrs" (dv_corrs d) ++ first_row "n_stat" (dv_nstat d))%list
    (dv_stretches d) (dv_corrs d) (dv_nstat d) (Some (read_proc (dv_proc d)))).
Proof.
  intros HO P. rewrite save_ok by assumption. destruct HO as [N F]. cbn [bind].
  set (rest := (proc_part (dv_proc d) ++ arr_part d)%list).
  assert (M : forall k, mem k no_stats = true \/ mem k ["stretches"; "corrs"; "n_stat"] = true ->
    dget (map stored (dv_stats d) ++ rest) k = dget rest k).
  { intros k K. rewrite dget_app, (dget_none (map stored (dv_stats d))) by (apply reserved_not_in; auto). reflexivity. }
  assert (LH : load_header (map stored (dv_stats d) ++ rest) =
    Ok (dv_stats d ++ first_row "stretches" (dv_stretches d) ++ first_row "corrs" (dv_corrs d) ++ first_row "n_stat" (dv_nstat d))%list).
  { rewrite load_header_app, load_header_stored by exact F. cbn [bind]. unfold rest. rewrite load_header_app.
    replace (load_header (proc_part (dv_proc d))) with (Ok (@nil (string * hval))) by (destruct (dv_proc d) as [[|e p]|]; reflexivity).
    cbn [bind app]. unfold arr_part. rewrite load_header_app.
    change (load_header [("method_array", NText (dv_method d)); ("vt_array", NText (dv_type d)); ("corr", NArr (dv_corr d));
      ("value", NArr (dv_value d)); ("sim_mat", NArr (dv_sim d)); ("second_axis", NArr (dv_axis d))]) with (Ok (@nil (string * hval))).
    cbn [bind app].
    destruct (dv_stretches d) as [[|? ?]|], (dv_corrs d) as [[|? ?]|], (dv_nstat d) as [[|? ?]|]; reflexivity. }
  unfold read_dv. rewrite LH. cbn [bind].
  unfold member, float_member, member, get_0d, opt_arr. rewrite !M by (cbn; auto).
  assert (R : forall k, In k ["method_array"; "vt_array"; "corr"; "value"; "sim_mat"; "second_axis"; "stretches"; "corrs"; "n_stat"] ->
    dget rest k = dget (arr_part d) k).
  { intros k K. unfold rest. rewrite dget_app, (dget_none (proc_part (dv_proc d))); [reflexivity|].
    destruct (dv_proc d) as [[|e p]|]; cbn in *; intuition (subst; discriminate). }
  rewrite (R "vt_array"), (R "method_array"), (R "corr"), (R "value"), (R "sim_mat"), (R "second_axis"), (R "stretches"), (R "corrs"), (R "n_stat") by (cbn; tauto).
  assert (A1 : dget (arr_part d) "stretches" = option_map NArr (dv_stretches d)) by (unfold arr_part; destruct (dv_stretches d), (dv_corrs d), (dv_nstat d); reflexivity).
  assert (A2 : dget (arr_part d) "corrs" = option_map NArr (dv_corrs d)) by (unfold arr_part; destruct (dv_stretches d), (dv_corrs d), (dv_nstat d); reflexivity).
  assert (A3 : dget (arr_part d) "n_stat" = option_map NArr (dv_nstat d)) by (unfold arr_part; destruct (dv_stretches d), (dv_corrs d), (dv_nstat d); reflexivity).
  rewrite A1, A2, A3. unfold arr_part. rewrite !dget_app. cbn [dget String.eqb Ascii.eqb Bool.eqb bind as_text as_arr].
  assert (PR : forall k, In k ["freq_min"; "freq_max"; "tw_start"; "tw_len"; "sides"; "aligned"] -> dget rest k = dget (proc_part (dv_proc d)) k).
  { intros k K. unfold rest. rewrite dget_app. destruct (dget (proc_part (dv_proc d)) k); [reflexivity|].
    apply dget_none. intros I. apply arr_part_keys in I. cbn in *. intuition (subst; discriminate). }
  rewrite (PR "freq_min"), (PR "freq_max"), (PR "tw_start"), (PR "tw_len"), (PR "sides"), (PR "aligned") by (cbn; tauto).
  destruct (dv_proc d) as [[|e p]|].
  - destruct (dv_stretches d), (dv_corrs d), (dv_nstat d); reflexivity.
  - cbn [proc_ok] in P.
    destruct (P "freq_min") as [q1 E1]; [cbn; tauto|]. destruct (P "freq_max") as [q2 E2]; [cbn; tauto|].
    destruct (P "tw_start") as [q3 E3]; [cbn; tauto|]. destruct (P "tw_len") as [q4 E4]; [cbn; tauto|].
    unfold proc_part, read_proc. rewrite E1, E2, E3, E4.
    generalize (get_p "sides" (e :: p) (PStr "unknown")) (get_p "aligned" (e :: p) (PBool false)). intros a b.
    destruct a, b, (dv_stretches d), (dv_corrs d), (dv_nstat d); reflexivity.
  - destruct (dv_stretches d), (dv_corrs d), (dv_nstat d); reflexivity.
Qed.

(** an entry that is not a text, a number, an array or a time *)
Lemma object_unreadable d k : ~ In k (map fst (dv_stats d)) -> header_ok (dv_stats d) -> proc_ok (dv_proc d) ->
  mem k t_keys = false -> mem k no_stats = false -> is_prefix "reftr" k = false -> mem k ["stretches"; "corrs"; "n_stat"]%string = false ->
  exists f, save (mkDV (dv_corr d) (dv_value d) (dv_type d) (dv_sim d) (dv_axis d) (dv_method d)
                    ((k, HObj) :: dv_stats d) (dv_stretches d) (dv_corrs d) (dv_nstat d) (dv_proc d)) = Ok f /\
            read_dv f = Raise ValueError.
Proof.
  intros NI HO P K1 K2 K3 K4. pose proof (save_ok d HO P) as S. unfold save in *. cbn [dv_stats dv_proc dv_corr dv_value dv_type dv_sim dv_axis dv_method dv_stretches dv_corrs dv_nstat].
  destruct HO as [N F]. rewrite save_header_ok in S by exact F. cbn [bind] in S.
  assert (SH : save_header ((k, HObj) :: dv_stats d) = Ok ((k, NObj) :: map stored (dv_stats d))).
  { pose proof (save_header_ok _ F) as E. unfold save_header in *. cbn [mapM fst snd]. rewrite K1, E. reflexivity. }
  rewrite SH. cbn [bind].
  assert (U : forall (new : list (string * npv)) l, (forall k', In k' (map fst new) -> k' <> k) -> update ((k, NObj) :: l) new = (k, NObj) :: update l new).
  { unfold update. induction new as [|[k' v] r IH]; intros l H; [reflexivity|]. cbn [fold_left fst snd].
    replace (dset ((k, NObj) :: l) k' v) with ((k, NObj) :: dset l k' v).
    - apply IH. intros k2 I. apply H. cbn. now right.
    - cbn [dset]. destruct (String.eqb_spec k' k) as [->|]; [exfalso; apply (H k); [now left|reflexivity]|reflexivity]. }
  assert (R : forall x, read_dv ((k, NObj) :: x) = Raise ValueError).
  { intros x. unfold read_dv, load_header. cbn [mapM load_member]. rewrite K1, K2, K3. reflexivity. }
  assert (NK : forall k', mem k' no_stats = true \/ mem k' ["stretches"; "corrs"; "n_stat"] = true -> k' <> k) by (intros k' [H|H] ->; congruence).
  fold (arr_part d) in *.
  destruct (dv_proc d) as [[|e p]|].
  - cbn [bind] in *. eexists. split; [reflexivity|]. rewrite U; [apply R|]. intros k' I. apply arr_part_keys in I. apply NK. cbn in I. intuition (subst; cbn; auto).
  - destruct (lookup_p "freq_min" (e :: p)), (lookup_p "freq_max" (e :: p)), (lookup_p "tw_len" (e :: p)), (lookup_p "tw_start" (e :: p)); try discriminate S. cbn [bind] in *.
    eexists. split; [reflexivity|]. rewrite U.
    + rewrite U; [apply R|]. intros k' I. apply arr_part_keys in I. apply NK. cbn in I. intuition (subst; cbn; auto).
    + cbn. intros k' I. apply NK. intuition (subst; cbn; auto).
  - cbn [bind] in *. eexists. split; [reflexivity|]. rewrite U; [apply R|]. intros k' I. apply arr_part_keys in I. apply NK. cbn in I. intuition (subst; cbn; auto).
Qed.
