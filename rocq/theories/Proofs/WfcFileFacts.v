(** Proofs about files of waveform coherences. *)
From Coq Require Import QArith.
From Verif Require Import Lib.Base Lib.Str Model.DVFile Model.Wfc Spec.DVFileSpec Spec.WfcSpec Proofs.DVFileFacts.
Local Open Scope list_scope.

Lemma mem_in k l : mem k l = true <-> In k l.
Proof. unfold mem. rewrite existsb_exists. split; [intros (x & I & E); apply String.eqb_eq in E; now subst|intros I; exists k; split; [exact I|apply String.eqb_refl]]. Qed.
Lemma distinct_nodup l : distinct l = true <-> NoDup l.
Proof.
  induction l as [|k l IH]; cbn; [split; [constructor|reflexivity]|]. rewrite andb_true_iff, negb_true_iff, IH. split.
  - intros [A B]. constructor; [|exact B]. intros I. apply mem_in in I. congruence.
  - intros H. inversion H; subst. split; [|assumption]. destruct (mem k l) eqn:E; [|reflexivity]. apply mem_in in E. contradiction.
Qed.
Lemma ref_name_substr k : ref_name k -> is_substr "reftr" k = true.
Proof.
  intros [H _]. destruct k as [|a k]; [discriminate|]. cbn [is_substr]. apply orb_true_iff. left. revert H. cbn [is_prefix].
  do 4 (destruct k as [|? k]; [rewrite ?andb_false_r; discriminate|]). cbn [is_prefix]. rewrite !andb_true_iff. tauto.
Qed.
Lemma nodup_app {A} (a b : list A) : NoDup a -> NoDup b -> (forall x, In x a -> ~ In x b) -> NoDup (a ++ b).
Proof.
  induction 1 as [|x a N H IH]; intros B D; [exact B|]. cbn. constructor.
  - rewrite in_app_iff. intros [I|I]; [contradiction|]. apply (D x); [now left|exact I].
  - apply IH; [exact B|]. intros y I. apply D. now right.
Qed.

Definition unwrapped (p : pval) : pval := PArr0 (match p with PArr0 q => q | q => q end).
Lemma zero_d_n0 p : zero_d (N0 p) = Some (unwrapped p). Proof. now destruct p. Qed.
Section File.
  Context (w : wfc_obj).
  Hypothesis OK : storable w.
  Let avs := map (fun kv : string * pval => (fst kv, N0 (snd kv))) (f_av w).
  Let refs := map (fun kv : string * arr => (fst kv, NArr (snd kv))) (f_refs w).
  Let procs := map (fun kv : string * pval => (fst kv, N0 (snd kv))) (f_proc w).
  Let heads := map stored (f_stats w).
  Let mean := ("mean"%string, match f_mean w with Some m => N0 m | None => NArr [] end).
  Let entries_ok : Forall entry_ok (f_stats w).
  Proof. destruct (st_header w OK) as [_ F]. eapply Forall_impl; [|exact F]. intros kv H. exact (proj1 H). Qed.
  Let head_key k : In k (map fst heads) -> is_av k = false /\ is_substr "reftr" k = false /\ k <> "mean"%string /\ mem k no_stats = false.
  Proof.
    unfold heads. rewrite map_map. intros I. apply in_map_iff in I. destruct I as ([k' v] & <- & I). cbn [fst].
    destruct (st_header w OK) as [_ F]. rewrite Forall_forall in F. destruct (F _ I) as ((N & _) & A & B & C). now repeat split.
  Qed.
  Let proc_key k : In k (map fst procs) -> In k ["tw_start"; "tw_len"; "freq_min"; "freq_max"]%string.
  Proof. unfold procs. destruct (st_proc w OK) as (a & b & c & d & ->). cbn. tauto. Qed.
  Let proc_keys : map fst procs = ["tw_start"; "tw_len"; "freq_min"; "freq_max"]%string.
  Proof. unfold procs. destruct (st_proc w OK) as (a & b & c & d & ->). reflexivity. Qed.
  Let nodup_procs : NoDup (map fst procs).
  Proof. rewrite proc_keys. apply distinct_nodup. reflexivity. Qed.
  Let proc_not_head k : In k (map fst procs) -> ~ In k (map fst heads).
  Proof.
    intros I. apply reserved_not_in; [exact entries_ok|]. left. apply proc_key in I. cbn in I. destruct I as [<-|[<-|[<-|[<-|[]]]]]; reflexivity.
  Qed.
  Let av_key k : In k (map fst avs) -> is_av k = true.
  Proof. unfold avs. rewrite map_map. intros I. apply in_map_iff in I. destruct I as (kv & <- & I). destruct (st_av w OK) as [_ F]. rewrite Forall_forall in F. now apply F. Qed.
  Let ref_key k : In k (map fst refs) -> is_av k = false /\ is_substr "reftr" k = true.
  Proof.
    unfold refs. rewrite map_map. intros I. apply in_map_iff in I. destruct I as (kv & <- & I). destruct (st_refs w OK) as [_ F]. rewrite Forall_forall in F.
    split; [exact (proj2 (F kv I))|]. apply ref_name_substr. exact (F kv I).
  Qed.

  Lemma save_wfc_ok : save_wfc w = Ok (mean :: avs ++ refs ++ heads ++ procs).
  Proof.
    unfold save_wfc. rewrite save_header_ok by exact entries_ok. cbn [bind]. fold heads. rewrite update_new.
    - fold avs refs procs mean. replace (distinct _) with true; [reflexivity|]. symmetry. apply distinct_nodup.
      cbn [map]. rewrite !map_app. change (fst mean) with "mean"%string.
      assert (HP : NoDup (map fst heads ++ map fst procs)).
      { apply nodup_app; [|exact nodup_procs|intros k H P; now apply (proc_not_head k)]. unfold heads. rewrite map_map. exact (proj1 (st_header w OK)). }
      assert (HPK : forall k, In k (map fst heads ++ map fst procs) -> is_av k = false /\ is_substr "reftr" k = false /\ k <> "mean"%string).
      { intros k I. apply in_app_or in I. destruct I as [I|I]; [destruct (head_key k I) as (A & B & C & _); now repeat split|].
        apply proc_key in I. cbn in I. destruct I as [<-|[<-|[<-|[<-|[]]]]]; repeat split; discriminate. }
      assert (R : NoDup (map fst refs ++ map fst heads ++ map fst procs)).
      { apply nodup_app; [|exact HP|].
        - unfold refs. rewrite map_map. exact (proj1 (st_refs w OK)).
        - intros k A B. apply ref_key in A. apply HPK in B. destruct A as [_ A], B as (_ & B & _). congruence. }
      constructor.
      + intros I. apply in_app_or in I. destruct I as [I|I]; [apply av_key in I; discriminate|]. apply in_app_or in I.
        destruct I as [I|I]; [apply ref_key in I; destruct I; discriminate|]. apply HPK in I. destruct I as (_ & _ & I). now apply I.
      + apply nodup_app; [|exact R|].
        * unfold avs. rewrite map_map. exact (proj1 (st_av w OK)).
        * intros k A B. apply av_key in A. apply in_app_or in B. destruct B as [B|B]; [apply ref_key in B|apply HPK in B]; destruct B as [B _]; congruence.
    - exact nodup_procs.
    - exact proc_not_head.
  Qed.

  Let sort_avs l : (forall k, In k (map fst l) -> is_av k = true) -> forall s, fold_left sort_member l s = mkSM (s_av s ++ l) (s_mean s) (s_refs s) (s_stats s).
  Proof.
    induction l as [|kv l IH]; intros H s; [rewrite app_nil_r; now destruct s|]. cbn [fold_left]. rewrite IH by (intros k I; apply H; now right).
    unfold sort_member. rewrite (H (fst kv)) by now left. cbn. now rewrite <- app_assoc.
  Qed.
  Let sort_refs l : (forall k, In k (map fst l) -> is_av k = false /\ is_substr "reftr" k = true) -> forall s,
    fold_left sort_member l s = mkSM (s_av s) (s_mean s) (s_refs s ++ l) (s_stats s).
  Proof.
    induction l as [|kv l IH]; intros H s; [rewrite app_nil_r; now destruct s|]. cbn [fold_left]. rewrite IH by (intros k I; apply H; now right).
    destruct (H (fst kv)) as [A B]; [now left|]. unfold sort_member. rewrite A.
    destruct (String.eqb_spec (fst kv) "mean") as [E|E]; [rewrite E in B; discriminate|]. rewrite B. cbn. now rewrite <- app_assoc.
  Qed.
  Let sort_stats l : (forall k, In k (map fst l) -> is_av k = false /\ is_substr "reftr" k = false /\ k <> "mean"%string) -> forall s,
    fold_left sort_member l s = mkSM (s_av s) (s_mean s) (s_refs s) (s_stats s ++ l).
  Proof.
    induction l as [|kv l IH]; intros H s; [rewrite app_nil_r; now destruct s|]. cbn [fold_left]. rewrite IH by (intros k I; apply H; now right).
    destruct (H (fst kv)) as (A & B & C); [now left|]. unfold sort_member. rewrite A.
    destruct (String.eqb_spec (fst kv) "mean") as [E|E]; [contradiction|]. rewrite B. cbn. now rewrite <- app_assoc.
  Qed.
  Let proc_at k p : In (k, p) (f_proc w) -> number_member (heads ++ procs) k = Ok (k, unwrapped p).
  Proof.
    intros I. unfold number_member, member. rewrite dget_app.
    assert (J : In k (map fst procs)) by (unfold procs; rewrite map_map; apply in_map_iff; now exists (k, p)).
    rewrite (dget_none heads) by now apply proc_not_head.
    assert (E : dget procs k = Some (N0 p)).
    { unfold procs. destruct (st_proc w OK) as (a & b & c & d & E). rewrite E in *. cbn in I.
      destruct I as [[= <- <-]|[[= <- <-]|[[= <- <-]|[[= <- <-]|[]]]]]; reflexivity. }
    rewrite E. cbn [bind]. now rewrite zero_d_n0.
  Qed.
  Lemma read_save_wfc : (do f <- save_wfc w; read_wfc f) =
    Ok (mkWO (f_refs w) (map (fun kv => (fst kv, unwrapped (snd kv))) (f_av w)) (option_map unwrapped (f_mean w)) (f_stats w)
             (map (fun kv => (fst kv, unwrapped (snd kv))) (f_proc w))).
  Proof.
    rewrite save_wfc_ok. cbn [bind]. unfold read_wfc.
    replace (existsb _ _) with false.
    2:{ symmetry. apply not_true_is_false. rewrite existsb_exists. intros ((k & n) & I & E). cbn in E. destruct n; try discriminate.
        destruct I as [I|I]; [unfold mean in I; destruct (f_mean w); discriminate|]. apply in_app_or in I. destruct I as [I|I]; [unfold avs in I; apply in_map_iff in I; destruct I as (? & ? & _); discriminate|].
        apply in_app_or in I. destruct I as [I|I]; [unfold refs in I; apply in_map_iff in I; destruct I as (? & ? & _); discriminate|].
        apply in_app_or in I. destruct I as [I|I]; [|unfold procs in I; apply in_map_iff in I; destruct I as (? & ? & _); discriminate].
        unfold heads in I. apply in_map_iff in I. destruct I as ([k' v] & J & I). destruct (Forall_forall entry_ok (f_stats w)) as [F _].
        specialize (F entries_ok _ I). destruct F as (_ & _ & _ & F). unfold stored in J. cbn [fst snd] in *.
        destruct (mem k' t_keys); destruct v; try contradiction; discriminate. }
    cbn [fold_left]. rewrite !fold_left_app. rewrite (sort_avs avs) by exact av_key. rewrite (sort_refs refs) by exact ref_key.
    rewrite (sort_stats heads) by (intros k I; destruct (head_key k I) as (A & B & C & _); now repeat split).
    rewrite (sort_stats procs) by (intros k I; apply proc_key in I; cbn in I; destruct I as [<-|[<-|[<-|[<-|[]]]]]; repeat split; discriminate).
    unfold sort_member, mean. cbn [fst snd s_av s_mean s_refs s_stats]. change (is_av "mean") with false. cbn [String.eqb Ascii.eqb Bool.eqb app s_av s_mean s_refs s_stats].
    assert (P : mapM (number_member (heads ++ procs)) ["tw_start"; "tw_len"; "freq_min"; "freq_max"]%string = Ok (map (fun kv => (fst kv, unwrapped (snd kv))) (f_proc w))).
    { destruct (st_proc w OK) as (a & b & c & d & E). rewrite E. cbn [mapM map fst snd].
      rewrite (proc_at "tw_start" a), (proc_at "tw_len" b), (proc_at "freq_min" c), (proc_at "freq_max" d) by (rewrite E; cbn; tauto). reflexivity. }
    rewrite P. cbn [bind]. rewrite load_header_app. unfold heads at 1. rewrite load_header_stored by exact entries_ok. cbn [bind].
    assert (LP : load_header procs = Ok []).
    { unfold procs. destruct (st_proc w OK) as (a & b & c & d & ->). reflexivity. }
    rewrite LP. cbn [bind]. rewrite app_nil_r.
    assert (AV : mapM (fun kv : string * npv => match zero_d (snd kv) with Some p => Ok (fst kv, p) | None => Raise TypeError end) avs =
                 Ok (map (fun kv => (fst kv, unwrapped (snd kv))) (f_av w))).
    { unfold avs. clear. induction (f_av w) as [|[k p] l IH]; [reflexivity|]. cbn [map mapM fst snd]. rewrite zero_d_n0. cbn [bind]. now rewrite IH. }
    rewrite AV. cbn [bind].
    assert (RF : mapM (fun kv : string * npv => do a <- as_arr (snd kv); Ok (fst kv, a)) refs = Ok (f_refs w)).
    { unfold refs. clear. induction (f_refs w) as [|[k p] l IH]; [reflexivity|]. cbn [map mapM fst snd as_arr bind]. now rewrite IH. }
    rewrite RF. cbn [bind]. destruct (f_mean w) as [m|]; [rewrite zero_d_n0|]; reflexivity.
  Qed.
End File.
Lemma strip_unwrapped p : strip (unwrapped p) = strip p. Proof. now destruct p. Qed.
