(** What batches leave in the files with recombine_subdivision and delete_subdivision. *)
From Coq Require Import QArith Qabs Qfield Reals Permutation Lia.
From Verif Require Import Lib.Base Lib.Str Lib.StrFacts Lib.Sorting Lib.Time Model.Partition Model.H5 Model.CorrTrace Model.CorrDB Model.Combos Model.Rerun Model.Flip Model.WriteOut Model.PxcorrLoop
  Spec.HeaderSpec Spec.DBSpec Proofs.PartitionFacts Proofs.OutputFacts Proofs.CorrDBFacts Proofs.HistoryFacts Model.RunToFiles Proofs.RunToFilesFacts.
From Verif Require Model.CorrStream Spec.StreamSpec Proofs.StreamFacts Proofs.StackFacts.
From Verif Require Import Model.Recombine Spec.RecombineSpec.
Local Open Scope string_scope.
Local Open Scope list_scope.
Local Open Scope nat_scope.

Lemma same_codes_iff a b : same_codesb a b = true <-> same_codes a b.
Proof. unfold same_codesb, same_codes. rewrite !Bool.andb_true_iff, !String.eqb_eq. tauto. Qed.

(** ** the stacks of a selection *)
Definition stacks (sel : list ctrace) : list ctrace := match stacked sel with Ok s => s | Raise _ => [] end.
Lemma stack_st_ok st : st <> [] -> exists o, CorrStream.stack_st "by_length" st = Ok o.
Proof.
  intros NE. unfold CorrStream.stack_st. destruct (CorrStream.sort_start st) as [|h r] eqn:E.
  - exfalso. apply NE. apply Permutation_nil. rewrite <- E. apply StreamFacts.sort_start_perm.
  - eexists. reflexivity.
Qed.

Lemma mapM_all {A B} (f : A -> result B) l : (forall x, In x l -> exists y, f x = Ok y) -> exists m, mapM f l = Ok m.
Proof.
  induction l as [|x l IH]; intros H; [now exists []|]. destruct (H x (or_introl eq_refl)) as (y & E). destruct IH as (m & M); [intros z I; apply H; now right|].
  exists (y :: m). cbn [mapM]. rewrite E. cbn [bind]. now rewrite M.
Qed.
Lemma stacked_ok sel : exists st, CorrStream.stack_by_group false "by_length" (map to_stream sel) = Ok st /\ stacked sel = Ok (map of_stream st) /\ stacks sel = map of_stream st.
Proof.
  destruct (mapM_all (fun g => CorrStream.stack_st "by_length" (snd g)) (CorrStream.groups false (map to_stream sel))) as (st & E).
  { intros [k l] I. cbn [snd]. apply stack_st_ok. destruct (StackFacts.groups_spec false (map to_stream sel)) as (_ & G & _). now destruct (G k l I). }
  exists st. split; [exact E|]. unfold stacks, stacked, CorrStream.stack, CorrStream.stack_by_group. rewrite E. now split.
Qed.
Definition dotless (tr : ctrace) : Prop := has_char "." (c_net tr) = false /\ has_char "." (c_sta tr) = false /\ has_char "." (c_cha tr) = false /\ has_char "." (c_loc tr) = false.

Lemma filter_map_stream (o : CorrStream.ctr) t sel : StreamSpec.same_id false (to_stream t) o -> filter (StreamSpec.same_idb false o) (map to_stream sel) = map to_stream (of_pair t sel).
Proof.
  intros (N & S & C & _). unfold of_pair. induction sel as [|x sel IH]; [reflexivity|]. cbn [map filter].
  replace (StreamSpec.same_idb false o (to_stream x)) with (same_codesb t x); [destruct (same_codesb t x); cbn [map]; now rewrite IH|].
  unfold StreamSpec.same_idb, same_codesb. rewrite <- N, <- S, <- C. cbn. now rewrite Bool.andb_true_r.
Qed.

(** the head and the end of a stack *)
Definition spans (l : list ctrace) (o : ctrace) : Prop :=
  exists h e, first_of l h /\ In e l /\ (forall t, In t l -> (c_start t <= c_start e)%Z) /\ c_start o = c_start h /\ c_end o = c_end e /\ c_lag o = c_lag h /\ c_sr o = c_sr h.

Lemma qsum_ext {A} (f g : A -> Q) l : (forall x, In x l -> (f x == g x)%Q) -> (qsum (map f l) == qsum (map g l))%Q.
Proof. induction l as [|x l IH]; intros H; [reflexivity|]. cbn. rewrite (H x) by now left. unfold qsum in IH. rewrite IH; [reflexivity|intros y I; apply H; now right]. Qed.
Lemma total_positive l : alike l -> l <> [] -> (0 < total_length l)%Q.
Proof.
  intros [_ P] NE. unfold total_length. assert (X : forall m, (forall a, In a m -> (c_start a < c_end a)%Z) -> (0 <= qsum (map (fun t => inject_Z (c_end t - c_start t)) m))%Q).
  { induction m as [|x m IH]; intros H; [apply Qle_refl|]. cbn. assert (Y : (0 < inject_Z (c_end x - c_start x))%Q) by (change 0%Q with (inject_Z 0); rewrite <- Zlt_Qlt; specialize (H x (or_introl eq_refl)); lia).
    assert (Z0 := IH (fun a I => H a (or_intror I))). unfold qsum in Z0. Lqa.lra. }
  destruct l as [|x l]; [congruence|]. cbn. assert (Y : (0 < inject_Z (c_end x - c_start x))%Q) by (change 0%Q with (inject_Z 0); rewrite <- Zlt_Qlt; specialize (P x (or_introl eq_refl)); lia).
  assert (Z0 := X l (fun a I => P a (or_intror I))). unfold qsum in Z0. Lqa.lra.
Qed.
Lemma longest_all l : alike l -> StreamSpec.longest (map to_stream l) = map to_stream l.
Proof.
  intros [L _]. unfold StreamSpec.longest. assert (X : forall m, (forall x, In x m -> In x l) -> filter (fun t => forallb (fun u => length (CorrStream.t_data u) <=? length (CorrStream.t_data t)) (map to_stream l)) (map to_stream m) = map to_stream m).
  { induction m as [|x m IH]; intros I; [reflexivity|]. cbn [map filter]. replace (forallb _ _) with true; [f_equal; apply IH; intros y J; apply I; now right|].
    symmetry. apply forallb_forall. intros u U. apply in_map_iff in U. destruct U as (y & <- & Y). cbn. rewrite !map_length. apply Nat.leb_le. destruct (L y x Y (I x (or_introl eq_refl))) as [-> _]. apply Nat.le_refl. }
  apply X. auto.
Qed.
Lemma average_of l i : alike l -> l <> [] -> (forall t, In t l -> i < length (c_data t)) -> exists x, StreamSpec.average_at true (map to_stream l) i = Some x /\ (x == weighted l i / total_length l)%Q.
Proof.
  intros A NE LT. unfold StreamSpec.average_at. rewrite longest_all by exact A. rewrite map_map. unfold StreamSpec.wmean.
  assert (D : flat_map (fun p => match snd p with Some x => [(fst p, x)] | None => [] end) (map (fun x => (StreamSpec.weight_of true (to_stream x), nth i (CorrStream.t_data (to_stream x)) None)) l) =
    map (fun t => (inject_Z (c_end t - c_start t), nth i (c_data t) 0%Q)) l).
  { clear NE A. induction l as [|x l IH]; [reflexivity|]. cbn [map flat_map fst snd]. rewrite IH by (intros t I; apply LT; now right).
    cbn [to_stream CorrStream.t_data]. rewrite (nth_indep _ None (Some 0%Q)) by (rewrite map_length; apply LT; now left). rewrite map_nth. reflexivity. }
  rewrite D, !map_map. cbn [fst snd]. pose proof (total_positive l A NE) as T. unfold total_length, qsum in T.
  destruct (Qeq_bool _ 0) eqn:Z0; [exfalso; apply Qeq_bool_iff in Z0; rewrite Z0 in T; now apply Qlt_irrefl in T|]. eexists. split; reflexivity.
Qed.
Lemma nth_default i (l : list Q) : nth i (map Some l) None = if i <? length l then Some (nth i l 0%Q) else None.
Proof.
  destruct (Nat.ltb_spec i (length l)) as [H|H]; [|apply nth_overflow; now rewrite map_length]. rewrite (nth_indep _ None (Some 0%Q)) by now rewrite map_length. now rewrite map_nth.
Qed.
Lemma stack_right l o : l <> [] -> CorrStream.stack_st "by_length" (map to_stream l) = Ok o ->
  spans l (of_stream o) /\ (exists t, In t l /\ same_codes t (of_stream o)) /\
  ((forall a b, In a l -> In b l -> same_codes a b) -> alike l -> not_zero l -> right_stack l (of_stream o)).
Proof.
  intros NE E. destruct (StackFacts.stack_header _ _ _ E) as (h & e & IH & IE & H1 & H2 & N & S & C & _ & ST & EN & SRR & LG & _).
  apply in_map_iff in IH. apply in_map_iff in IE. destruct IH as (h' & <- & IH). destruct IE as (e' & <- & IE). cbn [to_stream CorrStream.t_net CorrStream.t_sta CorrStream.t_cha CorrStream.t_start CorrStream.t_end CorrStream.t_sr CorrStream.t_lag] in *.
  assert (F1 : forall t, In t l -> (c_start h' <= c_start t)%Z) by (intros t I; exact (H1 (to_stream t) (in_map _ _ _ I))).
  assert (F2 : forall t, In t l -> (c_start t <= c_start e')%Z) by (intros t I; exact (H2 (to_stream t) (in_map _ _ _ I))).
  split; [exists h', e'; repeat split; assumption|]. split; [exists h'; split; [exact IH|]; repeat split; cbn; congruence|].
  intros SC A NZ. split; [intros t I; destruct (SC t h' I IH) as (X & Y & Z0); repeat split; cbn; congruence|].
  split; [exists h'; split; [now split|]; cbn; rewrite ST; repeat split; assumption|].
  split; [exists e'; split; [|cbn; now rewrite EN]; split; [exact IE|]; intros t I; split; [now apply F2|]; destruct A as [L _]; apply (L t e' I IE); now apply F2|].
  destruct (StackFacts.stack_average "by_length" true (map to_stream l) o) as (L1 & (t0 & I0 & L0) & SO & _); [now left|exact E| |].
  { intros _ t I. apply in_map_iff in I. destruct I as (x & <- & _). unfold StreamSpec.has_nan. cbn. induction (c_data x); [reflexivity|assumption]. }
  apply in_map_iff in I0. destruct I0 as (t1 & <- & I1). cbn [to_stream CorrStream.t_data] in L0. rewrite map_length in L0.
  assert (LEN : forall t, In t l -> length (CorrStream.t_data o) = length (c_data t)) by (intros t I; rewrite <- L0; destruct A as [L _]; apply (L t1 t I1 I)).
  split; [intros t I; cbn; rewrite map_length; now apply LEN|].
  assert (AV : forall i, i < length (CorrStream.t_data o) -> exists x, StreamSpec.average_at true (map to_stream l) i = Some x /\ (x == weighted l i / total_length l)%Q).
  { intros i I. apply average_of; [exact A|exact NE|]. intros t T. now rewrite <- LEN. }
  pose proof (total_positive l A NE) as TP.
  assert (NI : exists i x, i < length (CorrStream.t_data o) /\ StreamSpec.average_at true (map to_stream l) i = Some x /\ ~ (x == 0)%Q).
  { destruct NZ as (i & NZ). assert (I : i < length (CorrStream.t_data o)).
    { destruct (Nat.lt_ge_cases i (length (CorrStream.t_data o))) as [I|I]; [exact I|]. exfalso. apply NZ. unfold weighted.
      rewrite (qsum_ext _ (fun _ => 0%Q)) by (intros t T; rewrite nth_overflow by (rewrite <- LEN by exact T; exact I); ring). clear. induction l; [reflexivity|]. cbn. unfold qsum in IHl. rewrite IHl. reflexivity. }
    destruct (AV i I) as (x & E1 & E2). exists i, x. split; [exact I|]. split; [exact E1|]. rewrite E2. intros Z0. apply NZ. setoid_replace (weighted l i) with (weighted l i / total_length l * total_length l)%Q by (field; intros X; rewrite X in TP; now apply Qlt_irrefl in TP). rewrite Z0. ring. }
  destruct (SO NI) as (c & CP & S1 & (i0 & o0 & B1 & B2 & B3)). exists c. split; [exact CP|].
  assert (LO : length (c_data (of_stream o)) = length (CorrStream.t_data o)) by (cbn; apply map_length). rewrite LO.
  assert (NTH : forall i q, nth i (CorrStream.t_data o) None = Some q -> nth i (c_data (of_stream o)) 0%Q = q).
  { intros i q X. cbn [of_stream c_data]. change 0%Q with (CorrStream.val None). now rewrite map_nth, X. }
  split; [|exists i0; split; [exact B1|]; rewrite (NTH _ _ B2); exact B3].
  intros i I. specialize (S1 i I). destruct (AV i I) as (x & E1 & E2). rewrite E1 in S1. destruct (nth i (CorrStream.t_data o) None) as [q|] eqn:Q0; [|contradiction]. rewrite (NTH _ _ Q0). destruct S1 as [S1 S2]. split; [now rewrite S1, E2|exact S2].
Qed.

Lemma stacks_spec sel : (forall t, In t sel -> dotless t) ->
  (forall o, In o (stacks sel) -> exists t, In t sel /\ same_codes t o /\ spans (of_pair t sel) o /\ (alike (of_pair t sel) -> not_zero (of_pair t sel) -> right_stack (of_pair t sel) o)) /\
  (forall t, In t sel -> exists o, In o (stacks sel) /\ same_codes t o) /\
  (forall o o', In o (stacks sel) -> In o' (stacks sel) -> same_codes o o' -> o = o').
Proof.
  intros DL. destruct (stacked_ok sel) as (st & E & _ & ->).
  destruct (StackFacts.stack_groups false "by_length" (map to_stream sel) st) as (G1 & G2 & G3); [|exact E|].
  { intros t I. apply in_map_iff in I. destruct I as (x & <- & I). exact (DL x I). }
  split; [|split].
  - intros o I. apply in_map_iff in I. destruct I as (s & <- & I). pose proof (G1 s I) as G.
    assert (NE : filter (StreamSpec.same_idb false s) (map to_stream sel) <> []) by (intros X; rewrite X in G; discriminate G).
    destruct (filter (StreamSpec.same_idb false s) (map to_stream sel)) as [|u r] eqn:FE; [congruence|]. assert (U : In u (filter (StreamSpec.same_idb false s) (map to_stream sel))) by (rewrite FE; now left).
    apply filter_In in U. destruct U as [U V]. apply in_map_iff in U. destruct U as (t & <- & T). apply StackFacts.same_idb_iff in V.
    assert (SI : StreamSpec.same_id false (to_stream t) s) by (destruct V as (X & Y & Z0 & _); repeat split; try congruence; discriminate).
    exists t. split; [exact T|]. split; [destruct SI as (X & Y & Z0 & _); now repeat split|].
    rewrite <- FE, (filter_map_stream s t sel SI) in G. assert (NP : of_pair t sel <> []) by (intros X; rewrite X in G; discriminate G).
    destruct (stack_right _ _ NP G) as (SP & _ & RS). split; [exact SP|]. apply RS. intros a b A B. apply filter_In in A. apply filter_In in B. destruct A as [_ A]. destruct B as [_ B]. apply same_codes_iff in A. apply same_codes_iff in B.
    destruct A as (? & ? & ?). destruct B as (? & ? & ?). repeat split; congruence.
  - intros t T. destruct (G2 (to_stream t) (in_map _ _ _ T)) as (s & I & (X & Y & Z0 & _)). exists (of_stream s). split; [now apply in_map|]. now repeat split.
  - intros o o' I I' (X & Y & Z0). apply in_map_iff in I. apply in_map_iff in I'. destruct I as (s & <- & I). destruct I' as (s' & <- & I'). f_equal. cbn in X, Y, Z0.
    clear -G3 I I' X Y Z0. induction G3 as [|a l F G IH]; [contradiction|]. rewrite Forall_forall in F. destruct I as [<-|I], I' as [<-|I']; [reflexivity| | |auto].
    + exfalso. apply (F s' I'). repeat split; try congruence; discriminate.
    + exfalso. apply (F s I). repeat split; try congruence; discriminate.
Qed.

(** ** the files *)
Definition entry : Type := ctrace * string.
Definition adding (l : list entry) : list op := map (fun x => Add (fst x) (snd x)) l.
Definition ekey (x : entry) : key := key_of (snd x) (fst x).

Lemma adding_app a b : adding (a ++ b) = adding a ++ adding b.
Proof. apply map_app. Qed.
Lemma add_adding tag trs : forall ops, add_correlation (exec_all ops) trs tag = exec_all (ops ++ adding (map (fun t => (t, tag)) trs)).
Proof.
  induction trs as [|tr trs IH]; intros ops; [now rewrite app_nil_r|]. change (add_correlation (exec_all ops) (tr :: trs) tag) with (add_correlation (exec (exec_all ops) (Add tr tag)) trs tag).
  rewrite <- exec_snoc, IH, <- app_assoc. reflexivity.
Qed.
Lemma spec_adding l k : spec_all (adding l) k = match find (fun x => key_eqb k (ekey x)) l with Some x => Some (stored (fst x)) | None => None end.
Proof.
  induction l as [|x l IH] using rev_ind; [reflexivity|]. rewrite adding_app. change (adding [x]) with [Add (fst x) (snd x)]. rewrite spec_snoc. cbn [spec]. unfold db_add. rewrite IH.
  assert (F : forall m, find (fun x => key_eqb k (ekey x)) (m ++ [x]) = match find (fun x => key_eqb k (ekey x)) m with Some y => Some y | None => if key_eqb k (ekey x) then Some x else None end).
  { induction m as [|y m IHm]; [reflexivity|]. cbn [app find]. now destruct (key_eqb k (ekey y)). }
  rewrite F. change (key_of (snd x) (fst x)) with (ekey x). destruct (find _ l) as [y|]; now destruct (key_eqb k (ekey x)).
Qed.
Lemma find_entry l x : (forall a b, In a l -> In b l -> ekey a = ekey b -> a = b) -> In x l -> find (fun y => key_eqb (ekey x) (ekey y)) l = Some x.
Proof.
  intros U I. destruct (find _ l) as [y|] eqn:E.
  - apply find_some in E. destruct E as [J E]. destruct (key_eqb_spec (ekey x) (ekey y)) as [K|]; [|discriminate]. now rewrite (U x y I J K).
  - exfalso. pose proof (find_none _ _ E x I) as X. cbn in X. destruct (key_eqb_spec (ekey x) (ekey x)); [discriminate|congruence].
Qed.

Section Files.
  Variables (recombine delete : bool) (tag : string).
  (** what is stored for the correlations [sel] of a file *)
  Definition entries (sel : list ctrace) : list entry :=
    (if delete then [] else map (fun t => (t, "subdivision")) sel) ++ (if recombine then map (fun t => (t, tag)) (stacks sel) else []).
  Definition stores (sep : bool) (d : dir) (bs : list (list ctrace)) : Prop :=
    forall name, dget d name = match of_file sep name (concat bs) with [] => None | _ => Some (exec_all (adding (flat_map (fun b => entries (of_file sep name b)) bs))) end.

  Lemma to_store_eq sel : exists a b, to_store recombine delete sel = Ok (a, b) /\ entries sel = map (fun t => (t, "subdivision")) a ++ map (fun t => (t, tag)) b.
  Proof.
    unfold to_store, entries. destruct (stacked_ok sel) as (st & _ & E & E2). destruct recombine; [rewrite E, E2|]; cbn [bind]; eexists _, _; (split; [reflexivity|]); destruct delete; reflexivity.
  Qed.
  Lemma write_selected_eq d w : exists d', write_selected recombine delete tag d w = Ok d' /\
    forall name, dget d' name = if String.eqb name (fst w) then Some (add_correlation (add_correlation (match dget d (fst w) with Some f => f | None => H5.empty_file end)
      (if delete then [] else snd w) "subdivision") (if recombine then stacks (snd w) else []) tag) else dget d name.
  Proof.
    unfold write_selected, to_store. destruct (stacked_ok (snd w)) as (st & _ & E & E2). destruct recombine; [rewrite E, E2|]; cbn [bind fst snd]; eexists; (split; [reflexivity|]); intros name; rewrite dget_dset; destruct (String.eqb_spec name (fst w)); reflexivity.
  Qed.
  Lemma write_selected_all ws : forall d, NoDup (map fst ws) -> exists d', write_all_selected recombine delete tag d ws = Ok d' /\
    forall name, dget d' name = match dget ws name with
      | Some trs => Some (add_correlation (add_correlation (match dget d name with Some f => f | None => H5.empty_file end) (if delete then [] else trs) "subdivision") (if recombine then stacks trs else []) tag)
      | None => dget d name end.
  Proof.
    induction ws as [|[k trs] ws IH]; intros d N; [now exists d|]. inversion N as [|? ? NI N']; subst. cbn [write_all_selected]. destruct (write_selected_eq d (k, trs)) as (d1 & E1 & W1). rewrite E1. cbn [bind fst snd] in *.
    destruct (IH d1 N') as (d' & E & W). exists d'. split; [exact E|]. intros name. rewrite W. cbn [dget]. destruct (String.eqb_spec name k) as [->|NE].
    - assert (X : dget ws k = None). { destruct (dget ws k) as [v|] eqn:Y; [|reflexivity]. exfalso. apply NI. clear -Y. induction ws as [|[k' v'] ws IH]; [discriminate|]. cbn [dget] in Y. cbn [map fst]. destruct (String.eqb_spec k k') as [->|]; [now left|right; auto]. }
      rewrite X, W1, String.eqb_refl. reflexivity.
    - rewrite W1. apply String.eqb_neq in NE. rewrite NE. reflexivity.
  Qed.
  Lemma options_step p sep d bs b : 0 < p -> batch_ok b -> stores sep d bs -> exists d', write_options recombine delete tag p sep d b = Ok d' /\ stores sep d' (bs ++ [b]).
  Proof.
    intros P B H. unfold write_options.
    set (codes := sorted_set (map (code_of sep) b)). set (sel := fun code => filter (fun tr => String.eqb (code_of sep tr) code) b).
    rewrite (mapM_seq _ (fun r => map (fun code => (file_of_code code, sel code)) (my_items p r codes))) by (intros r R; now apply writes_eq).
    cbn [bind]. set (g := fun code => (file_of_code code, sel code)).
    replace (concat (map (fun r => map g (my_items p r codes)) (seq 0 p))) with (map g codes).
    2:{ rewrite <- (partition_concat p codes P) at 1. rewrite concat_map, map_map. reflexivity. }
    destruct (write_selected_all (map g codes) d) as (d' & E & W).
    { rewrite map_map. cbn [fst g]. apply FinFun.Injective_map_NoDup; [intros x y; apply file_of_code_inj|apply sorted_set_nodup]. }
    exists d'. split; [exact E|]. intros name. rewrite W. rewrite concat_app. cbn [concat]. rewrite app_nil_r. rewrite flat_map_app. cbn [flat_map]. rewrite app_nil_r.
    assert (SE : forall tr code, String.eqb (own_file sep tr) (file_of_code code) = String.eqb (code_of sep tr) code).
    { intros tr code. rewrite own_file_eq. destruct (String.eqb_spec (code_of sep tr) code) as [->|NE]; [apply String.eqb_refl|]. apply String.eqb_neq. intros X. apply NE. now apply file_of_code_inj. }
    unfold of_file at 1. rewrite filter_app. fold (of_file sep name (concat bs)). fold (of_file sep name b).
    destruct (dget (map g codes) name) as [trs|] eqn:GE.
    - assert (EX : exists code, In code codes /\ name = file_of_code code /\ trs = sel code).
      { clear -GE. induction codes as [|c codes IH]; [discriminate|]. cbn [map dget g] in GE. destruct (String.eqb_spec name (file_of_code c)) as [->|].
        - injection GE as <-. exists c. split; [now left|]. now split.
        - destruct (IH GE) as (code & I & X). exists code. split; [now right|exact X]. }
      destruct EX as (code & I & -> & ->).
      assert (FB : of_file sep (file_of_code code) b = sel code) by (apply filter_ext; intros tr; apply SE). rewrite FB, H.
      assert (NE : sel code <> []).
      { apply sorted_set_in, in_map_iff in I. destruct I as (tr & <- & I). intros N. assert (J : In tr (sel (code_of sep tr))) by (apply filter_In; split; [exact I|apply String.eqb_refl]). rewrite N in J. contradiction. }
      assert (AE : forall ops, add_correlation (add_correlation (exec_all (adding ops)) (if delete then [] else sel code) "subdivision") (if recombine then stacks (sel code) else []) tag = exec_all (adding (ops ++ entries (sel code)))).
      { intros ops. rewrite !add_adding, !adding_app, <- app_assoc. unfold entries. do 2 f_equal. rewrite adding_app. f_equal; [destruct delete|destruct recombine]; reflexivity. }
      destruct (of_file sep (file_of_code code) (concat bs)) as [|t0 r0] eqn:FL.
      + cbn [app]. assert (FN : flat_map (fun b0 => entries (of_file sep (file_of_code code) b0)) bs = []).
        { clear -FL. induction bs as [|b0 bs IH]; [reflexivity|]. cbn [concat] in FL. unfold of_file in FL. rewrite filter_app in FL. apply app_eq_nil in FL. destruct FL as [F1 F2]. cbn [flat_map]. unfold of_file at 1. rewrite F1. rewrite IH by exact F2.
          unfold entries. cbn. destruct delete, recombine; reflexivity. }
        rewrite FN. cbn [app]. destruct (sel code) as [|t1 r1] eqn:SC; [congruence|]. rewrite <- SC in AE |- *. change H5.empty_file with (exec_all (adding [])). now rewrite AE.
      + rewrite AE. reflexivity.
    - assert (FB : of_file sep name b = []).
      { destruct (of_file sep name b) as [|tr r] eqn:FB; [reflexivity|]. exfalso. assert (I : In tr (of_file sep name b)) by (rewrite FB; now left).
        apply filter_In in I. destruct I as [I N]. apply String.eqb_eq in N. rewrite <- N, own_file_eq in GE. unfold g in GE. rewrite dget_map_codes in GE.
        assert (X : existsb (String.eqb (code_of sep tr)) codes = true) by (apply existsb_exists; exists (code_of sep tr); split; [apply sorted_set_in; now apply in_map|apply String.eqb_refl]).
        rewrite X in GE. discriminate. }
      rewrite FB, app_nil_r. replace (entries []) with (@nil entry) by (unfold entries; destruct delete, recombine; reflexivity). rewrite app_nil_r. apply H.
  Qed.
  Lemma options_all p sep : 0 < p -> forall bs d bs0, batch_ok (concat bs0 ++ concat bs) -> stores sep d bs0 -> exists d', write_options_all recombine delete tag p sep d bs = Ok d' /\ stores sep d' (bs0 ++ bs).
  Proof.
    intros P. induction bs as [|b bs IH]; intros d bs0 B H.
    - exists d. rewrite app_nil_r. now split.
    - cbn [concat write_options_all] in *. destruct (options_step p sep d bs0 b P (batch_sub _ _ _ B) H) as (d1 & -> & H1). cbn [bind].
      replace (bs0 ++ b :: bs) with ((bs0 ++ [b]) ++ bs) by (rewrite <- app_assoc; reflexivity). apply IH; [|exact H1]. rewrite concat_app. cbn [concat]. rewrite app_nil_r, <- app_assoc. exact B.
  Qed.
  Lemma options_fresh p sep bs : 0 < p -> batch_ok (concat bs) -> exists d, write_options_all recombine delete tag p sep [] bs = Ok d /\ stores sep d bs.
  Proof. intros P B. apply (options_all p sep P bs [] [] B). intros name. reflexivity. Qed.
End Files.

(** ** queries *)
Lemma same_batch {A B} (f : A -> B) (bs : list (list A)) : NoDup (map f (concat bs)) -> forall b b' x x', In b bs -> In b' bs -> In x b -> In x' b' -> f x = f x' -> b = b'.
Proof.
  induction bs as [|c bs IH]; intros N b b' x x' I I' X X' E; [contradiction|]. cbn [concat] in N. rewrite map_app in N.
  assert (D : forall y z, In y c -> In z (concat bs) -> f y <> f z).
  { intros y z Y Z0 Q. apply (in_map f) in Y. apply (in_map f) in Z0. rewrite Q in Y. clear -N Y Z0. induction (map f c) as [|w l IHl]; [contradiction|]. cbn [app] in N. inversion N as [|? ? NI N']; subst. destruct Y as [->|Y]; [apply NI, in_or_app; now right|auto]. }
  assert (IC : forall q z, In q bs -> In z q -> In z (concat bs)) by (intros q z Q Z0; apply in_concat; now exists q).
  destruct I as [<-|I], I' as [<-|I']; [reflexivity|exfalso; exact (D x x' X (IC _ _ I' X') E)|exfalso; exact (D x' x X' (IC _ _ I X) (eq_sym E))|].
  eapply IH; eauto. now apply nodup_right in N.
Qed.
Lemma nodup_eq {A B} (f : A -> B) l x y : NoDup (map f l) -> In x l -> In y l -> f x = f y -> x = y.
Proof.
  induction l as [|z l IH]; intros N I J E; [contradiction|]. cbn [map] in N. inversion N as [|? ? NI N']; subst.
  destruct I as [->|I], J as [->|J]; [reflexivity| | |auto]; exfalso; apply NI; [rewrite E|rewrite <- E]; now apply in_map.
Qed.
Lemma same_file sep a b : same_codes a b -> own_file sep a = own_file sep b.
Proof. intros (N & S & C). unfold own_file. now rewrite N, S, C. Qed.
Lemma pair_in_file sep t b : of_pair t (of_file sep (own_file sep t) b) = of_pair t b.
Proof.
  unfold of_pair, of_file. induction b as [|x b IH]; [reflexivity|]. cbn [filter]. destruct (String.eqb_spec (own_file sep x) (own_file sep t)) as [E|NE]; cbn [filter]; [now rewrite IH|].
  destruct (same_codesb t x) eqn:S; [|exact IH]. exfalso. apply NE. symmetry. apply same_file. now apply same_codes_iff.
Qed.
Definition storable_codes (tag : string) (tr : ctrace) : Prop :=
  names_ok tag (c_net tr) (c_sta tr) (c_cha tr) /\ time_ok (c_start tr) /\ time_ok (c_end tr) /\ canonical (c_net tr) (c_sta tr) (c_cha tr).

Section Queries.
  Variables (delete : bool) (tag : string) (sep : bool) (bs : list (list ctrace)) (d : dir).
  Let L := concat bs.
  Hypotheses (NT : tag <> "subdivision") (NOK : name_ok tag) (DL : forall t, In t L -> dotless t) (ST : forall t, In t L -> storable_codes "subdivision" t) (ND : NoDup (map start_key L)).
  Definition content (name : string) : list entry := flat_map (fun b => entries true delete tag (of_file sep name b)) bs.

  Lemma content_in name x : In x (content name) <->
    (delete = false /\ snd x = "subdivision" /\ In (fst x) L /\ own_file sep (fst x) = name) \/ (snd x = tag /\ exists b, In b bs /\ In (fst x) (stacks (of_file sep name b))).
  Proof.
    unfold content. rewrite in_flat_map. split.
    - intros (b & B & I). unfold entries in I. apply in_app_or in I. destruct I as [I|I].
      + left. destruct delete; [contradiction|]. apply in_map_iff in I. destruct I as (t & <- & I). apply filter_In in I. destruct I as [I E]. apply String.eqb_eq in E. cbn [fst snd]. repeat split; [|exact E]. apply in_concat. now exists b.
      + right. apply in_map_iff in I. destruct I as (t & <- & I). cbn [fst snd]. split; [reflexivity|]. now exists b.
    - destruct x as [t g]. cbn [fst snd]. intros [(D & -> & I & E)|(-> & b & B & I)].
      + apply in_concat in I. destruct I as (b & B & I). exists b. split; [exact B|]. unfold entries. rewrite D. apply in_or_app. left. apply in_map_iff. exists t. split; [reflexivity|]. apply filter_In. split; [exact I|]. now apply String.eqb_eq.
      + exists b. split; [exact B|]. apply in_or_app. right. apply in_map_iff. now exists t.
  Qed.
  Lemma in_batch b t name : In b bs -> In t (of_file sep name b) -> In t L /\ own_file sep t = name /\ In t b.
  Proof. intros B I. apply filter_In in I. destruct I as [I E]. apply String.eqb_eq in E. split; [apply in_concat; now exists b|now split]. Qed.
  (** a stack, in terms of its batch *)
  Lemma stack_in name b o : In b bs -> In o (stacks (of_file sep name b)) ->
    exists t, In t b /\ own_file sep t = name /\ same_codes t o /\ spans (of_pair t b) o /\ (alike (of_pair t b) -> not_zero (of_pair t b) -> right_stack (of_pair t b) o).
  Proof.
    intros B I. destruct (stacks_spec (of_file sep name b)) as (S1 & _); [intros t T; apply DL; now apply (in_batch b t name)|].
    destruct (S1 o I) as (t & T & SC & SP & RS). destruct (in_batch b t name B T) as (_ & <- & TB). rewrite pair_in_file in SP, RS. exists t. split; [exact TB|]. split; [reflexivity|]. split; [exact SC|]. now split.
  Qed.
  Lemma span_parts t b o : In b bs -> In t b -> spans (of_pair t b) o -> exists h e, In h b /\ In e b /\ same_codes t h /\ same_codes t e /\ first_of (of_pair t b) h /\ In e (of_pair t b) /\ c_start o = c_start h /\ c_end o = c_end e.
  Proof.
    intros B T (h & e & F & IE & _ & S & E & _). pose proof F as (IH & _). exists h, e. apply filter_In in IH. pose proof IE as IE'. apply filter_In in IE. destruct IH as [IH C1]. destruct IE as [IE C2]. apply same_codes_iff in C1. apply same_codes_iff in C2.
    split; [exact IH|]. split; [exact IE|]. split; [exact C1|]. split; [exact C2|]. split; [exact F|]. split; [exact IE'|]. split; [exact S|exact E].
  Qed.
  Lemma content_valid name : Forall valid_op (adding (content name)).
  Proof.
    apply Forall_forall. intros op I. apply in_map_iff in I. destruct I as ([t g] & <- & I). cbn [fst snd]. apply content_in in I. cbn [fst snd] in I. destruct I as [(_ & -> & I & _)|(-> & b & B & I)].
    - destruct (ST t I) as (X & Y & Z0 & _). exact (conj X (conj Y Z0)).
    - destruct (stack_in name b t B I) as (u & U & _ & (N & S & C) & SP & _). destruct (span_parts u b t B U SP) as (h & e & IH & IE & _ & _ & _ & _ & ES & EE).
      assert (IL : forall x, In x b -> In x L) by (intros x X; apply in_concat; now exists b).
      destruct (ST u (IL u U)) as ((_ & X1 & X2 & X3) & _). destruct (ST h (IL h IH)) as (_ & Y & _). destruct (ST e (IL e IE)) as (_ & _ & Z0 & _). unfold valid_op. rewrite <- N, <- S, <- C, ES, EE. exact (conj (conj NOK (conj X1 (conj X2 X3))) (conj Y Z0)).
  Qed.
  Lemma content_unique name a b : In a (content name) -> In b (content name) -> ekey a = ekey b -> a = b.
  Proof.
    destruct a as [a ga]. destruct b as [b gb]. intros A B E. apply content_in in A. apply content_in in B. cbn [fst snd] in *. unfold ekey, key_of in E. cbn [fst snd] in E. injection E as EG N S C E1 E2. subst gb.
    destruct A as [(_ & -> & A & _)|(-> & ba & BA & A)], B as [(_ & GB & B & _)|(GB & bb & BB & B)]; [|congruence|congruence|].
    - f_equal. apply (nodup_eq start_key L); [exact ND|exact A|exact B|]. unfold start_key. now rewrite N, S, C, E1.
    - f_equal. pose proof A as A0. pose proof B as B0.
      destruct (stack_in name ba a BA A) as (u & U & _ & (N1 & S1 & C1) & SP & _). destruct (span_parts u ba a BA U SP) as (h & e & IH & IE & (H1 & H2 & H3) & _ & _ & _ & X & _).
      destruct (stack_in name bb b BB B) as (v & V & _ & (N2 & S2 & C2) & SQ & _). destruct (span_parts v bb b BB V SQ) as (h' & e' & IH' & IE' & (H1' & H2' & H3') & _ & _ & _ & X' & _).
      assert (SB : ba = bb). { apply (same_batch start_key bs ND ba bb h h'); try assumption. assert (Q1 : c_net h = c_net h') by congruence. assert (Q2 : c_sta h = c_sta h') by congruence. assert (Q3 : c_cha h = c_cha h') by congruence. unfold start_key. now rewrite <- X, <- X', E1, Q1, Q2, Q3. }
      subst bb. destruct (stacks_spec (of_file sep name ba)) as (_ & _ & U3); [intros t T; apply DL; now apply (in_batch ba t name)|]. apply U3; try assumption. now repeat split.
  Qed.
  Lemma file_there tr : stores true delete tag sep d bs -> In tr L -> dget d (own_file sep tr) = Some (exec_all (adding (content (own_file sep tr)))).
  Proof.
    intros H I. rewrite H. assert (J : In tr (of_file sep (own_file sep tr) (concat bs))) by (apply filter_In; split; [exact I|apply String.eqb_refl]).
    destruct (of_file sep (own_file sep tr) (concat bs)); [contradiction|reflexivity].
  Qed.
  Lemma query_entry name x : In x (content name) -> canonical (c_net (fst x)) (c_sta (fst x)) (c_cha (fst x)) -> forall st et, tick st = tick (c_start (fst x)) -> tick et = tick (c_end (fst x)) -> time_ok st -> time_ok et ->
    get_data (exec_all (adding (content name))) (c_net (fst x)) (c_sta (fst x)) (c_cha (fst x)) (snd x) (Some st) (Some et) = Ok [stored (fst x)].
  Proof.
    intros I CA st et TS TE OS OE. assert (V : valid_op (Add (fst x) (snd x))). { pose proof (content_valid name) as F. rewrite Forall_forall in F. apply F. apply in_map_iff. now exists x. }
    destruct V as (V1 & V2 & V3). rewrite history_query; auto; [|apply content_valid]. rewrite TS, TE.
    change (mkKey (snd x) (c_net (fst x)) (c_sta (fst x)) (c_cha (fst x)) (tick (c_start (fst x))) (tick (c_end (fst x)))) with (ekey x). rewrite spec_adding, find_entry; [reflexivity|intros a b; apply content_unique|exact I].
  Qed.
  Lemma query_other name net sta cha g st et r : names_ok g net sta cha -> canonical net sta cha -> time_ok st -> time_ok et ->
    get_data (exec_all (adding (content name))) net sta cha g (Some st) (Some et) = Ok r ->
    exists x, In x (content name) /\ r = [stored (fst x)] /\ snd x = g /\ c_net (fst x) = net /\ c_sta (fst x) = sta /\ c_cha (fst x) = cha /\ tick (c_start (fst x)) = tick st /\ tick (c_end (fst x)) = tick et.
  Proof.
    intros N C S E G. rewrite history_query in G; auto; [|apply content_valid]. rewrite spec_adding in G. destruct (find _ _) as [x|] eqn:F; [|discriminate]. injection G as <-. apply find_some in F. destruct F as [I K].
    match type of K with key_eqb ?a ?b = true => destruct (key_eqb_spec a b) as [Q|]; [|discriminate] end. unfold ekey, key_of in Q. injection Q as -> -> -> -> Q1 Q2. exists x. repeat split; auto.
  Qed.
End Queries.
