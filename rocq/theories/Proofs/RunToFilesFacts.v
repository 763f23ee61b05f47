(** What a run leaves in the correlation directory. *)
From Coq Require Import QArith Reals Permutation Lia.
From Verif Require Import Lib.Base Lib.Str Lib.Sorting Lib.Time Model.Partition Model.H5 Model.CorrTrace Model.CorrDB Model.Combos Model.Rerun Model.Flip Model.WriteOut Model.PxcorrLoop
  Spec.HeaderSpec Spec.DBSpec Proofs.PartitionFacts Proofs.OutputFacts Proofs.CorrDBFacts Proofs.HistoryFacts Model.RunToFiles.
Local Open Scope nat_scope.
Local Open Scope string_scope.
Local Open Scope list_scope.

Definition adds (l : list ctrace) : list op := map (fun tr => Add tr "subdivision") l.
Definition of_file (sep : bool) (name : string) (l : list ctrace) : list ctrace := filter (fun tr => String.eqb (own_file sep tr) name) l.

Lemma add_exec trs : forall ops, add_correlation (exec_all ops) trs "subdivision" = exec_all (ops ++ adds trs).
Proof.
  induction trs as [|tr trs IH]; intros ops; [now rewrite app_nil_r|]. change (add_correlation (exec_all ops) (tr :: trs) "subdivision") with (add_correlation (exec (exec_all ops) (Add tr "subdivision")) trs "subdivision").
  rewrite <- exec_snoc, IH, <- app_assoc. reflexivity.
Qed.
Lemma fold_write ws : forall d name, NoDup (map fst ws) -> dget (fold_left write_file ws d) name =
  match dget ws name with
  | Some trs => Some (add_correlation (match dget d name with Some f => f | None => H5.empty_file end) trs "subdivision")
  | None => dget d name
  end.
Proof.
  induction ws as [|[k trs] ws IH]; intros d name N; [reflexivity|]. cbn [map fst] in N. inversion N as [|? ? NI N']; subst. cbn [fold_left dget]. rewrite IH by exact N'.
  unfold write_file. cbn [fst snd]. rewrite dget_dset. destruct (String.eqb_spec name k) as [->|]; [|reflexivity].
  destruct (dget ws k) as [v|] eqn:E; [|reflexivity]. exfalso. apply NI. clear -E. induction ws as [|[k' v'] ws IH]; [discriminate|]. cbn [dget] in E. cbn [map fst].
  destruct (String.eqb_spec k k') as [->|]; [now left|right; auto].
Qed.

(** the content of the directory *)
Definition holds (sep : bool) (d : dir) (l : list ctrace) : Prop :=
  forall name, dget d name = match of_file sep name l with [] => None | trs => Some (exec_all (adds trs)) end.

Lemma mapM_seq {B} (f : nat -> result B) (g : nat -> B) n : (forall r, r < n -> f r = Ok (g r)) -> mapM f (seq 0 n) = Ok (map g (seq 0 n)).
Proof. intros H. apply mapM_ok. intros r I. apply in_seq in I. apply H. lia. Qed.
Lemma dget_map_codes (g : string -> list ctrace) codes code : dget (map (fun c => (file_of_code c, g c)) codes) (file_of_code code) = if existsb (String.eqb code) codes then Some (g code) else None.
Proof.
  induction codes as [|c codes IH]; [reflexivity|]. cbn [map dget existsb]. destruct (String.eqb_spec code c) as [->|NE]; [now rewrite String.eqb_refl|].
  destruct (String.eqb_spec (file_of_code code) (file_of_code c)) as [E|]; [exfalso; apply NE; now apply file_of_code_inj|exact IH].
Qed.

Lemma batch_step p sep d l b : (0 < p)%nat -> batch_ok b -> holds sep d l -> exists d', write_batch p sep d b = Ok d' /\ holds sep d' (l ++ b).
Proof.
  intros P B H. unfold write_batch.
  set (codes := sorted_set (map (code_of sep) b)). set (sel := fun code => filter (fun tr => String.eqb (code_of sep tr) code) b).
  rewrite (mapM_seq _ (fun r => map (fun code => (file_of_code code, sel code)) (my_items p r codes))) by (intros r R; now apply writes_eq).
  cbn [bind]. eexists. split; [reflexivity|]. set (g := fun code => (file_of_code code, sel code)).
  replace (concat (map (fun r => map g (my_items p r codes)) (seq 0 p))) with (map g codes).
  2:{ rewrite <- (partition_concat p codes P) at 1. rewrite concat_map, map_map. reflexivity. }
  intros name. rewrite fold_write.
  2:{ rewrite map_map. cbn [fst g]. apply FinFun.Injective_map_NoDup; [intros x y; apply file_of_code_inj|apply sorted_set_nodup]. }
  assert (SE : forall tr code, String.eqb (own_file sep tr) (file_of_code code) = String.eqb (code_of sep tr) code).
  { intros tr code. rewrite own_file_eq. destruct (String.eqb_spec (code_of sep tr) code) as [->|NE]; [apply String.eqb_refl|]. apply String.eqb_neq. intros E. apply NE. now apply file_of_code_inj. }
  unfold of_file. rewrite filter_app. fold (of_file sep name l). fold (of_file sep name b).
  destruct (dget (map g codes) name) as [trs|] eqn:E.
  - assert (EX : exists code, In code codes /\ name = file_of_code code /\ trs = sel code).
    { clear -E. induction codes as [|c codes IH]; [discriminate|]. cbn [map dget g] in E. destruct (String.eqb_spec name (file_of_code c)) as [->|].
      - injection E as <-. exists c. split; [now left|]. now split.
      - destruct (IH E) as (code & I & X). exists code. split; [now right|exact X]. }
    destruct EX as (code & I & -> & ->).
    assert (FB : of_file sep (file_of_code code) b = sel code) by (apply filter_ext; intros tr; apply SE). rewrite FB, H.
    assert (NE : sel code <> []).
    { apply sorted_set_in, in_map_iff in I. destruct I as (tr & <- & I). intros N. assert (J : In tr (sel (code_of sep tr))) by (apply filter_In; split; [exact I|apply String.eqb_refl]). rewrite N in J. contradiction. }
    destruct (of_file sep (file_of_code code) l) as [|t0 r0] eqn:FL.
    + cbn [app]. destruct (sel code) as [|t1 r1] eqn:SC; [congruence|]. rewrite <- SC. change H5.empty_file with (exec_all []). now rewrite add_exec.
    + rewrite <- FL. rewrite add_exec. unfold adds. rewrite <- map_app. destruct (of_file sep (file_of_code code) l ++ sel code) eqn:X; [rewrite FL in X; discriminate|reflexivity].
  - assert (FB : of_file sep name b = []).
    { destruct (of_file sep name b) as [|tr r] eqn:FB; [reflexivity|]. exfalso. assert (I : In tr (of_file sep name b)) by (rewrite FB; now left).
      apply filter_In in I. destruct I as [I N]. apply String.eqb_eq in N. rewrite <- N, own_file_eq in E. unfold g in E. rewrite dget_map_codes in E.
      assert (X : existsb (String.eqb (code_of sep tr)) codes = true) by (apply existsb_exists; exists (code_of sep tr); split; [apply sorted_set_in; now apply in_map|apply String.eqb_refl]).
      rewrite X in E. discriminate. }
    rewrite FB, app_nil_r. apply H.
Qed.

Lemma batch_sub a b c : batch_ok (a ++ b ++ c) -> batch_ok b.
Proof.
  intros [X Y]. split.
  - intros x I. apply X. apply in_or_app. right. apply in_or_app. now left.
  - intros x y I J. apply Y; (apply in_or_app; right; apply in_or_app; now left).
Qed.
Lemma batches_hold p sep : (0 < p)%nat -> forall batches d l, batch_ok (l ++ concat batches) -> holds sep d l ->
  exists d', write_batches p sep d batches = Ok d' /\ holds sep d' (l ++ concat batches).
Proof.
  intros P. induction batches as [|b bs IH]; intros d l B H.
  - exists d. rewrite app_nil_r. now split.
  - cbn [concat write_batches] in *. destruct (batch_step p sep d l b P (batch_sub _ _ _ B) H) as (d1 & -> & H1). cbn [bind].
    rewrite app_assoc in B |- *. now apply IH.
Qed.
Lemma write_all p sep batches : (0 < p)%nat -> batch_ok (concat batches) -> exists d, write_batches p sep [] batches = Ok d /\ holds sep d (concat batches).
Proof. intros P B. apply (batches_hold p sep P batches [] [] B). intros name. reflexivity. Qed.

(** ** queries *)
Lemma spec_adds l : NoDup (map (key_of "subdivision") l) -> forall k, spec_all (adds l) k = match find (fun tr => key_eqb k (key_of "subdivision" tr)) l with Some tr => Some (stored tr) | None => None end.
Proof.
  intros N k. induction l as [|tr l IH] using rev_ind; [reflexivity|]. unfold adds. rewrite map_app. cbn [map]. rewrite spec_snoc. fold (adds l). cbn [spec]. unfold db_add.
  rewrite map_app in N. cbn [map] in N. apply NoDup_remove in N. rewrite app_nil_r in N. destruct N as [N NI]. rewrite IH by exact N.
  assert (F : forall m : list ctrace, find (fun tr => key_eqb k (key_of "subdivision" tr)) (m ++ [tr]) =
     match find (fun tr => key_eqb k (key_of "subdivision" tr)) m with Some x => Some x | None => if key_eqb k (key_of "subdivision" tr) then Some tr else None end).
  { induction m as [|x m IHm]; [reflexivity|]. cbn [app find]. now destruct (key_eqb k (key_of "subdivision" x)). }
  rewrite F. destruct (find _ l) as [x|]; [now destruct (key_eqb k (key_of "subdivision" tr))|]. now destruct (key_eqb k (key_of "subdivision" tr)).
Qed.
Lemma find_key l tr : NoDup (map (key_of "subdivision") l) -> In tr l -> find (fun t => key_eqb (key_of "subdivision" tr) (key_of "subdivision" t)) l = Some tr.
Proof.
  induction l as [|x l IH]; intros N I; [contradiction|]. inversion N as [|? ? NI N']; subst. cbn [find].
  destruct (key_eqb_spec (key_of "subdivision" tr) (key_of "subdivision" x)) as [E|NE].
  - destruct I as [->|I]; [reflexivity|]. exfalso. apply NI. rewrite <- E. now apply in_map.
  - destruct I as [->|I]; [congruence|]. now apply IH.
Qed.
Lemma NoDup_map_filter {A B} (f : A -> B) (q : A -> bool) l : NoDup (map f l) -> NoDup (map f (filter q l)).
Proof.
  induction l as [|x l IH]; intros N; [constructor|]. inversion N as [|? ? NI N']; subst. cbn [filter]. destruct (q x); [|auto]. cbn [map]. constructor; [|auto].
  intros I. apply NI. apply in_map_iff in I. destruct I as (y & <- & I). apply filter_In in I. apply in_map. apply I.
Qed.

Definition storable (tr : ctrace) : Prop := valid_op (Add tr "subdivision").

Lemma valid_adds l : Forall storable l -> Forall valid_op (adds l).
Proof. intros F. apply Forall_forall. intros x I. apply in_map_iff in I. destruct I as (tr & <- & I). rewrite Forall_forall in F. now apply F. Qed.
Lemma storable_sub sep name l : Forall storable l -> Forall storable (of_file sep name l).
Proof. intros F. apply Forall_forall. intros x I. apply filter_In in I. rewrite Forall_forall in F. now apply F. Qed.

(** every correlation is in its file, and there is nothing else *)
Lemma found sep d l tr : holds sep d l -> Forall storable l -> NoDup (map (key_of "subdivision") l) -> In tr l ->
  canonical (c_net tr) (c_sta tr) (c_cha tr) ->
  exists f, dget d (own_file sep tr) = Some f /\ get_data f (c_net tr) (c_sta tr) (c_cha tr) "subdivision" (Some (c_start tr)) (Some (c_end tr)) = Ok [stored tr].
Proof.
  intros H F N I C. assert (J : In tr (of_file sep (own_file sep tr) l)) by (apply filter_In; split; [exact I|apply String.eqb_refl]).
  exists (exec_all (adds (of_file sep (own_file sep tr) l))). split.
  - rewrite H. destruct (of_file sep (own_file sep tr) l); [contradiction|reflexivity].
  - pose proof (proj1 (Forall_forall _ _) F tr I) as (V1 & V2 & V3). rewrite history_query; auto; [|now apply valid_adds, storable_sub].
    change (mkKey "subdivision" (c_net tr) (c_sta tr) (c_cha tr) (tick (c_start tr)) (tick (c_end tr))) with (key_of "subdivision" tr).
    rewrite spec_adds by now apply NoDup_map_filter. rewrite find_key; [reflexivity|now apply NoDup_map_filter|exact J].
Qed.
Lemma nothing_else sep d l name f : holds sep d l -> Forall storable l -> dget d name = Some f -> NoDup (map (key_of "subdivision") l) ->
  (exists tr, In tr l /\ own_file sep tr = name) /\
  forall net sta cha tag st et r, names_ok tag net sta cha -> canonical net sta cha -> time_ok st -> time_ok et ->
    get_data f net sta cha tag (Some st) (Some et) = Ok r ->
    exists tr, In tr l /\ own_file sep tr = name /\ r = [stored tr] /\ tag = "subdivision" /\ c_net tr = net /\ c_sta tr = sta /\ c_cha tr = cha /\
      tick (c_start tr) = tick st /\ tick (c_end tr) = tick et.
Proof.
  intros H F D N. rewrite H in D. destruct (of_file sep name l) as [|t0 r0] eqn:FL; [discriminate|]. rewrite <- FL in D. injection D as <-. split.
  - exists t0. assert (I : In t0 (of_file sep name l)) by (rewrite FL; now left). apply filter_In in I. destruct I as [I E]. apply String.eqb_eq in E. now split.
  - intros net sta cha tag st et r NO C S E G. rewrite history_query in G; auto; [|now apply valid_adds, storable_sub].
    rewrite spec_adds in G by now apply NoDup_map_filter. destruct (find _ _) as [tr|] eqn:FD; [|discriminate]. injection G as <-.
    apply find_some in FD. destruct FD as [I KE]. apply filter_In in I. destruct I as [I OE]. apply String.eqb_eq in OE.
    match type of KE with key_eqb ?a ?b = true => destruct (key_eqb_spec a b) as [K|]; [|discriminate] end. unfold key_of in K. injection K as -> -> -> -> S1 E1.
    exists tr. repeat split; auto.
Qed.

(** ** interruptions *)
Lemma write_step sep d l name trs : holds sep d l -> trs <> [] -> (forall tr, In tr trs -> own_file sep tr = name) -> holds sep (write_file d (name, trs)) (l ++ trs).
Proof.
  intros H NE O name'. unfold write_file. cbn [fst snd]. rewrite dget_dset. unfold of_file. rewrite filter_app. fold (of_file sep name' l).
  destruct (String.eqb_spec name' name) as [->|N].
  - replace (filter (fun tr => String.eqb (own_file sep tr) name) trs) with trs.
    2:{ clear NE. induction trs as [|x trs IH]; [reflexivity|]. cbn [filter]. rewrite (O x) by now left. rewrite String.eqb_refl. f_equal. apply IH. intros y I. apply O. now right. }
    rewrite H. destruct (of_file sep name l) as [|t0 r0] eqn:FL.
    + change H5.empty_file with (exec_all []). rewrite add_exec. cbn [app]. destruct trs; [congruence|reflexivity].
    + rewrite add_exec. unfold adds. rewrite <- map_app. reflexivity.
  - replace (filter (fun tr => String.eqb (own_file sep tr) name') trs) with (@nil ctrace); [rewrite app_nil_r; apply H|].
    clear NE. induction trs as [|x trs IH]; [reflexivity|]. cbn [filter]. rewrite (O x) by now left. destruct (String.eqb_spec name name') as [->|]; [congruence|]. apply IH. intros y I. apply O. now right.
Qed.
Lemma write_steps sep ws : forall d l, holds sep d l -> Forall (fun w => snd w <> [] /\ forall tr, In tr (snd w) -> own_file sep tr = fst w) ws ->
  holds sep (fold_left write_file ws d) (l ++ concat (map snd ws)).
Proof.
  induction ws as [|[name trs] ws IH]; intros d l H F; [now rewrite app_nil_r|]. inversion F as [|? ? [NE O] F']; subst. cbn [fold_left map concat snd fst] in *. rewrite app_assoc. apply IH; [|exact F'].
  now apply write_step.
Qed.
Lemma dset_names {V} (d : list (string * V)) k v : NoDup (map fst d) -> NoDup (map fst (dset d k v)).
Proof.
  assert (I : forall d : list (string * V), forall x, In x (map fst (dset d k v)) -> x = k \/ In x (map fst d)).
  { clear d. induction d as [|[k' v'] d IH]; intros x; cbn [dset map fst]; [intros [<-|[]]; now left|]. destruct (String.eqb_spec k k') as [->|]; cbn [map fst]; intros [<-|J]; [now left|right; now right|right; now left|].
    destruct (IH x J) as [->|J']; [now left|right; now right]. }
  induction d as [|[k' v'] d IH]; intros N; [repeat constructor; intros []|]. inversion N as [|? ? NI N']; subst. cbn [dset]. destruct (String.eqb_spec k k') as [->|NE]; cbn [map fst]; constructor; try assumption; [|now apply IH].
  intros J. apply I in J. destruct J as [->|J]; [congruence|now apply NI].
Qed.
Lemma fold_names ws : forall d, NoDup (map fst d) -> NoDup (map fst (fold_left write_file ws d)).
Proof. induction ws as [|w ws IH]; intros d N; [exact N|]. cbn [fold_left]. apply IH. unfold write_file. now apply dset_names. Qed.
Lemma batches_names p sep batches : forall d d', write_batches p sep d batches = Ok d' -> NoDup (map fst d) -> NoDup (map fst d').
Proof.
  induction batches as [|b bs IH]; intros d d' E N; [injection E as <-; exact N|]. cbn [write_batches] in E. unfold write_batch in E. destruct (mapM _ _) as [l|]; [|discriminate]. cbn [bind] in E.
  eapply IH; [exact E|]. now apply fold_names.
Qed.

Lemma nodup_right {A} (a b : list A) : NoDup (a ++ b) -> NoDup b.
Proof. induction a as [|x a IH]; [auto|]. intros N. inversion N; auto. Qed.
Definition prefix {A} (a b : list A) : Prop := exists r, b = a ++ r.
Lemma prefix_concat {A} (ls' ls : list (list A)) : Forall2 prefix ls' ls -> (forall x, In x (concat ls') -> In x (concat ls)) /\ (NoDup (concat ls) -> NoDup (concat ls')).
Proof.
  induction 1 as [|a b ls' ls [r ->] F [IH1 IH2]]; [split; auto|]. cbn [concat]. split.
  - intros x. rewrite !in_app_iff. intros [I|I]; [left; now left|right; auto].
  - intros N. rewrite <- app_assoc in N. pose proof (nodup_right _ _ (nodup_right _ _ N)) as N2. specialize (IH2 N2).
    clear -N IH1 IH2. induction a as [|x a IHa]; [exact IH2|]. cbn [app] in N |- *. inversion N as [|? ? NI N']; subst. constructor; [|now apply IHa].
    intros I. apply NI. apply in_app_iff in I. rewrite !in_app_iff. destruct I as [I|I]; [now left|right; right; auto].
Qed.
Lemma enumerate_F2 {A B} (f : nat -> A -> B) (R : B -> A -> Prop) l : (forall r a, In a l -> R (f r a) a) -> Forall2 R (map (fun q => f (fst q) (snd q)) (enumerate l)) l.
Proof.
  unfold enumerate. generalize 0. induction l as [|a l IH]; intros n H; [constructor|]. cbn [length seq combine map fst snd]. constructor; [apply H; now left|]. apply IH. intros r x I. apply H. now right.
Qed.
Lemma progress_names c ws : prefix (map fst (progress c ws)) (map fst ws).
Proof.
  unfold progress. rewrite map_app. assert (E0 : map fst ws = map fst (firstn (fst c) ws) ++ map fst (skipn (fst c) ws)) by (rewrite <- map_app, firstn_skipn; reflexivity). destruct (snd c) as [q|]; [|exists (map fst (skipn (fst c) ws)); now rewrite app_nil_r].
  destruct (nth_error ws (fst c)) as [w|] eqn:E; [|exists (map fst (skipn (fst c) ws)); now rewrite app_nil_r].
  apply nth_error_split in E. destruct E as (l1 & l2 & -> & L). exists (map fst l2). rewrite E0, <- L, skipn_app, skipn_all, Nat.sub_diag. cbn [skipn app map fst]. now rewrite <- app_assoc.
Qed.
Lemma progress_in c ws w' : In w' (progress c ws) -> snd c <> Some 0 -> exists w, In w ws /\ fst w' = fst w /\ prefix (snd w') (snd w) /\ (snd w <> [] -> snd w' <> []).
Proof.
  unfold progress. rewrite in_app_iff. intros [I|I] Q.
  - exists w'. split; [rewrite <- (firstn_skipn (fst c) ws); apply in_app_iff; now left|]. split; [reflexivity|]. split; [exists []; now rewrite app_nil_r|auto].
  - destruct (snd c) as [q|]; [|contradiction]. destruct (nth_error ws (fst c)) as [w|] eqn:E; [|contradiction]. destruct I as [<-|[]]. cbn [fst snd]. exists w. split; [eapply nth_error_In, E|]. split; [reflexivity|].
    split; [exists (skipn q (snd w)); now rewrite firstn_skipn|]. destruct q as [|q]; [congruence|]. destruct (snd w); [congruence|discriminate].
Qed.
Lemma nodup_parts sep ws : NoDup (map fst ws) -> Forall (fun w => NoDup (snd w) /\ forall tr, In tr (snd w) -> own_file sep tr = fst w) ws -> NoDup (concat (map snd ws)).
Proof.
  induction ws as [|[name trs] ws IH]; intros N F; [constructor|]. inversion N as [|? ? NI N']; subst. inversion F as [|? ? [NT O] F']; subst. cbn [map concat snd fst] in *. specialize (IH N' F').
  clear N F. induction trs as [|x trs IHt]; [exact IH|]. inversion NT as [|? ? NX NT']; subst. cbn [app]. constructor.
  - rewrite in_app_iff. intros [I|I]; [now apply NX|]. apply NI. rewrite <- (O x) by now left. apply in_concat in I. destruct I as (trs' & I & J). apply in_map_iff in I. destruct I as (w & <- & I).
    rewrite Forall_forall in F'. destruct (F' w I) as [_ O']. rewrite (O' x J). now apply in_map.
  - apply IHt; [exact NT'|]. intros tr I. apply O. now right.
Qed.
Lemma prefix_nodup {A} (a b : list A) : prefix a b -> NoDup b -> NoDup a.
Proof. intros [r ->] N. revert N. induction a as [|x a IH]; intros N; [constructor|]. inversion N as [|? ? NI N']; subst. constructor; [|auto]. intros I. apply NI. apply in_app_iff. now left. Qed.
Lemma prefix_in {A} (a b : list A) x : prefix a b -> In x a -> In x b.
Proof. intros [r ->] I. apply in_app_iff. now left. Qed.
Lemma stopped_step p sep d l b cut : (0 < p)%nat -> batch_ok b -> holds sep d l -> (forall r, snd (cut r) <> Some 0) ->
  exists d' P, stopped_batch p sep d b cut = Ok d' /\ holds sep d' (l ++ P) /\ (NoDup (map fst d) -> NoDup (map fst d')) /\ (forall x, In x P -> In x b) /\ (NoDup b -> NoDup P).
Proof.
  intros P B H NZ. unfold stopped_batch.
  set (codes := sorted_set (map (code_of sep) b)). set (sel := fun code => filter (fun tr => String.eqb (code_of sep tr) code) b). set (g := fun code => (file_of_code code, sel code)).
  rewrite (mapM_seq _ (fun r => map g (my_items p r codes))) by (intros r R; now apply writes_eq). cbn [bind].
  set (l0 := map (fun r => map g (my_items p r codes)) (seq 0 p)). set (ws := concat (map (fun rw => progress (cut (fst rw)) (snd rw)) (enumerate l0))).
  assert (CO : concat l0 = map g codes) by (unfold l0; rewrite <- (partition_concat p codes P) at 1; rewrite concat_map, map_map; reflexivity).
  assert (SE : forall tr code, own_file sep tr = file_of_code code <-> code_of sep tr = code).
  { intros tr code. rewrite own_file_eq. split; [apply file_of_code_inj|now intros ->]. }
  assert (WS : forall w', In w' ws -> exists code, In code codes /\ fst w' = file_of_code code /\ prefix (snd w') (sel code) /\ snd w' <> []).
  { intros w' I. apply in_concat in I. destruct I as (x & I & J). apply in_map_iff in I. destruct I as ([r w0] & <- & I). cbn [fst snd] in J. apply progress_in in J; [|apply NZ]. destruct J as (w & W & E & PR & NE).
    assert (WI : In w (concat l0)) by (apply in_concat; exists w0; split; [|exact W]; unfold enumerate in I; now apply in_combine_r in I).
    rewrite CO in WI. apply in_map_iff in WI. destruct WI as (code & <- & C). exists code. split; [exact C|]. split; [exact E|]. split; [exact PR|]. apply NE. unfold g. cbn [snd].
    apply sorted_set_in, in_map_iff in C. destruct C as (tr & <- & C). intros N. assert (J : In tr (sel (code_of sep tr))) by (apply filter_In; split; [exact C|apply String.eqb_refl]). rewrite N in J. contradiction. }
  assert (WO : forall w', In w' ws -> forall tr, In tr (snd w') -> own_file sep tr = fst w' /\ In tr b).
  { intros w' I tr T. destruct (WS w' I) as (code & _ & -> & PR & _). apply (prefix_in _ _ _ PR) in T. apply filter_In in T. destruct T as [T E]. apply String.eqb_eq in E. split; [now apply SE|exact T]. }
  exists (fold_left write_file ws d), (concat (map snd ws)). split; [reflexivity|]. split; [|split; [|split]].
  - apply write_steps; [exact H|]. apply Forall_forall. intros w' I. destruct (WS w' I) as (_ & _ & _ & _ & NE). split; [exact NE|]. intros tr T. now apply (WO w' I).
  - apply fold_names.
  - intros x I. apply in_concat in I. destruct I as (trs & I & J). apply in_map_iff in I. destruct I as (w' & <- & I). now apply (WO w' I).
  - intros N. apply (nodup_parts sep).
    + unfold ws. rewrite concat_map, map_map.
      assert (FP : Forall2 prefix (map (fun q => map fst (progress (cut (fst q)) (snd q))) (enumerate l0)) (map (map fst) l0)).
      { unfold enumerate. generalize 0. clear. induction l0 as [|a l0 IH]; intros n; [constructor|]. cbn [length seq combine map fst snd]. constructor; [apply progress_names|apply IH]. }
      apply (proj2 (prefix_concat _ _ FP)). rewrite <- concat_map, CO, map_map. cbn [fst g]. apply FinFun.Injective_map_NoDup; [intros x y; apply file_of_code_inj|apply sorted_set_nodup].
    + apply Forall_forall. intros w' I. destruct (WS w' I) as (code & _ & _ & PR & _). split; [|intros tr T; now apply (WO w' I)]. apply (prefix_nodup _ _ PR). unfold sel. now apply NoDup_filter.
Qed.
Lemma nodup_key {A B} (key : A -> B) l q : NoDup (map key l) -> NoDup q -> (forall x, In x q -> In x l) -> NoDup (map key q).
Proof.
  intros N Q S. assert (INJ : forall x y, In x l -> In y l -> key x = key y -> x = y).
  { clear -N. induction l as [|z l IH]; intros x y I J E; [contradiction|]. inversion N as [|? ? NI N']; subst. destruct I as [->|I], J as [->|J]; auto.
    - exfalso. apply NI. rewrite E. now apply in_map.
    - exfalso. apply NI. rewrite <- E. now apply in_map. }
  clear N. induction q as [|x q IH]; [constructor|]. inversion Q as [|? ? NI Q']; subst. cbn [map]. constructor; [|apply IH; [exact Q'|intros y I; apply S; now right]].
  intros I. apply in_map_iff in I. destruct I as (y & E & I). apply NI. rewrite <- (INJ y x); [exact I|apply S; now right|apply S; now left|exact E].
Qed.

Lemma nothing_to_write p sep d bs : 0 < p -> concat bs = [] -> write_batches p sep d bs = Ok d.
Proof.
  intros P. induction bs as [|b bs IH]; intros E; [reflexivity|]. cbn [concat] in E. apply app_eq_nil in E. destruct E as (-> & E). cbn [write_batches].
  assert (W : write_batch p sep d [] = Ok d).
  { unfold write_batch. assert (M : forall l, mapM (fun r => writes p r sep []) l = Ok (map (fun _ => []) l)).
    { induction l as [|r l IHl]; [reflexivity|]. cbn [mapM map]. rewrite IHl. assert (Z : writes p r sep [] = Ok []) by (unfold writes; cbn; destruct sep; rewrite ?Nat.mod_0_l by lia; reflexivity). now rewrite Z. }
    rewrite M. cbn [bind]. assert (C : concat (map (fun _ : nat => [] : list (string * list ctrace)) (seq 0 p)) = []) by (induction (seq 0 p); cbn; auto). now rewrite C. }
  rewrite W. cbn [bind]. now apply IH.
Qed.

(** *** correlations that are computed again *)
Lemma key_dec (a b : key) : {a = b} + {a <> b}.
Proof. destruct (key_eqb_spec a b); [now left|now right]. Qed.
Notation skey := (key_of "subdivision").
(** only the first correlation with a key counts *)
Fixpoint firsts (seen : list key) (l : list ctrace) : list ctrace :=
  match l with
  | [] => []
  | tr :: r => if in_dec key_dec (skey tr) seen then firsts seen r else tr :: firsts (skey tr :: seen) r
  end.
Lemma firsts_in l : forall seen tr, In tr (firsts seen l) -> In tr l.
Proof. induction l as [|a l IH]; intros seen tr I; [exact I|]. cbn in I. destruct (in_dec _ _ _); [right; eauto|]. destruct I as [->|I]; [now left|right; eauto]. Qed.
Lemma firsts_new l : forall seen tr, In tr (firsts seen l) -> ~ In (skey tr) seen.
Proof. induction l as [|a l IH]; intros seen tr I; [contradiction|]. cbn in I. destruct (in_dec _ _ _); [eauto|]. destruct I as [<-|I]; [assumption|]. intros J. apply (IH _ _ I). now right. Qed.
Lemma firsts_keys l : forall seen, NoDup (map skey (firsts seen l)).
Proof.
  induction l as [|a l IH]; intros seen; [constructor|]. cbn. destruct (in_dec _ _ _); [apply IH|]. cbn. constructor; [|apply IH].
  intros I. apply in_map_iff in I. destruct I as (tr & E & I). apply firsts_new in I. apply I. rewrite E. now left.
Qed.
Lemma firsts_all l : forall seen tr, In tr l -> In (skey tr) seen \/ exists tr', In tr' (firsts seen l) /\ skey tr' = skey tr.
Proof.
  induction l as [|a l IH]; intros seen tr I; [contradiction|]. cbn. destruct I as [->|I].
  - destruct (in_dec _ _ _); [now left|]. right. exists tr. split; [now left|reflexivity].
  - destruct (in_dec _ _ _); [now apply IH|]. destruct (IH (skey a :: seen) tr I) as [[E|J]|(tr' & J & E)]; [right; exists a; split; [now left|exact E]|now left|right; exists tr'; split; [now right|exact E]].
Qed.
Lemma firsts_none l : forall seen, (forall tr, In tr l -> In (skey tr) seen) -> firsts seen l = [].
Proof. induction l as [|a l IH]; intros seen H; [reflexivity|]. cbn. destruct (in_dec _ _ _) as [I|I]; [apply IH; intros; apply H; now right|]. exfalso. apply I, H. now left. Qed.
Lemma firsts_again l : forall seen l', NoDup (map skey l) -> (forall tr, In tr l -> ~ In (skey tr) seen) -> (forall tr, In tr l' -> In (skey tr) (map skey l)) -> firsts seen (l ++ l') = l.
Proof.
  assert (G : forall l seen l', NoDup (map skey l) -> (forall tr, In tr l -> ~ In (skey tr) seen) -> (forall tr, In tr l' -> In (skey tr) (map skey l) \/ In (skey tr) seen) -> firsts seen (l ++ l') = l).
  { clear l. induction l as [|a l IH]; intros seen l' N D H; cbn [app].
    - apply firsts_none. intros tr I. destruct (H tr I) as [[]|J]; exact J.
    - cbn. inversion N as [|? ? NI N']; subst. destruct (in_dec _ _ _) as [I|I]; [exfalso; apply (D a); [now left|exact I]|]. f_equal. apply IH; [exact N'| |].
      + intros tr T [E|J]; [apply NI; rewrite E; now apply in_map|apply (D tr); [now right|exact J]].
      + intros tr T. destruct (H tr T) as [[E|J]|J]; [right; left; exact E|now left|right; now right]. }
  intros seen l' N D H. apply G; auto.
Qed.
(** adding a correlation that is there does nothing *)
Lemma add_again ops tr : Forall valid_op ops -> storable tr -> spec_all ops (skey tr) <> None -> exec (exec_all ops) (Add tr "subdivision") = exec_all ops.
Proof.
  intros V (HN & HS & HE) P. pose proof (rep_all ops V) as R. pose proof (key_of_valid _ _ HN HS HE) as HV. cbn [exec add_correlation fold_left]. unfold add_one. rewrite trace_path_key by assumption.
  rewrite comps_slashed by (eapply Forall_impl; [intros a; apply name_ok_ok|apply kpath_names; exact HV]).
  pose proof (rep_lookup _ _ _ R HV) as El. pose proof (H5Facts.create_iff 6 (exec_all ops) (kpath (skey tr)) (stored tr) (rep_good _ _ R) eq_refl ltac:(lia)) as CI.
  destruct (H5.create _ _ _) as [f'|] eqn:Ec; [|reflexivity]. exfalso. assert (Some f' = None) by (apply CI; rewrite El; destruct (spec_all ops (skey tr)); congruence). discriminate.
Qed.
Lemma firsts_exec l : forall seen ops, Forall valid_op ops -> Forall storable l -> (forall k, In k seen -> spec_all ops k <> None) ->
  exec_all (ops ++ adds l) = exec_all (ops ++ adds (firsts seen l)).
Proof.
  induction l as [|tr l IH]; intros seen ops V F S; [reflexivity|]. inversion F as [|? ? ST F']; subst. cbn [adds map firsts]. change (map _ l) with (adds l).
  assert (C : forall x, (ops ++ Add tr "subdivision" :: x)%list = ((ops ++ [Add tr "subdivision"]) ++ x)%list) by (intros x; now rewrite <- app_assoc).
  destruct (in_dec _ _ _) as [I|I].
  - rewrite (C (adds l)). unfold exec_all at 1. rewrite fold_left_app. fold (exec_all (ops ++ [Add tr "subdivision"])). rewrite exec_snoc, add_again by auto. unfold exec_all at 1. rewrite <- fold_left_app. fold (exec_all (ops ++ adds l)). now apply IH.
  - cbn [map]. change (map _ (firsts (skey tr :: seen) l)) with (adds (firsts (skey tr :: seen) l)). rewrite (C (adds l)), (C (adds (firsts (skey tr :: seen) l))). apply IH; [apply Forall_app; split; [exact V|now constructor]|exact F'|].
    intros k K. rewrite spec_snoc. cbn [spec]. unfold db_add. destruct (key_eqb_spec k (skey tr)) as [->|NE]; [destruct (spec_all ops (skey tr)); discriminate|]. apply S. destruct K as [K|K]; [congruence|exact K].
Qed.
Lemma own_file_key sep a b : skey a = skey b -> own_file sep a = own_file sep b.
Proof. unfold key_of. intros E. injection E as E1 E2 E3 _ _. unfold own_file. now rewrite E1, E2, E3. Qed.
Lemma firsts_of_file sep name l : forall seen seen', (forall tr, own_file sep tr = name -> (In (skey tr) seen <-> In (skey tr) seen')) ->
  of_file sep name (firsts seen l) = firsts seen' (of_file sep name l).
Proof.
  induction l as [|tr l IH]; intros seen seen' S; [reflexivity|]. unfold of_file. cbn [firsts filter]. fold (of_file sep name l). destruct (String.eqb_spec (own_file sep tr) name) as [E|E].
  - cbn [firsts]. destruct (in_dec key_dec (skey tr) seen) as [I|I], (in_dec key_dec (skey tr) seen') as [J|J].
    + now apply IH.
    + exfalso. now apply J, S.
    + exfalso. now apply I, S.
    + cbn [filter]. rewrite E, String.eqb_refl. f_equal. apply IH. intros a A. cbn. rewrite (S a A). reflexivity.
  - destruct (in_dec _ _ _); [now apply IH|]. cbn [filter]. destruct (String.eqb_spec (own_file sep tr) name); [contradiction|]. apply IH. intros a A. rewrite <- (S a A). cbn. split; [|tauto]. intros [K|K]; [|exact K].
    exfalso. apply E. rewrite <- A. now apply own_file_key.
Qed.
Lemma firsts_holds sep d l : Forall storable l -> holds sep d l -> holds sep d (firsts [] l).
Proof.
  intros F H name. rewrite H, (firsts_of_file sep name l [] []) by tauto. pose proof (storable_sub sep name l F) as F'. destruct (of_file sep name l) as [|tr r]; [reflexivity|].
  pose proof (firsts_exec (tr :: r) [] [] (Forall_nil _) F' ltac:(intros k [])) as E. cbn [app] in E. rewrite E. cbn [firsts]. destruct (in_dec _ _ _) as [[]|]. reflexivity.
Qed.
