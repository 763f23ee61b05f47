From Verif Require Import Lib.Base Lib.Str Lib.StrFacts Lib.Sorting Lib.Time Lib.TimeFacts Model.H5 Model.CorrTrace Model.CorrDB Model.Combos
  Model.Rerun Spec.ComboSpec Spec.DBSpec Spec.XCombiSpec Spec.DirSpec Proofs.ComboFacts Proofs.H5Facts Proofs.CorrDBFacts Proofs.ListingFacts Proofs.XCombiFacts Proofs.QueryOrder.
From Coq Require Import Sorted.
Local Open Scope nat_scope.
Local Open Scope string_scope.
#[local] Opaque format_fissures tick_text time_ok.

(** ** dictionaries *)
Section D.
  Context {V : Type}.
  Implicit Types d e : list (string * V).
  Lemma dget_dset_same d k v : dget (dset d k v) k = Some v.
  Proof.
    induction d as [|[k' v'] d IH]; cbn [dset dget]; [now rewrite String.eqb_refl|].
    destruct (String.eqb k k') eqn:E; cbn [dget]; [now rewrite String.eqb_refl|now rewrite E].
  Qed.
  Lemma dget_dset_other d k v k0 : k0 <> k -> dget (dset d k v) k0 = dget d k0.
  Proof.
    intros H. induction d as [|[k' v'] d IH]; cbn [dset dget].
    - destruct (String.eqb_spec k0 k); congruence.
    - destruct (String.eqb_spec k k') as [->|]; cbn [dget].
      + destruct (String.eqb_spec k0 k'); congruence.
      + now rewrite IH.
  Qed.
  Lemma dget_In d k v : dget d k = Some v -> In (k, v) d.
  Proof.
    induction d as [|[k' v'] d IH]; cbn [dget]; [discriminate|]. destruct (String.eqb_spec k k') as [->|]; intros H; [injection H as ->; now left|right; auto].
  Qed.
  Lemma dget_nodup d k v : NoDup (map fst d) -> In (k, v) d -> dget d k = Some v.
  Proof.
    induction d as [|[k' v'] d IH]; intros HN H; [contradiction|]. inversion HN; subst. cbn [dget].
    destruct (String.eqb_spec k k') as [->|Hne].
    - destruct H as [H|H]; [congruence|]. exfalso. apply H2. now apply (in_map fst) in H.
    - apply IH; auto. destruct H; [congruence|auto].
  Qed.
  Lemma dget_dupdate e : forall d k, NoDup (map fst e) -> dget (dupdate d e) k = match dget e k with Some v => Some v | None => dget d k end.
  Proof.
    unfold dupdate. induction e as [|[k' v'] e IH]; intros d k HN; [reflexivity|]. inversion HN; subst. cbn [fold_left fst snd dget].
    rewrite IH by auto. destruct (String.eqb_spec k k') as [->|Hne].
    - destruct (dget e k') eqn:E; [|now rewrite dget_dset_same]. exfalso. apply H1. apply dget_In in E. now apply (in_map fst) in E.
    - now rewrite dget_dset_other.
  Qed.
End D.

(** ** listing of one file *)
Definition listed (f : file) (nc sc tag c s : string) : Prop :=
  exists e l, get_available_starttimes f nc sc tag "*" = Ok e /\ dget e c = Some l /\ In s l.

Lemma listing_nodup ops nc sc tag e : Forall valid_op ops -> name_ok tag -> name_ok nc -> name_ok sc ->
  get_available_starttimes (exec_all ops) nc sc tag "*" = Ok e -> NoDup (map fst e).
Proof.
  intros HV H1 H2 H3 HE. pose proof (starttimes_wild_exact _ _ nc sc tag "*" (rep_all ops HV) H1 H2 H3 eq_refl) as H.
  rewrite HE in H. apply H.
Qed.
Lemma listed_iff ops nc sc tag c s : Forall valid_op ops -> name_ok tag -> name_ok nc -> name_ok sc ->
  (listed (exec_all ops) nc sc tag c s <-> exists a t, s = tick_text a /\ spec_all ops (mkKey tag nc sc c a t) <> None).
Proof.
  intros HV H1 H2 H3. pose proof (starttimes_wild_exact _ _ nc sc tag "*" (rep_all ops HV) H1 H2 H3 eq_refl) as H.
  unfold listed. split.
  - intros (e & l & HE & Hg & Hs). rewrite HE in H. destruct H as (_ & _ & H). apply (H c s). exists l. split; auto. now apply dget_In.
  - intros (a & t & -> & Hm). destruct (get_available_starttimes _ _ _ _ _) as [e|x] eqn:E.
    + destruct H as (HN & _ & H). destruct (proj2 (H c (tick_text a))) as (l & Hl & Hs).
      { split; [apply fnmatch_star_all|eauto]. }
      exists e, l. split; auto. split; auto. now apply dget_nodup.
    + destruct H as [_ H]. congruence.
Qed.
(** after additions, a listed channel has data *)
Lemma listed_key ops nc sc tag c l e : Forall valid_op ops -> additions ops = true -> name_ok tag -> name_ok nc -> name_ok sc ->
  get_available_starttimes (exec_all ops) nc sc tag "*" = Ok e -> dget e c = Some l ->
  exists a t, spec_all ops (mkKey tag nc sc c a t) <> None.
Proof.
  intros HV HA H1 H2 H3 HE Hg. apply channels_exact; auto. rewrite channels_eq by auto.
  rewrite get_starttimes_wild in HE; auto; [|exact (conj H1 (conj H2 (conj H3 name_ok_x)))].
  destruct (lookup _ _) as [[d|ch]|]; try discriminate. injection HE as <-. apply dget_In in Hg. cbn [keys].
  apply in_map_iff in Hg as (x & E & Hx). injection E as -> _. unfold fnfilter in Hx. now apply filter_In in Hx.
Qed.

(** ** the files of a pair *)
Lemma name_glob nc sc sfx nc' sc' : plain nc' = true -> plain sc' = true ->
  String.length nc = String.length nc' -> String.length sc = String.length sc' ->
  fnmatch (nc ++ "." ++ sc ++ sfx ++ ".h5") (nc' ++ "." ++ sc' ++ "*.h5") = true <-> nc = nc' /\ sc = sc'.
Proof.
  intros P1 P2 L1 L2. split.
  - intros H. change "*.h5" with (String "*" ".h5") in H. rewrite <- !append_assoc in H.
    apply fnmatch_prefix in H as (r & E & _); [|rewrite !plain_app, P1, P2; reflexivity].
    rewrite !append_assoc in E. apply append_inj_len in E as [-> E]; auto. apply append_inj_l in E.
    apply append_inj_len in E as [-> _]; auto.
  - intros [-> ->]. change "*.h5" with (String "*" ".h5"). rewrite <- !append_assoc.
    rewrite (append_assoc ((nc' ++ ".") ++ sc') sfx). apply fn_lit_star; [rewrite !plain_app, P1, P2; reflexivity|reflexivity].
Qed.
Lemma out_name_eq sep nc sc cha : out_name sep nc sc cha = nc ++ "." ++ sc ++ (if sep then "." ++ cha else "") ++ ".h5".
Proof. reflexivity. Qed.

Lemma len_app a b : String.length (a ++ b) = String.length a + String.length b.
Proof. induction a; simpl; auto. Qed.

Lemma glob_iff sep ln ls h nc sc name f : hist_ok sep ln ls h -> plain nc = true -> plain sc = true ->
  String.length nc = ln + 1 + ln -> String.length sc = ls + 1 + ls ->
  (In (name, f) (glob_pair (dir_of h) nc sc) <->
   exists ops cha, In (name, ops) h /\ f = exec_all ops /\ name = out_name sep nc sc cha /\
     forall k, spec_all ops k <> None -> k_net k = nc /\ k_sta k = sc /\ (sep = true -> k_cha k = cha)).
Proof.
  intros [_ HF] P1 P2 L1 L2. rewrite Forall_forall in HF. unfold glob_pair. rewrite filter_In. unfold dir_of. rewrite in_map_iff. cbn [fst snd]. split.
  - intros [([nm ops] & E & Hin) Hm]. cbn [fst snd] in E. injection E as -> <-. destruct (HF _ Hin) as (_ & _ & nc' & sc' & cha & E & L1' & L2' & HK).
    cbn [fst snd] in *. rewrite E, out_name_eq in Hm. apply name_glob in Hm as [-> ->]; auto; try congruence. exists ops, cha. auto.
  - intros (ops & cha & Hin & -> & E & _). split; [now exists (name, ops)|]. rewrite E, out_name_eq. now apply name_glob.
Qed.

Lemma nodup_fst {A B} (l : list (A * B)) a b b' : NoDup (map fst l) -> In (a, b) l -> In (a, b') l -> b = b'.
Proof.
  induction l as [|[x y] l IH]; intros HN H H'; [contradiction|]. inversion HN; subst.
  destruct H as [H|H], H' as [H'|H']; try congruence; auto; exfalso; apply H2; [injection H as -> ->|injection H' as -> ->]; eapply (in_map fst) in H || eapply (in_map fst) in H'; eauto.
Qed.

(** ** collecting the start times of all files of a pair *)
Lemma collect_get fs nc sc tag : forall d t c, collect fs nc sc tag "*" d = Ok t ->
  (forall n f e, In (n, f) fs -> get_available_starttimes f nc sc tag "*" = Ok e -> NoDup (map fst e)) ->
  (forall l, dget t c = Some l -> dget d c = Some l \/ exists n f e, In (n, f) fs /\ get_available_starttimes f nc sc tag "*" = Ok e /\ dget e c = Some l) /\
  (forall l, (dget d c = Some l \/ exists n f e, In (n, f) fs /\ get_available_starttimes f nc sc tag "*" = Ok e /\ dget e c = Some l) ->
     (forall n f e l', In (n, f) fs -> get_available_starttimes f nc sc tag "*" = Ok e -> dget e c = Some l' -> l' = l) -> dget t c = Some l).
Proof.
  induction fs as [|[n0 f0] fs IH]; intros d t c H HN.
  - cbn [collect] in H. injection H as <-. split; [auto|]. intros l [Hl|(? & ? & ? & [] & _)] _; auto.
  - cbn [collect snd] in H. destruct (get_available_starttimes f0 nc sc tag "*") as [e0|] eqn:E0; [|discriminate]. cbn [bind] in H.
    assert (N0 : NoDup (map fst e0)) by (apply (HN n0 f0); [now left|auto]).
    destruct (IH _ _ c H) as [A B]; [intros; eapply HN; [right|]; eauto|]. rewrite dget_dupdate in A, B by auto. split.
    + intros l Hl. destruct (A l Hl) as [A1|(n & f & e & I & G & D)].
      * destruct (dget e0 c) eqn:D0; [|auto]. injection A1 as ->. right. exists n0, f0, e0. repeat split; auto. now left.
      * right. exists n, f, e. repeat split; auto. now right.
    + intros l HS HU. apply B; [|intros; eapply HU; [right|..]; eauto].
      destruct (dget e0 c) as [l0|] eqn:D0.
      * left. f_equal. apply (HU n0 f0 e0); auto. now left.
      * destruct HS as [HS|(n & f & e & [I|I] & G & D)]; [auto|injection I as <- <-; congruence|right; exists n, f, e; auto].
Qed.

(** collected start times of a pair: exactly what the directory holds *)
Lemma out_name_cha nc sc cha cha' : out_name true nc sc cha = out_name true nc sc cha' -> cha = cha'.
Proof.
  unfold out_name. intros E. do 3 apply append_inj_l in E. rewrite !append_assoc in E. apply append_inj_l in E.
  assert (L : String.length cha = String.length cha') by (apply (f_equal String.length) in E; rewrite !len_app in E; lia).
  now apply append_inj_len in E as [-> _].
Qed.

Lemma collect_exact sep ln ls h nc sc tag t c s : hist_ok sep ln ls h -> name_ok nc -> name_ok sc -> name_ok tag ->
  String.length nc = ln + 1 + ln -> String.length sc = ls + 1 + ls ->
  collect (glob_pair (dir_of h) nc sc) nc sc tag "*" [] = Ok t ->
  ((exists l, dget t c = Some l /\ In s l) <->
   exists name ops a e, In (name, ops) h /\ s = tick_text a /\ spec_all ops (mkKey tag nc sc c a e) <> None).
Proof.
  intros HO N1 N2 N3 L1 L2 H. pose proof HO as [HD HF]. rewrite Forall_forall in HF.
  assert (G := fun n f => glob_iff sep ln ls h nc sc n f HO (proj2 (proj2 N1)) (proj2 (proj2 N2)) L1 L2).
  assert (SRC : forall n f, In (n, f) (glob_pair (dir_of h) nc sc) -> exists ops cha, In (n, ops) h /\ f = exec_all ops /\
     Forall valid_op ops /\ additions ops = true /\ n = out_name sep nc sc cha /\
     forall k, spec_all ops k <> None -> k_net k = nc /\ k_sta k = sc /\ (sep = true -> k_cha k = cha)).
  { intros n f Hin. apply G in Hin as (ops & cha & Hin & -> & E & HK). destruct (HF _ Hin) as (V & A & _). exists ops, cha. auto 12. }
  destruct (collect_get _ nc sc tag [] t c H) as [A B].
  { intros n f e Hin HE. apply SRC in Hin as (ops & cha & _ & -> & V & _). eapply listing_nodup; [exact V|exact N3|exact N1|exact N2|exact HE]. }
  assert (U : forall n f e l n' f' e' l', In (n, f) (glob_pair (dir_of h) nc sc) -> get_available_starttimes f nc sc tag "*" = Ok e -> dget e c = Some l ->
     In (n', f') (glob_pair (dir_of h) nc sc) -> get_available_starttimes f' nc sc tag "*" = Ok e' -> dget e' c = Some l' -> l' = l).
  { intros n f e l n' f' e' l' I E D I' E' D'.
    apply SRC in I as (ops & cha & I & -> & V & Ad & Nm & HK). apply SRC in I' as (ops' & cha' & I' & -> & V' & Ad' & Nm' & HK').
    assert (EN : n' = n).
    { destruct sep; [|rewrite Nm, Nm'; reflexivity].
      destruct (listed_key _ _ _ _ _ _ _ V Ad N3 N1 N2 E D) as (a & t0 & K). destruct (listed_key _ _ _ _ _ _ _ V' Ad' N3 N1 N2 E' D') as (a' & t0' & K').
      apply HK in K as (_ & _ & K). apply HK' in K' as (_ & _ & K'). cbn [k_cha] in K, K'. specialize (K eq_refl). specialize (K' eq_refl). congruence. }
    rewrite EN in I'. pose proof (nodup_fst _ _ _ _ HD I I') as <-. congruence. }
  split.
  - intros (l & Hl & Hs). destruct (A l Hl) as [X|(n & f & e & I & E & D)]; [discriminate|].
    apply SRC in I as (ops & cha & I & -> & V & _). 
    assert (LS : listed (exec_all ops) nc sc tag c s) by (exists e, l; auto).
    apply listed_iff in LS as (a & t0 & -> & K); auto. exists n, ops, a, t0. auto.
  - intros (name & ops & a & t0 & I & -> & K). destruct (HF _ I) as (V & Ad & nc' & sc' & cha & Nm & L1' & L2' & HK). cbn [fst snd] in *.
    pose proof (HK _ K) as (E1 & E2 & KC). cbn [k_net k_sta] in E1, E2. subst nc' sc'.
    assert (LS : listed (exec_all ops) nc sc tag c (tick_text a)) by (apply listed_iff; eauto).
    destruct LS as (e & l & E & D & Hs). exists l. split; auto.
    assert (IG : In (name, exec_all ops) (glob_pair (dir_of h) nc sc)).
    { apply G. exists ops, cha. auto. }
    apply B; [right; exists name, (exec_all ops), e; auto|]. intros n f e' l' I' E' D'. exact (U name (exec_all ops) e l n f e' l' IG E D I' E' D').
Qed.

(** ** the pairs of stations *)
Definition ordered (a b : trace) : trace * trace :=
  if str_le (t_net a ++ t_sta a ++ t_cha a) (t_net b ++ t_sta b ++ t_cha b) then (a, b) else (b, a).

Lemma compare_eq ex a b : compare_existing_data ex a b =
  let (x, y) := ordered a b in
  match ex_get ex (t_net x ++ "." ++ t_sta x) (t_net y ++ "." ++ t_sta y) (t_cha x ++ "-" ++ t_cha y) with
  | Some l => str_in (format_fissures (Z.max (t_start a) (t_start b))) l
  | None => false
  end.
Proof.
  unfold compare_existing_data, sort_comb, ordered. cbv zeta. destruct (str_le _ _) eqn:E; cbn [fst snd].
  - rewrite !String.eqb_refl. reflexivity.
  - match goal with |- context [negb ?x] => destruct x eqn:S end; [|reflexivity].
    rewrite !andb_true_iff, !String.eqb_eq in S. destruct S as (([E1 _] & [E2 _]) & E3 & _). rewrite E1, E2, E3, str_le_refl in E. discriminate.
Qed.
Lemma names_of_eq a b : names_of a b =
  let (x, y) := ordered a b in (t_net x ++ "-" ++ t_net y, t_sta x ++ "-" ++ t_sta y, t_cha x ++ "-" ++ t_cha y).
Proof. unfold names_of, sort_comb, ordered. cbv zeta. now destruct (str_le _ _). Qed.

Lemma in_later_pairs {A} (l : list A) x y : In x l -> In y l -> x <> y -> In (x, y) (later_pairs l) \/ In (y, x) (later_pairs l).
Proof.
  induction l as [|z l IH]; intros Hx Hy Hne; [contradiction|]. cbn. rewrite !in_app_iff, !in_map_iff.
  destruct Hx as [<-|Hx], Hy as [<-|Hy].
  - congruence.
  - left. left. eauto.
  - right. left. eauto.
  - destruct (IH Hx Hy Hne); auto.
Qed.
Lemma in_simple_pairs {A} (l : list A) x y : In x l -> In y l -> In (x, y) (simple_pairs l) \/ In (y, x) (simple_pairs l).
Proof.
  induction l as [|z l IH]; intros Hx Hy; [contradiction|]. cbn. rewrite !in_app_iff, !in_map_iff.
  destruct Hx as [<-|Hx], Hy as [<-|Hy]; auto.
  - left. right. left. eauto.
  - right. right. left. eauto.
  - destruct (IH Hx Hy); auto.
Qed.
Lemma later_pairs_in {A} (l : list A) x y : In (x, y) (later_pairs l) -> In x l /\ In y l.
Proof.
  induction l as [|z l IH]; [intros []|]. cbn. rewrite in_app_iff, in_map_iff. intros [(w & E & H)|H].
  - injection E as <- <-. auto.
  - destruct (IH H). auto.
Qed.
Lemma simple_pairs_in {A} (l : list A) x y : In (x, y) (simple_pairs l) -> In x l /\ In y l.
Proof.
  induction l as [|z l IH]; [intros []|]. cbn. rewrite in_app_iff, in_map_iff. intros [E|[(w & E & H)|H]].
  - injection E as <- <-. auto.
  - injection E as <- <-. auto.
  - destruct (IH H). auto.
Qed.

Definition codes_of (a : trace) : string * string := (t_net a, t_sta a).
Lemma le_prefix_len n1 s1 c1 n2 s2 c2 : String.length n1 = String.length n2 -> String.length s1 = String.length s2 -> (n1, s1) <> (n2, s2) ->
  str_le (n1 ++ s1 ++ c1) (n2 ++ s2 ++ c2) = str_le (n1 ++ s1 ++ "") (n2 ++ s2 ++ "").
Proof.
  intros Ln Ls Hne. rewrite !str_le_lex by auto. destruct (String.compare n1 n2) eqn:E; auto.
  destruct (String.compare s1 s2) eqn:E2; auto.
  apply String.compare_eq_iff in E, E2. congruence.
Qed.
Lemma pair_codes_sym p q : String.length (fst p) = String.length (fst q) -> String.length (snd p) = String.length (snd q) -> pair_codes p q = pair_codes q p.
Proof.
  destruct p as [n1 s1], q as [n2 s2]. cbn [fst snd]. intros Ln Ls. unfold pair_codes, sort_comb. cbv zeta. cbn [fst snd].
  destruct (str_le (n1 ++ s1 ++ "") (n2 ++ s2 ++ "")) eqn:E1, (str_le (n2 ++ s2 ++ "") (n1 ++ s1 ++ "")) eqn:E2; auto.
  - pose proof (str_le_antisym _ _ E1 E2) as E. apply append_inj_len in E as [-> E]; auto. apply append_inj_len in E as [-> _]; auto.
  - destruct (str_le_total (n1 ++ s1 ++ "") (n2 ++ s2 ++ "")); congruence.
Qed.
Lemma pair_codes_ordered a b : String.length (t_net a) = String.length (t_net b) -> String.length (t_sta a) = String.length (t_sta b) ->
  pair_codes (codes_of a) (codes_of b) = let (x, y) := ordered a b in (t_net x ++ "-" ++ t_net y, t_sta x ++ "-" ++ t_sta y).
Proof.
  intros Ln Ls. unfold pair_codes, sort_comb, ordered, codes_of. cbv zeta. cbn [fst snd].
  destruct (string_dec (t_net a) (t_net b)) as [E1|E1], (string_dec (t_sta a) (t_sta b)) as [E2|E2].
  - rewrite E1, E2. destruct (str_le _ _), (str_le _ _); cbn [fst snd]; now rewrite ?E1, ?E2.
  - rewrite <- (le_prefix_len _ _ (t_cha a) _ _ (t_cha b)) by (auto; congruence). now destruct (str_le _ _).
  - rewrite <- (le_prefix_len _ _ (t_cha a) _ _ (t_cha b)) by (auto; congruence). now destruct (str_le _ _).
  - rewrite <- (le_prefix_len _ _ (t_cha a) _ _ (t_cha b)) by (auto; congruence). now destruct (str_le _ _).
Qed.
(** the request list names the two stations as they are named in the files *)
Definition plainly_asked (rc : option (list string)) (method : string) (a b : trace) : Prop :=
  method = "betweenStations" -> forall l, rc = Some l -> let c := pair_codes (codes_of a) (codes_of b) in In (fst c ++ "." ++ snd c) l.
Lemma combs_cover_rc stations method rc a b combs :
  station_combinations stations method rc = Ok combs -> In (codes_of a) stations -> In (codes_of b) stations ->
  String.length (t_net a) = String.length (t_net b) -> String.length (t_sta a) = String.length (t_sta b) -> method_pair method a b -> plainly_asked rc method a b ->
  In (pair_codes (codes_of a) (codes_of b)) combs.
Proof.
  intros H Ha Hb Ln Ls HM HR. unfold station_combinations in H. cbv zeta in HM.
  destruct HM as [[-> HM]|[[-> HM]|[[-> HM]|[->| ->]]]]; cbn [String.eqb Ascii.eqb Bool.eqb orb] in H; injection H as <-.
  - apply filter_In. split; [|destruct rc as [l|]; [|reflexivity]; unfold str_in; apply existsb_exists; eexists; split; [apply (HR eq_refl l eq_refl)|apply String.eqb_refl]]. apply in_map_iff.
    assert (Hne : codes_of a <> codes_of b) by (unfold codes_of; intros [= E1 E2]; tauto).
    assert (NEQ : forall p q : string * string, p <> q -> str_neq (fst p) (fst q) || str_neq (snd p) (snd q) = true).
    { intros [p1 p2] [q1 q2] N. cbn [fst snd]. unfold str_neq. destruct (String.eqb_spec p1 q1), (String.eqb_spec p2 q2); try reflexivity. congruence. }
    destruct (in_later_pairs stations _ _ Ha Hb Hne) as [I|I].
    + exists (codes_of a, codes_of b). split; auto. apply filter_In. split; auto.
    + exists (codes_of b, codes_of a). cbn [fst snd]. split; [now apply pair_codes_sym|]. apply filter_In. split; auto.
  - destruct HM as [E1 E2]. rewrite pair_codes_ordered by auto. apply in_map_iff. exists (codes_of a). split; auto. unfold codes_of, ordered. cbn [fst snd].
    destruct (str_le _ _); now rewrite E1, E2.
  - destruct HM as [E1 E2]. rewrite pair_codes_ordered by auto. apply in_map_iff. exists (codes_of a). split; auto. unfold codes_of, ordered. cbn [fst snd].
    destruct (str_le _ _); now rewrite E1, E2.
  - apply in_map_iff. destruct (in_simple_pairs stations _ _ Ha Hb) as [I|I].
    + exists (codes_of a, codes_of b). auto.
    + exists (codes_of b, codes_of a). split; auto. now apply pair_codes_sym.
  - apply in_map_iff. exists (codes_of a, codes_of b). split; auto. now apply in_prod.
Qed.
Lemma combs_cover stations method a b combs :
  station_combinations stations method None = Ok combs -> In (codes_of a) stations -> In (codes_of b) stations ->
  String.length (t_net a) = String.length (t_net b) -> String.length (t_sta a) = String.length (t_sta b) -> method_pair method a b ->
  In (pair_codes (codes_of a) (codes_of b)) combs.
Proof. intros H Ha Hb Ln Ls HM. apply (combs_cover_rc stations method None a b combs); auto. discriminate. Qed.

(** all combinations are pairs of seed codes *)
Definition pair_ok (p : string * string) : Prop :=
  exists n0 n1 s0 s1, seed n0 /\ seed n1 /\ seed s0 /\ seed s1 /\ p = (n0 ++ "-" ++ n1, s0 ++ "-" ++ s1).
Definition seed2 (p : string * string) : Prop := seed (fst p) /\ seed (snd p).
Lemma pair_codes_ok p q : seed2 p -> seed2 q -> pair_ok (pair_codes p q).
Proof.
  intros [P1 P2] [Q1 Q2]. unfold pair_codes, sort_comb. cbv zeta. unfold pair_ok. destruct (str_le _ _); cbn [fst snd];
    [exists (fst p), (fst q), (snd p), (snd q)|exists (fst q), (fst p), (snd q), (snd p)]; auto 10.
Qed.
Lemma combs_ok stations method rc combs : Forall seed2 stations -> station_combinations stations method rc = Ok combs -> Forall pair_ok combs.
Proof.
  intros HS H. rewrite Forall_forall in HS. apply Forall_forall. intros c Hc. unfold station_combinations in H.
  destruct (String.eqb method "betweenStations"); [injection H as <-|destruct (_ || _); [injection H as <-|
    destruct (String.eqb method "allSimpleCombinations"); [injection H as <-|destruct (String.eqb method "allCombinations"); [injection H as <-|discriminate]]]].
  - apply filter_In in Hc as [Hc _]. apply in_map_iff in Hc as ([p q] & <- & Hc). apply filter_In in Hc as [Hc _]. apply later_pairs_in in Hc as [Hp Hq]. now apply pair_codes_ok; apply HS.
  - apply in_map_iff in Hc as (p & <- & Hp). destruct (HS p Hp). exists (fst p), (fst p), (snd p), (snd p). auto 10.
  - apply in_map_iff in Hc as ([p q] & <- & Hc). apply simple_pairs_in in Hc as [Hp Hq]. now apply pair_codes_ok; apply HS.
  - apply in_map_iff in Hc as ([p q] & <- & Hc). apply in_prod_iff in Hc as [Hp Hq]. now apply pair_codes_ok; apply HS.
Qed.

(** ** the loop over the pairs *)
Definition get2 (ex : ex_dict) (k0 k1 : string) : option (list (string * list string)) :=
  match dget ex k0 with Some d => dget d k1 | None => None end.
Lemma get2_set ex k0 k1 t x y : 
  get2 (dset ex k0 (dset (match dget ex k0 with Some i => i | None => [] end) k1 t)) x y =
  if String.eqb x k0 && String.eqb y k1 then Some t else get2 ex x y.
Proof.
  unfold get2. destruct (String.eqb_spec x k0) as [->|Hx].
  - rewrite dget_dset_same. destruct (String.eqb_spec y k1) as [->|Hy]; [now rewrite dget_dset_same|].
    rewrite dget_dset_other by auto. now destruct (dget ex k0).
  - now rewrite dget_dset_other.
Qed.
Lemma dot_inj a b c d : seed a -> seed b -> seed c -> seed d -> a ++ "." ++ b = c ++ "." ++ d -> a = c /\ b = d.
Proof.
  intros (_ & A & _) (_ & B & _) (_ & C & _) (_ & D & _) E. apply (f_equal (split_on ".")) in E. rewrite !dot, !split_on_app, !split_on_no in E by auto.
  injection E as -> ->. auto.
Qed.
Lemma split_dash a b : seed a -> seed b -> split_on "-" (a ++ "-" ++ b) = [a; b].
Proof. apply split_pair. Qed.

Lemma loop_get d tag : forall combs ex ex', existing_loop d combs tag "*" ex = Ok ex' -> Forall pair_ok combs ->
  forall n0 n1 s0 s1, seed n0 -> seed n1 -> seed s0 -> seed s1 ->
  let nc := n0 ++ "-" ++ n1 in let sc := s0 ++ "-" ++ s1 in
  let g := get2 ex' (n0 ++ "." ++ s0) (n1 ++ "." ++ s1) in
  (g = get2 ex (n0 ++ "." ++ s0) (n1 ++ "." ++ s1) /\ (In (nc, sc) combs -> glob_pair d nc sc = [])) \/
  (glob_pair d nc sc <> [] /\ exists t, collect (glob_pair d nc sc) nc sc tag "*" [] = Ok t /\ g = Some t).
Proof.
  induction combs as [|[nc0 sc0] combs IH]; intros ex ex' H HO n0 n1 s0 s1 N0 N1 S0 S1; cbv zeta.
  - cbn [existing_loop] in H. injection H as <-. left. split; auto. intros [].
  - inversion HO as [|? ? H1 H2]; subst. destruct H1 as (m0 & m1 & r0 & r1 & M0 & M1 & R0 & R1 & E). apply pair_equal_spec in E as [-> ->].
    cbn [existing_loop] in H.
    destruct (glob_pair d (m0 ++ "-" ++ m1) (r0 ++ "-" ++ r1)) as [|g0 gs] eqn:EG.
    + destruct (IH _ _ H H2 n0 n1 s0 s1 N0 N1 S0 S1) as [[A B]|A]; [left|right; exact A]. split; auto. intros [E|I]; auto.
      apply pair_equal_spec in E as [E1 E2]. now rewrite <- E1, <- E2.
    + rewrite <- EG in H. destruct (collect _ _ _ _ _ _) as [t|] eqn:EC; [|discriminate]. cbn [bind] in H. rewrite !split_dash in H by auto. cbn [two bind fst snd] in H.
      destruct (IH _ _ H H2 n0 n1 s0 s1 N0 N1 S0 S1) as [[A B]|A]; [|right; exact A].
      rewrite get2_set in A. destruct (String.eqb_spec (n0 ++ "." ++ s0) (m0 ++ "." ++ r0)) as [E1|E1];
        [destruct (String.eqb_spec (n1 ++ "." ++ s1) (m1 ++ "." ++ r1)) as [E2|E2]|]; cbn [andb] in A.
      * apply dot_inj in E1 as [-> ->]; auto. apply dot_inj in E2 as [-> ->]; auto. right. split; [rewrite EG; discriminate|]. eauto.
      * left. split; auto. intros [E|I]; auto. apply (f_equal fst) in E as Ea. apply (f_equal snd) in E as Eb. cbn [fst snd] in Ea, Eb.
        apply (f_equal (split_on "-")) in Ea, Eb. rewrite !split_dash in Ea by auto. rewrite !split_dash in Eb by auto. congruence.
      * left. split; auto. intros [E|I]; auto. apply (f_equal fst) in E as Ea. apply (f_equal snd) in E as Eb. cbn [fst snd] in Ea, Eb.
        apply (f_equal (split_on "-")) in Ea, Eb. rewrite !split_dash in Ea by auto. rewrite !split_dash in Eb by auto. congruence.
Qed.

(** ** existing correlations are recognised exactly *)
Lemma str_in_iff s l : str_in s l = true <-> In s l.
Proof.
  unfold str_in. rewrite existsb_exists. split.
  - intros (x & H & E). apply String.eqb_eq in E. now subst.
  - intros H. exists s. split; auto. apply String.eqb_refl.
Qed.

Lemma existing_gen sep ln ls h stations method rc tag ex a b :
  hist_ok sep ln ls h -> name_ok tag ->
  Forall (fun p => seed2 p /\ String.length (fst p) = ln /\ String.length (snd p) = ls) stations ->
  find_existing_times (dir_of h) stations method rc tag "*" = Ok ex ->
  seed_trace a -> seed_trace b -> In (codes_of a) stations -> In (codes_of b) stations ->
  time_ok (t_start a) -> time_ok (t_start b) ->
  (compare_existing_data ex a b = true -> corr_stored h tag a b) /\ (method_pair method a b -> plainly_asked rc method a b -> corr_stored h tag a b -> compare_existing_data ex a b = true).
Proof.
  intros HO HT HS H SA SB IA IB TA TB. rewrite Forall_forall in HS.
  destruct (HS _ IA) as (_ & LA1 & LA2). destruct (HS _ IB) as (_ & LB1 & LB2). cbn [codes_of fst snd] in LA1, LA2, LB1, LB2.
  unfold find_existing_times in H. destruct (station_combinations stations method rc) as [combs|] eqn:EC; [|discriminate]. cbn [bind] in H.
  assert (IN : method_pair method a b -> plainly_asked rc method a b -> In (pair_codes (codes_of a) (codes_of b)) combs) by (intros HM HR; eapply combs_cover_rc; eauto; congruence).
  rewrite pair_codes_ordered in IN by congruence.
  assert (OK : Forall pair_ok combs) by (eapply combs_ok; [|eauto]; apply Forall_forall; intros p Hp; apply (HS p Hp)).
  rewrite compare_eq. unfold corr_stored. rewrite names_of_eq.
  assert (TM : time_ok (Z.max (t_start a) (t_start b))) by (destruct (Z.max_spec (t_start a) (t_start b)) as [[_ ->]|[_ ->]]; auto).
  assert (X : exists x y, ordered a b = (x, y) /\ seed_trace x /\ seed_trace y /\ String.length (t_net x) = ln /\ String.length (t_net y) = ln /\
              String.length (t_sta x) = ls /\ String.length (t_sta y) = ls).
  { unfold ordered. destruct (str_le _ _); eexists _, _; split; [reflexivity| |reflexivity|]; auto 10. }
  destruct X as (x & y & Exy & (X1 & X2 & X3) & (Y1 & Y2 & Y3) & Lx1 & Ly1 & Lx2 & Ly2). rewrite Exy in *.
  set (nc := t_net x ++ "-" ++ t_net y) in *. set (sc := t_sta x ++ "-" ++ t_sta y) in *. set (cc := t_cha x ++ "-" ++ t_cha y).
  assert (Nn : name_ok nc) by (apply name_ok_pair; [apply X1|apply Y1]). assert (Ns : name_ok sc) by (apply name_ok_pair; [apply X2|apply Y2]).
  assert (Ln : String.length nc = ln + 1 + ln) by (unfold nc; rewrite !len_app; simpl; lia).
  assert (Ls : String.length sc = ls + 1 + ls) by (unfold sc; rewrite !len_app; simpl; lia).
  set (T := Z.max (t_start a) (t_start b)) in *. rewrite (format_tick T TM).
  assert (COL : forall t, collect (glob_pair (dir_of h) nc sc) nc sc tag "*" [] = Ok t ->
     ((exists l, dget t cc = Some l /\ In (tick_text (tick T)) l) <-> stored_in h tag nc sc cc (tick T))).
  { intros t Ht. rewrite (collect_exact sep ln ls h nc sc tag t cc _ HO Nn Ns HT Ln Ls Ht). unfold stored_in. split.
    - intros (name & ops & s & e & I & E & K). exists name, ops, e. split; auto.
      destruct HO as [_ HF]. rewrite Forall_forall in HF. destruct (HF _ I) as (V & _). cbn [snd] in V.
      pose proof (rep_dom _ _ (rep_all ops V) _ K) as (_ & TK & _). cbn [k_st] in TK.
      apply tick_text_inj in E; [now subst s|now apply time_ok_file|exact TK].
    - intros (name & ops & e & I & K). exists name, ops, (tick T), e. auto. }
  destruct (loop_get _ _ _ _ _ H OK _ _ _ _ X1 Y1 X2 Y2) as [[G1 G2]|[G1 (t & Ht & G2)]].
  - unfold ex_get. unfold get2 in G1. cbn [dget] in G1. split.
    + destruct (dget ex _) as [d1|]; [rewrite G1|]; discriminate.
    + intros HM HR S. specialize (G2 (IN HM HR)). fold nc sc in G2. destruct (COL [] ltac:(rewrite G2; reflexivity)) as [_ C2]. destruct (C2 S) as (l & D & _). discriminate.
  - fold nc sc in Ht. rewrite <- (COL t Ht). unfold ex_get, get2 in *. destruct (dget ex _) as [d1|]; [|discriminate]. rewrite G2.
    fold cc. split.
    + destruct (dget t cc) as [l|]; [|discriminate]. intros I. exists l. split; auto. now apply str_in_iff.
    + intros _ _ (l & D & I). rewrite D. now apply str_in_iff.
Qed.
Lemma existing_exact_rc sep ln ls h stations method rc tag ex a b :
  hist_ok sep ln ls h -> name_ok tag ->
  Forall (fun p => seed2 p /\ String.length (fst p) = ln /\ String.length (snd p) = ls) stations ->
  find_existing_times (dir_of h) stations method rc tag "*" = Ok ex ->
  seed_trace a -> seed_trace b -> In (codes_of a) stations -> In (codes_of b) stations -> method_pair method a b -> plainly_asked rc method a b ->
  time_ok (t_start a) -> time_ok (t_start b) ->
  (compare_existing_data ex a b = true <-> corr_stored h tag a b).
Proof. intros HO HT HS H SA SB IA IB HM HR TA TB. destruct (existing_gen sep ln ls h stations method rc tag ex a b) as (A & B); auto. split; auto. Qed.
Lemma existing_exact sep ln ls h stations method tag ex a b :
  hist_ok sep ln ls h -> name_ok tag ->
  Forall (fun p => seed2 p /\ String.length (fst p) = ln /\ String.length (snd p) = ls) stations ->
  find_existing_times (dir_of h) stations method None tag "*" = Ok ex ->
  seed_trace a -> seed_trace b -> In (codes_of a) stations -> In (codes_of b) stations -> method_pair method a b ->
  time_ok (t_start a) -> time_ok (t_start b) ->
  (compare_existing_data ex a b = true <-> corr_stored h tag a b).
Proof. intros. apply (existing_exact_rc sep ln ls h stations method None); auto. discriminate. Qed.
