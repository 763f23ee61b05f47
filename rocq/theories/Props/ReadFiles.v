(** Reading from a directory tree: C108, C109 *)
From Coq Require Import Sorted.
From Verif Require Import Lib.Base Lib.Str Lib.Time Lib.TimeFacts Model.Archive Spec.ArchiveSpec Model.ReadFiles Spec.ReadFilesSpec
  Proofs.CalendarFacts Proofs.ReadFilesFacts Proofs.ReadLoopFacts Proofs.ReadNamesFacts.
Local Open Scope Z_scope.

(** ** C108 *)
(** Every sample within the requested time that is in its place in the tree is returned, provided that its file
    contains a sample before the end and one after the start of the request; the result is at most one trace.
    [fs] is any structure whose last time indicator is not a year. *)
Theorem C108_complete : forall origin delta overlap glob ID fs s e trim p fuel st,
  0 < delta -> s <= e -> time_ok (s - 7 * day) -> time_ok (e + 7 * day) ->
  last_indicator fs = Some p -> is_year_ind p = false -> period p s <> None ->
  named_by ID fs p -> tidy origin delta glob ID fs p ->
  read_from_filesystem origin delta overlap glob ID fs s e trim fuel = Ok st ->
  (length st <= 1)%nat /\
  forall f n v, in_file origin delta glob ID fs f n v -> reaches origin delta s e f ->
    s <= time_no origin delta n <= e -> holds st n v.
Proof.
  intros origin delta overlap glob ID fs s e trim p fuel st D O S E L Y K N T R.
  destruct (read_inv origin delta overlap glob ID fs s e trim p D O S E L Y K N T fuel st R) as (A & _ & B). auto.
Qed.
Print Assumptions C108_complete.

(** Nothing else is returned: every value is that of a sample in the tree at its time, and with [trim] the time is
    within the request up to half a sampling interval. *)
Theorem C108_only : forall origin delta overlap glob ID fs s e trim p fuel st,
  0 < delta -> s <= e -> time_ok (s - 7 * day) -> time_ok (e + 7 * day) ->
  last_indicator fs = Some p -> is_year_ind p = false -> period p s <> None ->
  named_by ID fs p -> tidy origin delta glob ID fs p ->
  read_from_filesystem origin delta overlap glob ID fs s e trim fuel = Ok st ->
  forall n v, holds st n v -> stored origin delta glob ID fs n v /\
    (trim = true -> 2 * s - delta <= 2 * time_no origin delta n <= 2 * e + delta).
Proof.
  intros origin delta overlap glob ID fs s e trim p fuel st D O S E L Y K N T R n v H.
  destruct (read_inv origin delta overlap glob ID fs s e trim p D O S E L Y K N T fuel st R) as (_ & A & _).
  destruct (A n v H) as [B C]. split; [exact C|exact B].
Qed.
Print Assumptions C108_only.

(** With hours, half days, days or weeks as last time indicator the search ends without an error: at most one step
    per hour of the request. *)
Theorem C108_ends : forall origin delta overlap glob ID fs s e trim p fuel,
  0 < delta -> s <= e -> time_ok (s - 7 * day) -> time_ok (e + 7 * day) ->
  last_indicator fs = Some p -> is_year_ind p = false -> period p s <> None ->
  named_by ID fs p -> tidy origin delta glob ID fs p ->
  is_month_ind p = false -> (4 <= length (split_on "." ID))%nat -> e - s <= Z.of_nat fuel * (3600 * sec) ->
  exists st, read_from_filesystem origin delta overlap glob ID fs s e trim fuel = Ok st.
Proof.
  intros origin delta overlap glob ID fs s e trim p fuel D O S E L Y K N T M I F.
  apply (read_ends origin delta overlap glob ID fs s e trim p D O S E L Y K N T M); [|exact F]. now apply path_ok.
Qed.
Print Assumptions C108_ends.

(** Structures whose names do not mention anything shorter than a day (hour) have one name per day (hour). *)
Theorem C108_daily : forall ID fs p, mem_s p ["%a"; "%A"; "%w"; "%d"; "%j"; "%-j"]%string = true ->
  without below_day fs -> named_by ID fs p.
Proof. exact daily_names. Qed.
Print Assumptions C108_daily.
Theorem C108_hourly : forall ID fs p, mem_s p ["%H"; "%I"]%string = true -> without below_hour fs -> named_by ID fs p.
Proof. exact hourly_names. Qed.
Print Assumptions C108_hourly.

(** A single string stands for an SDS archive: the files that are read are those of the SDS definition, another
    one for each day. *)
Theorem C108_sds_name : forall base net sta loc cha t,
  base <> ""%string -> has_char "%" base = false -> last_char base <> Some "/"%char ->
  code net -> code sta -> code loc -> code cha -> net <> ""%string -> sta <> ""%string ->
  current_filepattern (net ++ "." ++ sta ++ "." ++ loc ++ "." ++ cha) t (sds_structure base) =
  Ok (join "/" (base :: sds_parts net sta loc cha t)).
Proof. exact sds_path. Qed.
Print Assumptions C108_sds_name.
Theorem C108_sds_distinct : forall base net sta loc cha t t', time_ok t -> time_ok t' ->
  base <> ""%string -> has_char "%" base = false -> last_char base <> Some "/"%char ->
  code net -> code sta -> code loc -> code cha -> net <> ""%string -> sta <> ""%string ->
  current_filepattern (net ++ "." ++ sta ++ "." ++ loc ++ "." ++ cha) t (sds_structure base) =
  current_filepattern (net ++ "." ++ sta ++ "." ++ loc ++ "." ++ cha) t' (sds_structure base) ->
  t / day = t' / day.
Proof. exact sds_distinct. Qed.
Print Assumptions C108_sds_distinct.

(** SDS archives: reading returns, and returns exactly what is stored in the requested time (strictly between its
    ends; for samples at the ends see C108_complete and C109_edge_refuted). *)
Theorem C108_sds : forall origin delta overlap glob ID base s e fuel,
  0 < delta -> s <= e -> time_ok (s - 7 * day) -> time_ok (e + 7 * day) -> has_char "%" base = false ->
  tidy origin delta glob ID (sds_structure base) "%j" -> (4 <= length (split_on "." ID))%nat ->
  e - s <= Z.of_nat fuel * (3600 * sec) ->
  exists st, read_from_filesystem origin delta overlap glob ID (sds_structure base) s e true fuel = Ok st /\
    (length st <= 1)%nat /\
    (forall n v, s < time_no origin delta n < e ->
       (holds st n v <-> stored origin delta glob ID (sds_structure base) n v)) /\
    (forall n v, holds st n v -> 2 * s - delta <= 2 * time_no origin delta n <= 2 * e + delta).
Proof. exact sds_read. Qed.
Print Assumptions C108_sds.

(** An SDS archive with one sample per hour on 2015-12-31 and 2016-01-01; the second day has a gap. *)
Definition ex_t0 : Z := (days_before_year 2016 - 1 - epoch_day) * day.
Definition ex_hour : Z := 3600 * sec.
Definition ex_ID : string := "YN.GJE.00.BHZ".
Definition ex_tr (a k : nat) : trace := mkTr (Z.of_nat a) (map (fun i => Some (Z.of_nat i)) (seq a k)).
Definition ex_first : list (list trace) := [[ex_tr 0 24]].
Definition ex_second : list (list trace) := [[ex_tr 24 10; ex_tr 38 10]].
Definition ex_glob (pat : string) : list (list trace) :=
  if String.eqb pat "sds/2015/YN/GJE/BHZ.D/YN.GJE.00.BHZ.D.2015.365" then ex_first
  else if String.eqb pat "sds/2016/YN/GJE/BHZ.D/YN.GJE.00.BHZ.D.2016.001" then ex_second
  else [].
Definition ex_overlap (a b : trace) : trace := a.

Lemma ex_tidy : tidy ex_t0 ex_hour ex_glob ex_ID (sds_structure "sds") "%j".
Proof.
  intros t pat T P.
  assert (D : forall u, time_ok u -> current_filepattern ex_ID u (sds_structure "sds") = Ok pat -> t / day = u / day).
  { intros u U Q. apply (C108_sds_distinct "sds" "YN" "GJE" "00" "BHZ" t u); auto; try discriminate;
      try (split; reflexivity). unfold ex_ID in *. cbn [String.append]. congruence. }
  assert (O0 : time_ok ex_t0) by (vm_compute; split; [discriminate|reflexivity]).
  assert (O1 : time_ok (ex_t0 + day)) by (vm_compute; split; [discriminate|reflexivity]).
  unfold ex_glob. destruct (String.eqb_spec pat "sds/2015/YN/GJE/BHZ.D/YN.GJE.00.BHZ.D.2015.365") as [->|_];
    [|destruct (String.eqb_spec pat "sds/2016/YN/GJE/BHZ.D/YN.GJE.00.BHZ.D.2016.001") as [->|_]].
  - specialize (D ex_t0 O0 ltac:(vm_compute; reflexivity)).
    assert (PT : period "%j" t = Some (ex_t0 / day)) by (cbn [period mem_s existsb String.eqb]; now rewrite <- D). rewrite PT. split.
    + intros f [<-|[]]. split; [discriminate|]. split; [repeat constructor|].
      intros w [<-|[]]. vm_compute. repeat split; try reflexivity; discriminate.
    + repeat constructor.
  - specialize (D (ex_t0 + day) O1 ltac:(vm_compute; reflexivity)).
    assert (PT : period "%j" t = Some ((ex_t0 + day) / day)) by (cbn [period mem_s existsb String.eqb]; now rewrite <- D). rewrite PT. split.
    + intros f [<-|[]]. split; [discriminate|]. split; [repeat constructor|].
      intros w [<-|[<-|[]]]; vm_compute; repeat split; try reflexivity; discriminate.
    + repeat constructor.
  - split; [intros f []|constructor].
Qed.
Example C108_example :
  tidy ex_t0 ex_hour ex_glob ex_ID (sds_structure "sds") "%j" /\
  read_from_filesystem ex_t0 ex_hour ex_overlap ex_glob ex_ID (sds_structure "sds")
    (ex_t0 + 20 * ex_hour) (ex_t0 + 40 * ex_hour + 1) true 20
  = Ok [mkTr 20 (map (fun i => Some (Z.of_nat i)) (seq 20 14) ++ repeat None 4 ++ [Some 38; Some 39; Some 40])] /\
  stored ex_t0 ex_hour ex_glob ex_ID (sds_structure "sds") 39 39.
Proof.
  split; [exact ex_tidy|]. split; [vm_compute; reflexivity|].
  exists [ex_tr 24 10; ex_tr 38 10], "sds/2016/YN/GJE/BHZ.D/YN.GJE.00.BHZ.D.2016.001"%string, (ex_tr 38 10).
  split; [vm_compute; reflexivity|]. split; [now left|]. split; [right; now left|reflexivity].
Qed.

(** ** C109 *)
(** A sample at the end of the request that is the first one of its file is not returned, although a sample at the
    end within a file is. *)
Theorem C109_edge_refuted :
  exists origin delta overlap glob ID fs p s e st, tidy origin delta glob ID fs p /\ last_indicator fs = Some p /\ named_by ID fs p /\
    read_from_filesystem origin delta overlap glob ID fs s e true 24 = Ok st /\
    exists n v, time_no origin delta n = e /\ stored origin delta glob ID fs n v /\ ~ holds st n v.
Proof.
  exists ex_t0, ex_hour, ex_overlap, ex_glob, ex_ID, (sds_structure "sds"), "%j"%string, ex_t0, (ex_t0 + day), [ex_tr 0 24].
  split; [exact ex_tidy|]. split; [reflexivity|].
  split; [apply C108_daily; [reflexivity|now apply sds_without]|]. split; [vm_compute; reflexivity|].
  exists 24, 24. split; [vm_compute; reflexivity|]. split.
  - exists [ex_tr 24 10; ex_tr 38 10], "sds/2016/YN/GJE/BHZ.D/YN.GJE.00.BHZ.D.2016.001"%string, (ex_tr 24 10).
    split; [vm_compute; reflexivity|]. split; [now left|]. split; [now left|reflexivity].
  - intros (w & [<-|[]] & V). vm_compute in V. discriminate.
Qed.
Print Assumptions C109_edge_refuted.

(** Yearly files: a request across new year whose first file has data from the start on always fails. *)
Theorem C109_year_refuted : forall origin delta overlap glob ID fs s e trim p fuel pat st,
  0 < delta -> time_ok (s - 7 * day) -> time_ok (e + 7 * day) -> last_indicator fs = Some p -> is_year_ind p = true ->
  named_by ID fs p -> tidy origin delta glob ID fs p -> (4 <= length (split_on "." ID))%nat ->
  year_of s < year_of e -> s <= e -> 9999 <= Z.of_nat fuel ->
  current_filepattern ID s fs = Ok pat -> read_filepattern origin delta overlap glob pat s e trim = Ok st ->
  begins_late origin delta s st = false ->
  read_from_filesystem origin delta overlap glob ID fs s e trim fuel = Raise ValueError.
Proof.
  intros origin delta overlap glob ID fs s e trim p fuel pat st D S E L Y N T I Ye O F P R B.
  apply (yearly origin delta overlap glob ID fs s e trim p D S E L Y N T (path_ok ID fs I) Ye O fuel pat st); auto.
Qed.
Print Assumptions C109_year_refuted.
(** files [2015] and [2016] with one sample per hour: from 2015-12-31 20:00 to 2016-01-01 04:00 *)
Definition ex_years (pat : string) : list (list trace) :=
  if String.eqb pat "2015" then [[ex_tr 0 24]] else if String.eqb pat "2016" then [[ex_tr 24 24]] else [].
Example C109_year_example :
  let s := ex_t0 + 20 * ex_hour in let e := ex_t0 + 28 * ex_hour in
  named_by ex_ID [["%Y"]]%string "%Y" /\ tidy ex_t0 ex_hour ex_years ex_ID [["%Y"]]%string "%Y" /\ year_of s < year_of e /\
  exists st, read_filepattern ex_t0 ex_hour ex_overlap ex_years "2015" s e true = Ok st /\ begins_late ex_t0 ex_hour s st = false.
Proof.
  cbv zeta.
  assert (PA : forall t, current_filepattern ex_ID t [["%Y"]]%string = Ok (path_join "" (dec 4 (year_of t)))).
  { intros t. reflexivity. }
  assert (PJ : forall b, path_join "" b = b).
  { intros b. unfold path_join. destruct b as [|[[] [] [] [] [] [] [] []] b]; reflexivity. }
  split; [|split; [|split; [vm_compute; reflexivity|]]].
  - intros t t' _ _ H. rewrite !PA. cbn [period mem_s existsb String.eqb Ascii.eqb Bool.eqb orb] in H. injection H as H. now rewrite H.
  - intros t pat T P. rewrite PA, PJ in P. assert (P' : dec 4 (year_of t) = pat) by congruence. clear P. rename P' into P.
    assert (Y : forall y, 0 <= y < 10000 -> pat = dec 4 y -> year_of t = y).
    { intros y R Q. rewrite Q in P. apply (f_equal undec) in P. pose proof (year_of_range t T).
      rewrite !undec_dec in P by (change (10 ^ Z.of_nat 4) with 10000; lia). exact P. }
    unfold ex_years.
    destruct (String.eqb_spec pat "2015") as [E|_]; [|destruct (String.eqb_spec pat "2016") as [E|_]].
    + assert (PT : period "%Y" t = Some 2015) by (cbn [period mem_s existsb String.eqb Ascii.eqb Bool.eqb orb]; f_equal; apply Y; [lia|exact E]).
      rewrite PT. split; [|repeat constructor].
      intros f [<-|[]]. split; [discriminate|]. split; [repeat constructor|].
      intros w [<-|[]]. vm_compute. repeat split; try reflexivity; discriminate.
    + assert (PT : period "%Y" t = Some 2016) by (cbn [period mem_s existsb String.eqb Ascii.eqb Bool.eqb orb]; f_equal; apply Y; [lia|exact E]).
      rewrite PT. split; [|repeat constructor].
      intros f [<-|[]]. split; [discriminate|]. split; [repeat constructor|].
      intros w [<-|[]]. vm_compute. repeat split; try reflexivity; discriminate.
    + split; [intros f []|constructor].
  - exists [ex_tr 20 4]. split; vm_compute; reflexivity.
Qed.

(** Monthly files: a request from the 31st of January to the 2nd of February fails although all data are there
    (one sample per day). *)
Definition ex_months (pat : string) : list (list trace) :=
  if String.eqb pat "201601" then [[ex_tr 0 31]] else if String.eqb pat "201602" then [[ex_tr 31 29]] else [].
Theorem C109_month_refuted :
  let t1 := ex_t0 + day in let s := t1 + 30 * day in let e := t1 + 32 * day in
  read_from_filesystem t1 day ex_overlap ex_months ex_ID [["%Y"; "%m"]]%string s e true 24 = Raise ValueError /\
  forall n, 0 <= n < 60 -> exists v, stored t1 day ex_months ex_ID [["%Y"; "%m"]]%string n v.
Proof.
  cbv zeta. split; [vm_compute; reflexivity|]. intros n N.
  assert (A : forallb (fun i => match current_filepattern ex_ID (time_no (ex_t0 + day) day (Z.of_nat i)) [["%Y"; "%m"]]%string with
     | Ok pat => match ex_months pat with f :: _ => match f with w :: _ => match value w (Z.of_nat i) with Some _ => true | None => false end | [] => false end | [] => false end
     | Raise _ => false end) (seq 0 60) = true) by (vm_compute; reflexivity).
  rewrite forallb_forall in A. specialize (A (Z.to_nat n) ltac:(apply in_seq; lia)). rewrite Z2Nat.id in A by lia.
  destruct (current_filepattern _ _ _) as [pat|] eqn:P; [|discriminate].
  destruct (ex_months pat) as [|[|w r] l] eqn:G; try discriminate. destruct (value w n) as [v|] eqn:V; [|discriminate].
  exists v, (w :: r), pat, w. rewrite G. split; [exact P|]. split; [now left|]. split; [now left|exact V].
Qed.
Print Assumptions C109_month_refuted.

(** Structures that end with minutes, seconds or another unknown indicator: whenever the first file does not begin in
    time, UnboundLocalError. *)
Theorem C109_other_refuted : forall origin delta overlap glob ID fs s e trim fuel pat st,
  (forall p, last_indicator fs = Some p -> forall u, period p u = None) ->
  current_filepattern ID s fs = Ok pat -> read_filepattern origin delta overlap glob pat s e trim = Ok st ->
  begins_late origin delta s st = true ->
  read_from_filesystem origin delta overlap glob ID fs s e trim fuel = Raise UnboundLocalError.
Proof.
  intros origin delta overlap glob ID fs s e trim fuel pat st H P R B.
  unfold read_from_filesystem, read_at. rewrite P. cbn [bind]. rewrite R. cbn [bind]. rewrite B.
  rewrite (adjacent_unknown fs s (-1)); auto.
Qed.
Print Assumptions C109_other_refuted.
Example C109_other_example :
  read_from_filesystem ex_t0 ex_hour ex_overlap (fun _ => []) ex_ID [["%Y"]; ["%j"; "%H"; "%M"]]%string ex_t0 (ex_t0 + day) true 24
  = Raise UnboundLocalError.
Proof. vm_compute. reflexivity. Qed.

(** The documented replacement of parts of a code never takes place: the first letter is taken as a directive for
    the time (%C is the century). *)
Theorem C109_replacement_refuted : forall ID t,
  fs_translate "%CHA('BH','')" ID t = Ok (dec 2 (year_of t / 100) ++ "HA('BH','')")%string.
Proof. intros ID t. unfold fs_translate. cbn [index_of IDformat String.eqb Ascii.eqb Bool.eqb option_map]. reflexivity. Qed.
Print Assumptions C109_replacement_refuted.
Example C109_replacement_example :
  fs_translate "%CHA('BH','')" "HEJSL.GJE.00.BHZ" ex_t0 = Ok "20HA('BH','')"%string /\
  fs_translate "%CHA" "HEJSL.GJE.00.BHZ" ex_t0 = Ok "BHZ"%string.
Proof. vm_compute. split; reflexivity. Qed.
