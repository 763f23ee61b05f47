(** C14-C20: the correlation database. *)
From Verif Require Import Lib.Base Lib.Str Lib.StrFacts Lib.Sorting Lib.Time Lib.TimeFacts Model.H5 Model.CorrTrace Model.CorrDB Model.Combos Model.DBOpen
  Spec.DBSpec Spec.OptionsSpec Proofs.H5Facts Proofs.CorrDBFacts Proofs.ListingFacts Proofs.QueryOrder Proofs.OptionsFacts Proofs.HistoryFacts.
From Coq Require Import Sorted.
Local Open Scope nat_scope.
Local Open Scope string_scope.

(** ** C14 *)
(** the complete account: after any history of additions and deletions an exact query gives what the
    specification, a finite map in which the first write wins, holds under that key *)
Theorem C14_exact_query : forall ops net sta cha tag st et,
  Forall valid_op ops -> names_ok tag net sta cha -> canonical net sta cha -> time_ok st -> time_ok et ->
  get_data (exec_all ops) net sta cha tag (Some st) (Some et) =
  match spec_all ops (mkKey tag net sta cha (tick st) (tick et)) with Some tr => Ok [tr] | None => Raise KeyError end.
Proof. exact history_query. Qed.
Print Assumptions C14_exact_query.

Theorem C14_read_back : forall ops tr tag,
  Forall valid_op ops -> valid_op (Add tr tag) -> canonical (c_net tr) (c_sta tr) (c_cha tr) ->
  spec_all ops (key_of tag tr) = None ->
  exists tr', get_data (exec_all (ops ++ [Add tr tag])) (c_net tr) (c_sta tr) (c_cha tr) tag (Some (c_start tr)) (Some (c_end tr)) = Ok [tr'] /\
    c_data tr' = c_data tr /\ c_lag tr' = c_lag tr /\ c_sr tr' = c_sr tr /\
    (c_start tr - 100000 < c_start tr' <= c_start tr)%Z /\ (c_end tr - 100000 < c_end tr' <= c_end tr)%Z.
Proof. exact read_back. Qed.
Print Assumptions C14_read_back.

Theorem C14_second_write_ignored : forall ops tr tag,
  Forall valid_op ops -> valid_op (Add tr tag) -> spec_all ops (key_of tag tr) <> None ->
  exec_all (ops ++ [Add tr tag]) = exec_all ops.
Proof. exact second_write. Qed.
Print Assumptions C14_second_write_ignored.

Theorem C14_others_untouched : forall ops tr tag k,
  Forall valid_op ops -> valid_op (Add tr tag) -> valid_key k -> canonical (k_net k) (k_sta k) (k_cha k) -> k <> key_of tag tr ->
  let q f := get_data f (k_net k) (k_sta k) (k_cha k) (k_tag k) (Some (k_st k * 100000)%Z) (Some (k_et k * 100000)%Z) in
  q (exec_all (ops ++ [Add tr tag])) = q (exec_all ops).
Proof. exact others_untouched. Qed.
Print Assumptions C14_others_untouched.

(** the header times survive the way through text *)
Theorem C14_times_survive : forall t, time_ok t -> parse_fissures (format_fissures t) = file_time t.
Proof. exact parse_format. Qed.
Print Assumptions C14_times_survive.

Definition ex_tr (net sta cha : string) (t0 t1 v : Z) : ctrace :=
  {| c_net := net; c_sta := sta; c_loc := ""; c_cha := cha; c_start := (t0 * sec)%Z; c_end := (t1 * sec)%Z;
     c_lag := 0; c_sr := 1; c_data := [inject_Z v] |}.
Definition ex_a := ex_tr "XX-XX" "A-B" "HHZ-HHZ" 0 3600 1.
Definition ex_a2 := ex_tr "XX-XX" "A-B" "HHZ-HHZ" 0 3600 2.
Definition ex_b := ex_tr "XX-XX" "A-B" "HHZ-HHZ" 3600 7200 3.
Definition ex_ops := [Add ex_a "recombined"; Add ex_b "recombined"; Add ex_a2 "recombined"].

Ltac names := repeat split; try reflexivity; try discriminate.
Lemma ex_time0 : time_ok 0. Proof. unfold time_ok, epoch_day, day, sec. split; [lia|]. reflexivity. Qed.
Lemma ex_time z : (0 <= z < 100000)%Z -> time_ok (z * sec).
Proof.
  intros H. unfold time_ok. split; [unfold epoch_day, day, sec; lia|].
  apply Z.le_lt_trans with (100000 * sec)%Z; [unfold sec; lia|]. reflexivity.
Qed.
Example C14_example_valid : Forall valid_op ex_ops /\ canonical "XX-XX" "A-B" "HHZ-HHZ" /\
  time_ok (3600 * sec) /\ spec_all [Add ex_a "recombined"] (key_of "recombined" ex_b) = None.
Proof.
  split; [|split; [reflexivity|split; [apply ex_time; lia|reflexivity]]].
  repeat (constructor; [split; [names|split; apply ex_time; lia]|]). constructor.
Qed.
Example C14_example : get_data (exec_all ex_ops) "XX-XX" "A-B" "HHZ-HHZ" "recombined" (Some 0%Z) (Some (3600 * sec)%Z) = Ok [ex_a].
Proof. vm_compute. reflexivity. Qed.

(** ** C15 *)
(** [query f k]: reading the correlation stored under key k *)
Definition query (f : file) (k : key) : result (list ctrace) :=
  get_data f (k_net k) (k_sta k) (k_cha k) (k_tag k) (Some (k_st k * 100000)%Z) (Some (k_et k * 100000)%Z).

(** deletion by start time *)
Theorem C15_remove_time : forall ops net sta cha tag t k,
  Forall valid_op ops -> valid_op (RemoveTime net sta cha tag t) -> valid_key k -> canonical (k_net k) (k_sta k) (k_cha k) ->
  query (exec_all (ops ++ [RemoveTime net sta cha tag t])) k =
  if String.eqb (k_tag k) tag && String.eqb (k_net k) net && String.eqb (k_sta k) sta && String.eqb (k_cha k) cha && (k_st k =? tick t)%Z
  then Raise KeyError else query (exec_all ops) k.
Proof. intros ops net sta cha tag t k. exact (remove_exactly ops (RemoveTime net sta cha tag t) k). Qed.
Print Assumptions C15_remove_time.
(** deletion by a pattern of '*' for the text of the start time *)
Theorem C15_remove_pattern : forall ops net sta cha tag pat k,
  Forall valid_op ops -> valid_op (RemovePattern net sta cha tag pat) -> valid_key k -> canonical (k_net k) (k_sta k) (k_cha k) ->
  query (exec_all (ops ++ [RemovePattern net sta cha tag pat])) k =
  if String.eqb (k_tag k) tag && String.eqb (k_net k) net && String.eqb (k_sta k) sta && String.eqb (k_cha k) cha && fnmatch (tick_text (k_st k)) pat
  then Raise KeyError else query (exec_all ops) k.
Proof. intros ops net sta cha tag pat k. exact (remove_exactly ops (RemovePattern net sta cha tag pat) k). Qed.
Print Assumptions C15_remove_pattern.
(** wildcards in the codes are refused *)
Theorem C15_wildcard_codes_refused : forall f net sta cha tag st, has_char "*" (net ++ sta ++ cha) = true ->
  remove_data f net sta cha tag st = Raise ValueError.
Proof. exact remove_wild_refused. Qed.
Print Assumptions C15_wildcard_codes_refused.

(** '?' stands for exactly one character in shell wildcards; here it stands for any text *)
Theorem C15_question_mark_refuted : exists tr pat, fnmatch (format_fissures (c_start tr)) pat = false /\
  exists f', remove_data (exec_all [Add tr "subdivision"]) (c_net tr) (c_sta tr) (c_cha tr) "subdivision" pat = Ok f' /\
  get_data f' (c_net tr) (c_sta tr) (c_cha tr) "subdivision" (Some (c_start tr)) (Some (c_end tr)) = Raise KeyError /\
  get_data (exec_all [Add tr "subdivision"]) (c_net tr) (c_sta tr) (c_cha tr) "subdivision" (Some (c_start tr)) (Some (c_end tr)) = Ok [tr].
Proof. exists ex_a, "197000?". split; [vm_compute; reflexivity|]. eexists. vm_compute. repeat split. Qed.
Print Assumptions C15_question_mark_refuted.

Example C15_example : exists f', remove_data (exec_all ex_ops) "XX-XX" "A-B" "HHZ-HHZ" "recombined" "1970001T00*" = Ok f' /\
  get_data f' "XX-XX" "A-B" "HHZ-HHZ" "recombined" None None = Ok [ex_b].
Proof. eexists. vm_compute. repeat split. Qed.
Example C15_example_valid : valid_op (RemovePattern "XX-XX" "A-B" "HHZ-HHZ" "recombined" "1970001T00*") /\
  valid_op (RemoveTime "XX-XX" "A-B" "HHZ-HHZ" "recombined" 0) /\ valid_key (key_of "recombined" ex_b).
Proof. split; [names|]. split; [split; [names|split; [reflexivity|apply ex_time0]]|]. split; [names|split; apply (ex_time 3600); lia || apply (ex_time 7200); lia]. Qed.

(** ** C16 *)
(** '*' for complete, adjacent fields of the hierarchy (in particular: any suffix left open) *)
Theorem C16_adjacent_wildcards_partial : forall ops net sta cha tag st et,
  Forall valid_op ops -> Forall field_ok [tag; net; sta; cha] -> canonical net sta cha ->
  (forall t, st = Some t -> time_ok t) -> (forall t, et = Some t -> time_ok t) ->
  adjacent (stars net sta cha tag st et) ->
  match get_data (exec_all ops) net sta cha tag st et with
  | Ok r => exists ks, StronglySorted key_before ks /\
      (forall k, In k ks <-> spec_all ops k <> None /\ key_matches net sta cha tag st et k) /\
      map (spec_all ops) ks = map Some r
  | Raise e => e = KeyError /\ forall k, key_matches net sta cha tag st et k -> spec_all ops k = None
  end.
Proof. exact query_adjacent. Qed.
Print Assumptions C16_adjacent_wildcards_partial.

(** a wildcard inside a code finds nothing *)
Theorem C16_inner_wildcard_refuted : exists tr cha, fnmatch (c_cha tr) cha = true /\
  get_data (exec_all [Add tr "recombined"]) (c_net tr) (c_sta tr) cha "recombined" None None = Raise KeyError.
Proof. exists ex_a, "HH*-HH*". vm_compute. repeat split. Qed.
Print Assumptions C16_inner_wildcard_refuted.

(** wildcards that are not adjacent return other stations as well *)
Theorem C16_other_station_refuted : exists tr net sta cha, String.eqb sta (c_sta tr) = false /\ plain sta = true /\
  get_data (exec_all [Add tr "recombined"]) net sta cha "recombined" None None = Ok [tr].
Proof. exists (ex_tr "XX-XX" "A-BC" "HHZ-HHZ" 0 3600 1), "*", "A-B", "*". vm_compute. repeat split. Qed.
Print Assumptions C16_other_station_refuted.

(** '?' is treated as '*' *)
Theorem C16_question_mark_refuted : exists tr sta, fnmatch (c_sta tr) sta = false /\
  get_data (exec_all [Add tr "recombined"]) "*" sta "*" "recombined" None None = Ok [tr].
Proof. exists (ex_tr "XX-XX" "A-BCD" "HHZ-HHZ" 0 3600 1), "A-?". vm_compute. repeat split. Qed.
Print Assumptions C16_question_mark_refuted.

Example C16_example : get_data (exec_all ex_ops) "XX-XX" "A-B" "*" "recombined" None None = Ok [ex_a; ex_b] /\
  adjacent (stars "XX-XX" "A-B" "*" "recombined" None None) /\ canonical "XX-XX" "A-B" "*".
Proof. split; [vm_compute; reflexivity|]. split; [exists 3, 3, 0; reflexivity|reflexivity]. Qed.

(** ** C17 *)
(** the answer does not depend on the order in which the stations are named *)
Theorem C17_order_irrelevant : forall f tag st et n1 s1 c1 n2 s2 c2,
  code_ok n1 -> code_ok s1 -> code_ok c1 -> code_ok n2 -> code_ok s2 -> code_ok c2 ->
  get_data f (n1 ++ "-" ++ n2) (s1 ++ "-" ++ s2) (c1 ++ "-" ++ c2) tag st et =
  get_data f (n2 ++ "-" ++ n1) (s2 ++ "-" ++ s1) (c2 ++ "-" ++ c1) tag st et.
Proof. exact get_sym. Qed.
Print Assumptions C17_order_irrelevant.
Theorem C17_order_irrelevant_remove : forall f tag st n1 s1 c1 n2 s2 c2,
  code_ok n1 -> code_ok s1 -> code_ok c1 -> code_ok n2 -> code_ok s2 -> code_ok c2 ->
  remove_data f (n1 ++ "-" ++ n2) (s1 ++ "-" ++ s2) (c1 ++ "-" ++ c2) tag st =
  remove_data f (n2 ++ "-" ++ n1) (s2 ++ "-" ++ s1) (c2 ++ "-" ++ c1) tag st.
Proof. exact remove_sym. Qed.
Print Assumptions C17_order_irrelevant_remove.
(** equally long network codes and equally long station codes: the correlation is found under the names
    [sort_comb] gives it (which is how correlations are stored), whichever station comes first *)
Theorem C17_found_in_either_order_partial : forall ops tag st et n1 s1 c1 n2 s2 c2,
  Forall valid_op ops -> name_ok tag ->
  code_ok n1 -> code_ok s1 -> code_ok c1 -> code_ok n2 -> code_ok s2 -> code_ok c2 ->
  String.length n1 = String.length n2 -> String.length s1 = String.length s2 -> time_ok st -> time_ok et ->
  let '(nn, ss, cc) := sort_comb n1 s1 n2 s2 c1 c2 in
  let k := mkKey tag (fst nn ++ "-" ++ snd nn) (fst ss ++ "-" ++ snd ss) (fst cc ++ "-" ++ snd cc) (tick st) (tick et) in
  let want := match spec_all ops k with Some tr => Ok [tr] | None => Raise KeyError end in
  get_data (exec_all ops) (n1 ++ "-" ++ n2) (s1 ++ "-" ++ s2) (c1 ++ "-" ++ c2) tag (Some st) (Some et) = want /\
  get_data (exec_all ops) (n2 ++ "-" ++ n1) (s2 ++ "-" ++ s1) (c2 ++ "-" ++ c1) tag (Some st) (Some et) = want.
Proof. exact history_either_order. Qed.
Print Assumptions C17_found_in_either_order_partial.

(** stations NEP and NEP1: storage order and query order differ, the correlation is never found *)
Theorem C17_not_found_refuted : exists n s1 s2 c, code_ok n /\ code_ok s1 /\ code_ok s2 /\ code_ok c /\
  let '(nn, ss, cc) := sort_comb n s1 n s2 c c in
  let tr := ex_tr (fst nn ++ "-" ++ snd nn) (fst ss ++ "-" ++ snd ss) (fst cc ++ "-" ++ snd cc) 0 3600 1 in
  let f := exec_all [Add tr "recombined"] in
  get_data f (n ++ "-" ++ n) (s1 ++ "-" ++ s2) (c ++ "-" ++ c) "recombined" None None = Raise KeyError /\
  get_data f (n ++ "-" ++ n) (s2 ++ "-" ++ s1) (c ++ "-" ++ c) "recombined" None None = Raise KeyError.
Proof. exists "IS", "NEP", "NEP1", "HHZ". split; [names|]. split; [names|]. split; [names|]. split; [names|]. vm_compute. auto. Qed.
Print Assumptions C17_not_found_refuted.
Example C17_example : code_ok "XX" /\ code_ok "A" /\ code_ok "HHZ" /\
  get_data (exec_all ex_ops) "XX-XX" "B-A" "HHZ-HHZ" "recombined" (Some 0%Z) (Some (3600 * sec)%Z) = Ok [ex_a].
Proof. split; [names|]. split; [names|]. split; [names|]. vm_compute. reflexivity. Qed.

(** ** C18 *)
(** no two masking steps directly after each other: a file created with o0 can be opened with o if and
    only if both have the same processing parameters (or the user forces it) *)
Theorem C18_guard_partial : forall o0 o force,
  options_ok o0 -> options_ok o -> masks_apart (o_steps o0) = true -> masks_apart (o_steps o) = true ->
  exists s0, open_options None (Some (dict_of o0)) force = Ok (Some s0) /\
    (processing o0 = processing o \/ force = true -> open_options (Some s0) (Some (dict_of o)) force = Ok (Some s0)) /\
    (processing o0 <> processing o /\ force = false -> open_options (Some s0) (Some (dict_of o)) force = Raise PermissionError).
Proof. exact options_guard. Qed.
Print Assumptions C18_guard_partial.

Definition ex_opts (masks : list (string * pv)) (read_len : string) (lag : string) : options :=
  mkOpt [("read_len", PAtom read_len); ("subdir", PAtom "corr"); ("sampling_rate", PAtom "25")]
        [("lengthToSave", PAtom lag); ("combinations", PList [])] [("corr_inc", PAtom "3600"); ("delete_subdivision", PAtom "True")] masks.
Definition mask_step (a : string) : string * pv := ("seismic.correlate.preprocessing_stream.stream_mask_at_utc", PAtom a).
Definition detrend_step : string * pv := ("seismic.correlate.preprocessing_stream.detrend_st", PAtom "linear").

(** two masking steps in a row: the file cannot be opened again with the options it was created with *)
Theorem C18_same_options_refuted : exists o s0, options_ok o /\ open_options None (Some (dict_of o)) false = Ok (Some s0) /\
  open_options (Some s0) (Some (dict_of o)) false = Raise PermissionError.
Proof.
  exists (ex_opts [mask_step "a"; mask_step "b"; detrend_step] "86400" "25"). eexists. split.
  - unfold options_ok, unique_keys. cbn. repeat split; repeat constructor; simpl; intuition (subst; discriminate).
  - vm_compute. split; reflexivity.
Qed.
Print Assumptions C18_same_options_refuted.
Example C18_example :
  let a := ex_opts [mask_step "a"; detrend_step] "86400" "25" in
  let b := ex_opts [detrend_step; mask_step "b"] "3600" "25" in
  let c := ex_opts [detrend_step] "86400" "50" in
  options_ok a /\ masks_apart (o_steps a) = true /\ masks_apart (o_steps b) = true /\ processing a = processing b /\ processing a <> processing c.
Proof.
  cbv zeta. split.
  - unfold options_ok, unique_keys. cbn. repeat split; repeat constructor; simpl; intuition (subst; discriminate).
  - repeat split; discriminate.
Qed.

(** ** C19 *)
Theorem C19_read_only_without_options : forall mode, open_mode false mode false = "r".
Proof. exact open_mode_ro. Qed.
Print Assumptions C19_read_only_without_options.
Theorem C19_mode_otherwise : forall has mode force, has || force = true -> open_mode has mode force = mode.
Proof. exact open_mode_keep. Qed.
Print Assumptions C19_mode_otherwise.
Theorem C19_gzip_nearest_level : forall ds, ds <> "" -> all_digits ds = true ->
  exists l, compression (Some ("gzip" ++ ds)) = Ok (Some ("gzip", l)) /\ (1 <= l <= 9)%Z /\
    forall l', (1 <= l' <= 9)%Z -> (Z.abs (l - undec ds) <= Z.abs (l' - undec ds))%Z.
Proof. exact gzip_nearest. Qed.
Print Assumptions C19_gzip_nearest_level.
Theorem C19_other_compressor_rejected : forall w ds, w <> "" -> all_letters w = true -> ds <> "" -> all_digits ds = true ->
  w <> "gzip" -> compression (Some (w ++ ds)) = Raise ValueError.
Proof. exact other_rejected. Qed.
Print Assumptions C19_other_compressor_rejected.
(** every accepted setting, whatever the string *)
Theorem C19_accepted_settings : forall s c l, compression (Some s) = Ok (Some (c, l)) ->
  c = "gzip" /\ exists a ds r, s = a ++ "gzip" ++ ds ++ r /\ ds <> "" /\ all_digits ds = true /\
    (1 <= l <= 9)%Z /\ forall l', (1 <= l' <= 9)%Z -> (Z.abs (l - undec ds) <= Z.abs (l' - undec ds))%Z.
Proof. exact compression_sound. Qed.
Print Assumptions C19_accepted_settings.
Theorem C19_no_level_rejected : forall s, all_chars (fun c => negb (is_digit c)) s = true -> compression (Some s) = Raise IndexError.
Proof. exact compression_no_digit. Qed.
Print Assumptions C19_no_level_rejected.
Theorem C19_file_name : forall p, p <> "h5" -> exists stem, file_name p = stem ++ ".h5".
Proof. exact file_name_suffix. Qed.
Print Assumptions C19_file_name.
Theorem C19_file_name_stable : forall p, file_name (file_name p) = file_name p.
Proof. exact file_name_idem. Qed.
Print Assumptions C19_file_name_stable.
Example C19_example : compression (Some "gzip12") = Ok (Some ("gzip", 9%Z)) /\ compression (Some "lzf3") = Raise ValueError /\
  compression (Some "gzip0") = Ok (Some ("gzip", 1%Z)) /\ compression (Some "gzip4") = Ok (Some ("gzip", 4%Z)) /\
  file_name "corr/XX-XX.A-B" = "corr/XX-XX.A-B.h5" /\ file_name "a.h5" = "a.h5" /\ file_name "h5" = "h5".
Proof. repeat split. Qed.

(** ** C20 *)
Theorem C20_starttimes_exact : forall ops net sta tag cha,
  Forall valid_op ops -> names_ok tag net sta cha ->
  exists d, get_available_starttimes (exec_all ops) net sta tag cha = Ok d /\
    (d = [] \/ exists l, d = [(cha, l)] /\ StronglySorted (fun a b => str_lt a b = true) l) /\
    forall s, (exists l, In (cha, l) d /\ In s l) <->
              exists a e, s = tick_text a /\ spec_all ops (mkKey tag net sta cha a e) <> None.
Proof. exact history_starttimes. Qed.
Print Assumptions C20_starttimes_exact.
Theorem C20_starttimes_wildcard_exact : forall ops net sta tag cha,
  Forall valid_op ops -> name_ok tag -> name_ok net -> name_ok sta -> has_char "*" cha = true ->
  match get_available_starttimes (exec_all ops) net sta tag cha with
  | Ok d => NoDup (map fst d) /\ (forall c l, In (c, l) d -> StronglySorted (fun a b => str_lt a b = true) l) /\
      forall c s, (exists l, In (c, l) d /\ In s l) <->
              fnmatch c cha = true /\ exists a e, s = tick_text a /\ spec_all ops (mkKey tag net sta c a e) <> None
  | Raise e => e = KeyError /\ forall c a e, spec_all ops (mkKey tag net sta c a e) = None
  end.
Proof. exact history_starttimes_wild. Qed.
Print Assumptions C20_starttimes_wildcard_exact.
Theorem C20_channels_exact : forall ops tag net sta cha,
  Forall valid_op ops -> forallb is_add ops = true -> name_ok tag -> name_ok net -> name_ok sta ->
  (In cha (get_available_channels (exec_all ops) tag net sta) <->
   exists a e, spec_all ops (mkKey tag net sta cha a e) <> None).
Proof. exact channels_exact. Qed.
Print Assumptions C20_channels_exact.
(** with deletions: complete, but channels without data stay in the list *)
Theorem C20_channels_complete : forall ops tag net sta cha a e,
  Forall valid_op ops -> names_ok tag net sta cha ->
  spec_all ops (mkKey tag net sta cha a e) <> None -> In cha (get_available_channels (exec_all ops) tag net sta).
Proof. exact history_channels. Qed.
Print Assumptions C20_channels_complete.
Theorem C20_empty_channel_refuted : exists ops cha, Forall valid_op ops /\
  In cha (get_available_channels (exec_all ops) "recombined" "XX-XX" "A-B") /\
  get_data (exec_all ops) "XX-XX" "A-B" cha "recombined" None None = Ok [].
Proof.
  exists [Add ex_a "recombined"; RemoveTime "XX-XX" "A-B" "HHZ-HHZ" "recombined" 0%Z], "HHZ-HHZ". split.
  - constructor; [split; [names|split; apply ex_time; lia]|]. constructor; [|constructor]. split; [names|]. split; [reflexivity|apply ex_time0].
  - vm_compute. auto.
Qed.
Print Assumptions C20_empty_channel_refuted.
Example C20_example : get_available_starttimes (exec_all ex_ops) "XX-XX" "A-B" "recombined" "*" =
  Ok [("HHZ-HHZ", ["1970001T000000.0000Z"; "1970001T010000.0000Z"])] /\
  get_available_channels (exec_all ex_ops) "recombined" "XX-XX" "A-B" = ["HHZ-HHZ"] /\ forallb is_add ex_ops = true.
Proof. vm_compute. auto. Qed.
