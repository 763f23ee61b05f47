(** What a user expects to find in the correlation directory after a run. *)
From Coq Require Import QArith Reals.
From Verif Require Import Lib.Base Lib.Str Lib.Time Model.CorrTrace Model.WriteOut Model.Gaps Model.DataLoop Spec.DataLoopSpec Spec.WindowCorrelationSpec Spec.DBSpec Spec.XCombiSpec Spec.HeaderSpec Model.CorrDB Model.Rerun Model.RunToFiles.
Local Open Scope string_scope.
Local Open Scope Z_scope.

(** order of the channels: network, station, channel *)
Definition before (a b : channel) : Prop :=
  String.compare (ch_net a) (ch_net b) = Lt \/
  ch_net a = ch_net b /\ (String.compare (ch_sta a) (ch_sta b) = Lt \/ ch_sta a = ch_sta b /\ String.compare (ch_cha a) (ch_cha b) = Lt).
Definition one_station (a b : channel) : Prop := ch_net a = ch_net b /\ ch_sta a = ch_sta b.
Definition letter (a : channel) : option ascii := last_char (ch_cha a).
(** the pairs of a combination method *)
Definition wanted (method : string) (a b : channel) : Prop :=
  (method = "betweenStations" /\ before a b /\ ~ one_station a b) \/
  (method = "betweenComponents" /\ before a b /\ one_station a b /\ letter a <> letter b) \/
  (method = "autoComponents" /\ a = b) \/
  (method = "allSimpleCombinations" /\ (before a b \/ a = b)).
Definition one_each (method : string) : Prop := In method ["betweenStations"; "betweenComponents"; "autoComponents"; "allSimpleCombinations"].

(** Requests for combinations, [None]: all.  The request [e] names the two channels, or their stations, in this order: *)
Definition asks (e : entry) (a b : channel) : Prop :=
  ch_net a = e_n1 e /\ ch_sta a = e_s1 e /\ ch_net b = e_n2 e /\ ch_sta b = e_s2 e /\
  match e_cha e with Some (c1, c2) => ch_cha a = c1 /\ ch_cha b = c2 | None => True end.
(** requests are for method betweenStations only *)
Definition requested (rc : option (list entry)) (method : string) (a b : channel) : Prop :=
  method = "betweenStations" -> forall l, rc = Some l -> exists e, In e l /\ (asks e a b \/ asks e b a).
(** requests with SEED codes, the last ones as long as those of the archive (see C07) *)
Definition fine_requests (archive : list channel) (rc : option (list entry)) : Prop :=
  forall l e, rc = Some l -> In e l -> seed_entry e /\
    forall a, In a archive -> match e_cha e with Some (_, c2) => String.length (ch_cha a) = String.length c2 | None => String.length (ch_sta a) = String.length (e_s2 e) end.
(** requests for stations in the order of the files (see C10) *)
Definition plain_requests (rc : option (list entry)) : Prop :=
  forall l e, rc = Some l -> In e l -> e_cha e = None /\
    (String.compare (e_n1 e) (e_n2 e) = Lt \/ e_n1 e = e_n2 e /\ String.compare (e_s1 e) (e_s2 e) <> Gt).
(** as they are given to the program *)
Definition texts (rc : option (list entry)) : option (list string) := option_map (map entry_text) rc.
Definition chosen (rc : option (list entry)) (method : string) (a b : channel) : Prop := wanted method a b /\ requested rc method a b.

(** SEED codes; all network codes of the same length, all station codes of the same length; no two codes that differ in
    capitalisation only; one location for each channel *)
Definition fine_archive (archive : list channel) : Prop :=
  (forall a, In a archive -> seed (ch_net a) /\ seed (ch_sta a) /\ seed (ch_cha a)) /\
  (forall a b, In a archive -> In b archive ->
     String.length (ch_net a) = String.length (ch_net b) /\ String.length (ch_sta a) = String.length (ch_sta b) /\
     (upper (ch_net a) = upper (ch_net b) -> ch_net a = ch_net b) /\ (upper (ch_sta a) = upper (ch_sta b) -> ch_sta a = ch_sta b) /\
     (upper (ch_cha a) = upper (ch_cha b) -> ch_cha a = ch_cha b)) /\
  NoDup (map (fun a => (ch_net a, ch_sta a, ch_cha a)) archive).

Section Expected.
  Variables (o : times) (origin dt : Z) (sr : Q) (k : Z) (method : string) (rc : option (list entry)) (K n : nat).
  Variables (proc : Gaps.trace R -> result (option (Gaps.trace R))) (archive : list channel) (f32 : R -> Q).

  (** channel [a] with the preprocessed data [x] of the read that starts at [t] has samples in the window from [s] on *)
  Definition has_data (t s : Z) (c : nat) (a : channel) (x : Gaps.trace R) : Prop :=
    nth_error archive c = Some a /\ preprocessed o proc (map ch_trace archive) c t x /\
    exists q, s <= q < s + corr_len o /\ t <= q <= t + read_len o /\ at_pos x q <> None.
  (** the window from [s] on in the read from [t] on, and two channels with data in it that the method and the requests select *)
  Definition correlated (t s : Z) (a b : channel) (x y : Gaps.trace R) : Prop :=
    In (t, s) (schedule o K n) /\ (exists c, has_data t s c a x) /\ (exists c, has_data t s c b y) /\ chosen rc method a b.
  (** the file of the two channels *)
  Definition file_name (sep : bool) (a b : channel) : string :=
    (ch_net a ++ "-" ++ ch_net b ++ "." ++ ch_sta a ++ "-" ++ ch_sta b ++ (if sep then "." ++ ch_cha a ++ "-" ++ ch_cha b else "") ++ ".h5")%string.
  (** the correlation of [x] and [y]: its codes, its times up to 0.1 ms, the lag of the first sample, and the samples for the lags
      from -[k] to [k] *)
  Definition right_correlation (t s : Z) (a b : channel) (x y : Gaps.trace R) (tr : ctrace) : Prop :=
    c_net tr = (ch_net a ++ "-" ++ ch_net b)%string /\ c_sta tr = (ch_sta a ++ "-" ++ ch_sta b)%string /\ c_loc tr = (ch_loc a ++ "-" ++ ch_loc b)%string /\
    c_cha tr = (ch_cha a ++ "-" ++ ch_cha b)%string /\
    tick (c_start tr) = tick (origin + s * dt) /\ tick (c_end tr) = tick (origin + (s + corr_len o) * dt) /\ (c_lag tr == - inject_Z k / sr)%Q /\ c_sr tr = sr /\
    c_data tr = map (fun i => f32 (lagged_sum o t s x y (Z.of_nat i - k))) (seq 0 (2 * Z.to_nat k + 1)).
  (** a correlation that a run passes to the database *)
  Definition of_run (tr : ctrace) : Prop :=
    exists t s a b x y, correlated t s a b x y /\ c_start tr = origin + s * dt /\ c_end tr = origin + (s + corr_len o) * dt /\ right_correlation t s a b x y tr.
  (** a directory with some of the correlations of the run: each in its file, each once, in any order *)
  Definition part_of_run (sep : bool) (d : dir) : Prop :=
    NoDup (map fst d) /\
    exists l, Forall of_run l /\ NoDup (map (key_of "subdivision") l) /\
      forall name, dget d name =
        match filter (fun tr => String.eqb (own_file sep tr) name) l with
        | [] => None
        | trs => Some (exec_all (map (fun tr => Add tr "subdivision") trs))
        end.
  (** a directory with all of them: each is found in its file, and whatever is found is one of them *)
  Definition complete (sep : bool) (d : dir) : Prop :=
    (forall t s a b x y, correlated t s a b x y ->
       exists f tr, dget d (file_name sep a b) = Some f /\
         get_data f (ch_net a ++ "-" ++ ch_net b) (ch_sta a ++ "-" ++ ch_sta b) (ch_cha a ++ "-" ++ ch_cha b) "subdivision"
           (Some (origin + s * dt)) (Some (origin + (s + corr_len o) * dt)) = Ok [tr] /\
         right_correlation t s a b x y tr) /\
    (forall name f, dget d name = Some f ->
       (exists t s a b x y, correlated t s a b x y /\ name = file_name sep a b) /\
       forall net sta cha tag st et r, names_ok tag net sta cha -> canonical net sta cha -> time_ok st -> time_ok et ->
         get_data f net sta cha tag (Some st) (Some et) = Ok r ->
         exists tr t s a b x y, r = [tr] /\ correlated t s a b x y /\ name = file_name sep a b /\ tag = "subdivision" /\
           net = (ch_net a ++ "-" ++ ch_net b)%string /\ sta = (ch_sta a ++ "-" ++ ch_sta b)%string /\ cha = (ch_cha a ++ "-" ++ ch_cha b)%string /\
           tick st = tick (origin + s * dt) /\ tick et = tick (origin + (s + corr_len o) * dt) /\
           right_correlation t s a b x y tr).
End Expected.
(** the stations of the archive *)
Definition stations_of (archive : list channel) (stations : list (string * string)) : Prop :=
  forall p, In p stations <-> exists a, In a archive /\ p = (ch_net a, ch_sta a).
(** the directories that an empty directory can turn into when runs are started and stopped again and again; [run d e]: a run that starts
    with directory [d] and is stopped can leave [e] behind *)
Inductive interrupted (run : dir -> dir -> Prop) : dir -> Prop :=
| at_first : interrupted run []
| once_more d e : interrupted run d -> run d e -> interrupted run e.
