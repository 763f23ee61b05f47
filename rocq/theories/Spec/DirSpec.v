(** A correlation directory written by earlier runs: every file has a history of additions and holds the
    correlations of one station pair (one channel pair, if components are saved separately). *)
From Verif Require Import Lib.Base Lib.Str Lib.Time Model.CorrTrace Model.CorrDB Model.Combos Model.Rerun Spec.DBSpec Spec.XCombiSpec.
Local Open Scope nat_scope.
Local Open Scope string_scope.

Definition hist_dir := list (string * list op).
Definition dir_of (h : hist_dir) : dir := map (fun nf => (fst nf, exec_all (snd nf))) h.

Definition additions (ops : list op) : bool := forallb (fun o => match o with Add _ _ => true | _ => false end) ops.

(** file name of a station pair (channel pair) *)
Definition out_name (sep : bool) (nc sc cha : string) : string :=
  nc ++ "." ++ sc ++ (if sep then "." ++ cha else "") ++ ".h5".

(** one file: its name says which pair it holds; all network codes have length ln, all station codes ls *)
Definition file_ok (sep : bool) (ln ls : nat) (nf : string * list op) : Prop :=
  Forall valid_op (snd nf) /\ additions (snd nf) = true /\
  exists nc sc cha, fst nf = out_name sep nc sc cha /\
    String.length nc = (ln + 1 + ln)%nat /\ String.length sc = (ls + 1 + ls)%nat /\
    forall k, spec_all (snd nf) k <> None -> k_net k = nc /\ k_sta k = sc /\ (sep = true -> k_cha k = cha).
Definition hist_ok (sep : bool) (ln ls : nat) (h : hist_dir) : Prop :=
  NoDup (map fst h) /\ Forall (file_ok sep ln ls) h.

(** the directory holds the correlation of these codes at this start time (0.1 ms units) *)
Definition stored_in (h : hist_dir) (tag net sta cha : string) (s : Z) : Prop :=
  exists name ops e, In (name, ops) h /\ spec_all ops (mkKey tag net sta cha s e) <> None.

(** names under which the correlation of two traces is stored *)
Definition names_of (a b : trace) : string * string * string :=
  let '(nn, ss, cc) := sort_comb (t_net a) (t_sta a) (t_net b) (t_sta b) (t_cha a) (t_cha b) in
  (fst nn ++ "-" ++ snd nn, fst ss ++ "-" ++ snd ss, fst cc ++ "-" ++ snd cc).

Definition corr_stored (h : hist_dir) (tag : string) (a b : trace) : Prop :=
  let '(net, sta, cha) := names_of a b in stored_in h tag net sta cha (tick (Z.max (t_start a) (t_start b))).

(** pairs of traces that the combination method correlates *)
Definition method_pair (method : string) (a b : trace) : Prop :=
  let same := t_net a = t_net b /\ t_sta a = t_sta b in
  (method = "betweenStations" /\ ~ same) \/ (method = "betweenComponents" /\ same) \/ (method = "autoComponents" /\ same) \/
  method = "allSimpleCombinations" \/ method = "allCombinations".
