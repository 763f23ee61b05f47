(** C97, C98: headers written to a file of correlations and read again (db/corr_hdf5.py 455-511). *)
From Coq Require Import QArith.
From Verif Require Import Lib.Base Lib.Str Lib.Time Model.HeaderIO Spec.HeaderIOSpec Proofs.HeaderFacts.
Local Open Scope Z_scope.

(** A header comes back as it was if its times stand under the four keys of times and have no digits below
    100 microseconds, with any version of obspy. *)
Theorem C97_header old h : Forall plain h -> read_header old (convert_header h) = Ok h.
Proof. exact (header_plain old h). Qed.
Print Assumptions C97_header.

(** Reading a time never fails and never gives a time outside the last 100 microseconds before the one written:
    also on the 360th day of a year, where older versions of obspy refuse the text. *)
Theorem C97_time old t : time_ok t -> exists t', read_time old (format_fissures t) = Ok t' /\ t - 100000 < t' <= t /\ t' mod 100000 = 0.
Proof.
  intros T. exists (tick t * 100000). split; [now apply read_format|]. unfold tick.
  pose proof (Z.div_mod t 100000 ltac:(lia)). pose proof (Z.mod_pos_bound t 100000 ltac:(lia)). split; [lia|]. apply Z.mod_mul. lia.
Qed.
Print Assumptions C97_time.

(** The version of obspy does not matter to any header. *)
Theorem C97_version h : Forall well_typed h -> read_header true (convert_header h) = read_header false (convert_header h).
Proof. intros W. now rewrite !header_back. Qed.
Print Assumptions C97_version.

(** Reading never fails, and every entry comes back as [back] says: times under the four keys rounded down, other
    times as texts, entries that cannot be stored not at all, all others as they were. *)
Theorem C98_every_entry_partial old h : Forall well_typed h ->
  read_header old (convert_header h) = Ok (flat_map (fun e => match back e with Some v => [(fst e, v)] | None => [] end) h).
Proof. exact (header_back old h). Qed.
Print Assumptions C98_every_entry_partial.

Definition christmas : Z := (days_before_year 2015 + 360 - 1 - epoch_day) * day + 123456789.
(** a time under another key comes back as a text *)
Theorem C98_text_refuted : exists t, time_ok t /\
  read_header false (convert_header [("station_removed"%string, HTime t)]) = Ok [("station_removed"%string, HText "1970001T000001.0000Z")].
Proof. exists sec. split; [vm_compute; split; [discriminate|reflexivity]|vm_compute; reflexivity]. Qed.
Print Assumptions C98_text_refuted.
(** a time with microseconds comes back earlier *)
Theorem C98_rounding_refuted : exists t, time_ok t /\ read_header false (convert_header [("corr_start"%string, HTime t)]) = Ok [("corr_start"%string, HTime (t - 56789))].
Proof. exists christmas. split; [vm_compute; split; [discriminate|reflexivity]|vm_compute; reflexivity]. Qed.
Print Assumptions C98_rounding_refuted.
(** an entry that cannot be stored is lost *)
Theorem C98_lost_refuted : read_header false (convert_header [("back_azimuth"%string, HOther)]) = Ok [].
Proof. reflexivity. Qed.
Print Assumptions C98_lost_refuted.

(** ** non-vacuity *)
Definition example_header : list (string * hval) :=
  [("network", HText "AB"); ("corr_start", HTime (christmas - 56789)); ("corr_end", HTime (100000 * 36000)); ("sampling_rate", HNum 25);
   ("processing", HTexts ["detrend"; "taper"])]%string.
Example C97_example : Forall plain example_header /\ doy_of (christmas - 56789) = 360 /\
  utc true (format_fissures (christmas - 56789)) = Raise ValueError /\
  read_header true (convert_header example_header) = Ok example_header.
Proof.
  split; [|split; [|split]; vm_compute; reflexivity].
  do 5 (apply Forall_cons; [vm_compute; repeat split; discriminate|]). apply Forall_nil.
Qed.
Example C98_example : Forall well_typed [("corr_start"%string, HTime christmas); ("x"%string, HOther)] .
Proof.
  apply Forall_cons; [split|apply Forall_cons; [split|apply Forall_nil]]; simpl.
  - intros t E. injection E as <-. vm_compute. repeat split; discriminate.
  - intros _. right. eauto.
  - discriminate.
  - auto.
Qed.
