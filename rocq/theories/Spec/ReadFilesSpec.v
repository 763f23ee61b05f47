(** What a user expects of reading from a directory tree *)
From Coq Require Import Sorted.
From Verif Require Import Lib.Base Lib.Str Lib.Time Model.Archive Spec.ArchiveSpec Model.ReadFiles.
Local Open Scope Z_scope.

(** the value of sample [n] (None: there is none, or it is masked) *)
Definition value (w : trace) (n : Z) : option Z :=
  if n <? no w then None else nth (Z.to_nat (n - no w)) (vals w) None.
Definition holds (st : list trace) (n v : Z) : Prop := exists w, In w st /\ value w n = Some v.

(** one trace ends before the other begins *)
Definition before (a b : trace) : Prop := end_no a < no b.
Definition apart (a b : trace) : Prop := before a b \/ before b a.

Section Tree.
  Variables (origin delta : Z) (glob : string -> list (list trace)) (ID : string) (fs : list (list string)).
  (** the samples of a file lie strictly after [s] and strictly before [e] to some extent: its first sample is
      before [e] and its last one after [s] *)
  Definition reaches (s e : Z) (f : list trace) : Prop :=
    exists first last r r', f = first :: r /\ f = (r' ++ [last])%list /\
      starttime origin delta first < e /\ s < endtime origin delta last.
  (** sample [n] is in a file [f] in the place for its time *)
  Definition in_file (f : list trace) (n v : Z) : Prop :=
    exists pat w, current_filepattern ID (time_no origin delta n) fs = Ok pat /\
      In f (glob pat) /\ In w f /\ value w n = Some v.
  Definition stored (n v : Z) : Prop := exists f, in_file f n v.
  (** one name of files per period, another name for another period is not required *)
  Definition named_by (p : string) : Prop :=
    forall t t', time_ok t -> time_ok t' -> period p t = period p t' ->
      current_filepattern ID t fs = current_filepattern ID t' fs.
  (** the files with the name of a period hold samples of this period, in chronological order, and no sample twice *)
  Definition tidy (p : string) : Prop :=
    forall t pat, time_ok t -> current_filepattern ID t fs = Ok pat ->
      (forall f, In f (glob pat) -> f <> [] /\ StronglySorted before f /\
         forall w, In w f -> 0 < npts w /\
           time_ok (starttime origin delta w) /\ period p (starttime origin delta w) = period p t /\
           time_ok (endtime origin delta w) /\ period p (endtime origin delta w) = period p t) /\
      ForallOrdPairs apart (concat (glob pat)).
End Tree.

(** none of the format strings, except those for codes of the channel, mentions one of the directives [cs] *)
Definition without (cs : list ascii) (fs : list (list string)) : Prop :=
  forall part q c, In part fs -> In q part -> ~ In q IDformat -> In c cs -> is_substr (String "%" (String c "")) q = false.
Definition below_hour : list ascii := ["M"; "S"; "f"]%char.
Definition below_day : list ascii := ["H"; "I"; "p"; "M"; "S"; "f"]%char.

(** directories and file below the base directory of an SDS archive:
    YEAR/NET/STA/CHAN.D/NET.STA.LOC.CHAN.D.YEAR.DAY *)
Definition sds_parts (net sta loc cha : string) (t : Z) : list string :=
  [dec 4 (year_of t); net; sta; cha ++ ".D";
   net ++ "." ++ sta ++ "." ++ loc ++ "." ++ cha ++ ".D." ++ dec 4 (year_of t) ++ "." ++ dec 3 (doy_of t)]%string.
(** codes contain no separators *)
Definition code (c : string) : Prop := has_char "." c = false /\ has_char "/" c = false.
