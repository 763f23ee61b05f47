(** Specification of the correlation database: a partial map from keys to correlations.
    A key consists of tag, combined codes and the two times in units of 0.1 ms. *)
From Verif Require Import Lib.Base Lib.Str Lib.Time Model.CorrTrace Model.CorrDB.
Local Open Scope string_scope.

Record key := mkKey { k_tag : string; k_net : string; k_sta : string; k_cha : string; k_st : Z; k_et : Z }.

Definition key_eqb (a b : key) : bool :=
  String.eqb (k_tag a) (k_tag b) && String.eqb (k_net a) (k_net b) && String.eqb (k_sta a) (k_sta b) &&
  String.eqb (k_cha a) (k_cha b) && (k_st a =? k_st b)%Z && (k_et a =? k_et b)%Z.

Definition key_of (tag : string) (tr : ctrace) : key :=
  mkKey tag (c_net tr) (c_sta tr) (c_cha tr) (tick (c_start tr)) (tick (c_end tr)).

Definition db := key -> option ctrace.
Definition db_empty : db := fun _ => None.

(** storing: the first correlation stored under a key stays *)
Definition db_add (m : db) (tr : ctrace) (tag : string) : db := fun k =>
  if key_eqb k (key_of tag tr)
  then match m k with Some old => Some old | None => Some (stored tr) end
  else m k.

(** deleting the correlations of a channel pair whose start time is selected *)
Definition db_remove (m : db) (net sta cha tag : string) (sel : Z -> bool) : db := fun k =>
  if String.eqb (k_tag k) tag && String.eqb (k_net k) net && String.eqb (k_sta k) sta && String.eqb (k_cha k) cha
     && sel (k_st k)
  then None else m k.

(** operations on a file *)
Inductive op :=
| Add (tr : ctrace) (tag : string)
| RemoveTime (net sta cha tag : string) (t : Z)          (* corr_start is a UTCDateTime *)
| RemovePattern (net sta cha tag : string) (pat : string). (* corr_start is a string *)

(** the operation writes, and does not delete *)
Definition is_add (o : op) : bool := match o with Add _ _ => true | _ => false end.

Definition exec (f : file) (o : op) : file :=
  match o with
  | Add tr tag => add_correlation f [tr] tag
  | RemoveTime net sta cha tag t =>
      match remove_data f net sta cha tag (format_fissures t) with Ok f' => f' | Raise _ => f end
  | RemovePattern net sta cha tag pat =>
      match remove_data f net sta cha tag pat with Ok f' => f' | Raise _ => f end
  end.
Definition exec_all (ops : list op) : file := fold_left exec ops H5.empty_file.

(** the text of the start time with tick s *)
Definition tick_text (s : Z) : string := format_fissures (s * 100000).

Definition spec (m : db) (o : op) : db :=
  match o with
  | Add tr tag => db_add m tr tag
  | RemoveTime net sta cha tag t => db_remove m net sta cha tag (fun s => (s =? tick t)%Z)
  | RemovePattern net sta cha tag pat => db_remove m net sta cha tag (fun s => fnmatch (tick_text s) pat)
  end.
Definition spec_all (ops : list op) : db := fold_left spec ops db_empty.

(** ** admissible names and operations *)
(** a code or tag: not empty, no '/' and no wildcard characters *)
Definition name_ok (s : string) : Prop := s <> "" /\ has_char "/" s = false /\ plain s = true.
(** the two stations are named in the order in which the query functions expect them *)
Definition canonical (net sta cha : string) : Prop := sort_query net sta cha = Ok (net, sta, cha).
Definition names_ok (tag net sta cha : string) : Prop :=
  name_ok tag /\ name_ok net /\ name_ok sta /\ name_ok cha.
(** a start time pattern: wildcard '*' only, no '/' *)
Definition pattern_ok (pat : string) : Prop :=
  pat <> "" /\ has_char "/" pat = false /\ has_char "?" pat = false /\ has_char "[" pat = false.

Definition valid_op (o : op) : Prop :=
  match o with
  | Add tr tag => names_ok tag (c_net tr) (c_sta tr) (c_cha tr) /\ time_ok (c_start tr) /\ time_ok (c_end tr)
  | RemoveTime net sta cha tag t => names_ok tag net sta cha /\ canonical net sta cha /\ time_ok t
  | RemovePattern net sta cha tag pat => names_ok tag net sta cha /\ canonical net sta cha /\ pattern_ok pat
  end.

Definition valid_key (k : key) : Prop :=
  names_ok (k_tag k) (k_net k) (k_sta k) (k_cha k) /\ time_ok (k_st k * 100000) /\ time_ok (k_et k * 100000).

(** ** queries *)
(** a query field is '*' or a plain value *)
Definition field_ok (s : string) : Prop := s = "*" \/ name_ok s.
Definition field_matches (pat s : string) : Prop := pat = "*" \/ pat = s.
Definition time_matches (t : option Z) (s : Z) : Prop := match t with None => True | Some t => tick t = s end.
Definition key_matches (net sta cha tag : string) (st et : option Z) (k : key) : Prop :=
  field_matches tag (k_tag k) /\ field_matches net (k_net k) /\ field_matches sta (k_sta k) /\
  field_matches cha (k_cha k) /\ time_matches st (k_st k) /\ time_matches et (k_et k).

(** the wildcard fields of the hierarchy tag/network/station/channel/start/end are adjacent *)
Definition stars (net sta cha tag : string) (st et : option Z) : list bool :=
  map (fun s => String.eqb s "*") [tag; net; sta; cha; time_arg st; time_arg et].
Definition adjacent (l : list bool) : Prop :=
  exists a b c, l = (repeat false a ++ repeat true b ++ repeat false c)%list.
(** the order of the correlations in an answer: by tag, networks, stations, channels in alphabetical order, then by time *)
Definition key_before (a b : key) : Prop :=
  lex (String.compare (k_tag a) (k_tag b)) (lex (String.compare (k_net a) (k_net b)) (lex (String.compare (k_sta a) (k_sta b))
    (lex (String.compare (k_cha a) (k_cha b)) (lex (k_st a ?= k_st b)%Z (k_et a ?= k_et b)%Z)))) = Lt.
