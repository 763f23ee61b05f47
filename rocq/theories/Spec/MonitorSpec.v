(** Vocabulary for the statements about the files the monitor uses. *)
From Verif Require Import Lib.Base Lib.Str Model.MonitorFiles.
Local Open Scope string_scope.

(** ** Selection of correlation files *)
(** a code matches the filter: the pattern, or one of the patterns of the list *)
Definition matches (f : filt) (code : string) : Prop :=
  match f with
  | FStr p => fnmatch code p = true
  | FList l => exists p, In p l /\ fnmatch code p = true
  end.
(** all codes match one and the same pattern *)
Definition match_together (f : filt) (codes : list string) : Prop :=
  match f with
  | FStr p => forall c, In c codes -> fnmatch c p = true
  | FList l => exists p, In p l /\ forall c, In c codes -> fnmatch c p = true
  end.
(** the file <net>-<net>.<sta>-<sta>.h5 is to be used *)
Definition to_be_used (net sta : filt) (name : string) : Prop :=
  exists n s rest, split_on "." name = n :: s :: rest /\
    (forall c, In c (split_on "-" n) -> matches net c) /\
    (forall c, In c (split_on "-" s) -> matches sta c).
Definition returned (net sta : filt) (listing : list string) (name : string) : Prop :=
  exists n s, In (n, s, name) (corr_find_filter net sta listing).

(** ** dv files *)
(** what a dv file contains: one pair of components, or an average *)
Inductive content := Components (c0 c1 : string) | Averaged (label : string).
(** [where_]: directory, "DV-" and network codes *)
Record dvfile := mkF { where_ : string; sta0 : string; sta1 : string; what : content }.
Definition comp_code (c : content) : string :=
  match c with Components c0 c1 => c0 ++ "-" ++ c1 | Averaged l => l end.
(** network and station combination *)
Definition pair_of (x : dvfile) : string := where_ x ++ "." ++ sta0 x ++ "-" ++ sta1 x.
Definition path (x : dvfile) : string := pair_of x ++ "." ++ comp_code (what x) ++ ".npz".

(** codes contain neither '.' nor '-', labels are the three that are written *)
Definition code_ok (s : string) : Prop := has_char "." s = false /\ has_char "-" s = false.
Definition file_ok (x : dvfile) : Prop :=
  code_ok (sta0 x) /\ code_ok (sta1 x) /\
  match what x with
  | Components c0 c1 => code_ok c0 /\ code_ok c1
  | Averaged l => l = "av" \/ l = "av-auto" \/ l = "av-xc"
  end.
(** "av" occurs in the label of averaged files only; no wildcards *)
Definition no_av (x : dvfile) : Prop :=
  is_substr "av" (pair_of x) = false /\
  match what x with Components _ _ => is_substr "av" (path x) = false | Averaged _ => True end.

(** the documented names of the methods and the two that are accepted besides; capital letters do not matter *)
Definition method_names : list (string * av_method) :=
  [("AutoComponents", AutoComponents); ("CrossComponents", CrossComponents); ("betweenComponents", CrossComponents);
   ("StationWide", StationWide); ("CrossStations", CrossStations); ("betweenStations", CrossStations)].
Definition names_method (s : string) (m : av_method) : Prop := exists n, In (n, m) method_names /\ lower s = lower n.

(** the component files a method averages *)
Definition for_method (m : av_method) (x : dvfile) : bool :=
  match what x with
  | Averaged _ => false
  | Components c0 c1 =>
      match m with
      | AutoComponents => String.eqb (sta0 x) (sta1 x) && String.eqb c0 c1
      | CrossComponents => String.eqb (sta0 x) (sta1 x) && negb (String.eqb c0 c1)
      | StationWide => String.eqb (sta0 x) (sta1 x)
      | CrossStations => negb (String.eqb (sta0 x) (sta1 x))
      end
  end.
(** the label of a method's results (monitor.py, docstring of [average_dvs]) *)
Definition label (m : av_method) : string :=
  match m with AutoComponents => "av-auto" | CrossComponents => "av-xc" | StationWide => "av" | CrossStations => "av" end.
(** the result of the method exists already *)
Definition is_result (m : av_method) (x : dvfile) : bool :=
  match what x with Averaged l => String.eqb l (label m) | Components _ _ => false end.

(** the files averaged for one pair *)
Definition group_of (readable : string -> bool) (m : av_method) (xs : list dvfile) (p : string) : list string :=
  filter readable (map path (filter (fun x => String.eqb (pair_of x) p && for_method m x) xs)).
(** groups to be averaged *)
Definition to_average (readable : string -> bool) (m : av_method) (xs : list dvfile) (g : list string) : Prop :=
  exists p, g = group_of readable m xs p /\ 2 <= length g /\
            (forall x, In x xs -> pair_of x = p -> is_result m x = false).
(** no pair is the beginning of the path of another pair's file *)
Definition prefix_free (xs : list dvfile) : Prop :=
  forall x y, In x xs -> In y xs -> is_prefix (pair_of x) (path y) = true -> pair_of x = pair_of y.
(** a folder of dv files *)
Record input_ok (xs : list dvfile) : Prop := {
  io_nodup : NoDup (map path xs);
  io_ok : forall x, In x xs -> file_ok x;
  io_av : forall x, In x xs -> no_av x;
  io_plain : forall x, In x xs -> plain (pair_of x) = true;
  io_prefix : prefix_free xs }.
