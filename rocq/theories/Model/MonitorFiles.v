(** Which files the monitoring looks at (monitor/monitor.py): selection of correlation files
    [corr_find_filter] 758-811 and grouping of dv files [compute_components_average] 369-479. *)
From Verif Require Import Lib.Base Lib.Str Model.CorrDB.
Local Open Scope string_scope.
Local Open Scope nat_scope.

(** ** corr_find_filter *)
(** net['network'], net['station']: a pattern or a list of patterns *)
Inductive filt := FStr (p : string) | FList (l : list string).
(** fnmatch.filter(parts, p) == parts *)
Definition both_match (parts : list string) (p : string) : bool := list_eqb (fnfilter parts p) parts.

(** glob('<dir>/*-*.*-*.h5'): hidden files are not matched by a leading '*' *)
Definition globbed (name : string) : bool := fnmatch name "*-*.*-*.h5" && negb (is_prefix "." name).

(** body of the loop for one file; the variable [matched] survives from the network to the station check *)
Definition keep_file (net sta : filt) (name : string) : option (string * string * string) :=
  match split_on "." name with
  | n :: s :: _ =>
      let nsplit := split_on "-" n in
      let ssplit := split_on "-" s in
      let netres := match net with
                    | FStr p => if both_match nsplit p then Some false else None
                    | FList l => if existsb (both_match nsplit) l then Some true else None
                    end in
      match netres with
      | None => None
      | Some matched =>
          let ok := match sta with
                    | FStr p => both_match ssplit p
                    | FList l => existsb (both_match ssplit) l || matched
                    end in
          if ok then Some (n, s, name) else None
      end
  | _ => None                                     (* not reached: the name contains '.' *)
  end.
(** result: network codes, station codes, file names (the directory is prefixed to the latter) *)
Definition corr_find_filter (net sta : filt) (listing : list string) : list (string * string * string) :=
  flat_map (fun f => match keep_file net sta f with Some x => [x] | None => [] end) (filter globbed listing).

(** ** compute_components_average *)
Inductive av_method := AutoComponents | CrossComponents | StationWide | CrossStations.
(** str.lower() on ASCII *)
Definition lower_char (c : ascii) : ascii :=
  let n := nat_of_ascii c in if (65 <=? n) && (n <=? 90) then ascii_of_nat (n + 32) else c.
Fixpoint lower (s : string) : string :=
  match s with EmptyString => "" | String c r => String (lower_char c) (lower r) end.
Definition parse_method (s : string) : result av_method :=
  let m := lower s in
  if String.eqb m "autocomponents" then Ok AutoComponents
  else if String.eqb m "crosscomponents" || String.eqb m "betweencomponents" then Ok CrossComponents
  else if String.eqb m "stationwide" then Ok StationWide
  else if String.eqb m "crossstations" || String.eqb m "betweenstations" then Ok CrossStations
  else Raise ValueError.
(** channel code of the result, 394-399 *)
Definition av_channel (m : av_method) : string :=
  match m with AutoComponents => "av-auto" | CrossComponents => "av-xc" | _ => "av" end.

(** '.'.join(f.split('.')[:-2]) *)
Definition base (f : string) : string :=
  let l := split_on "." f in join "." (firstn (length l - 2) l).
(** f.split('.')[-k] *)
Definition from_end (k : nat) (f : string) : result string :=
  match nth_error (rev (split_on "." f)) (k - 1) with Some s => Ok s | None => Raise IndexError end.
Definition second (l : list string) : result string :=
  match l with _ :: y :: _ => Ok y | _ => Raise IndexError end.
Definition first (l : list string) : string := match l with x :: _ => x | [] => "" end.  (* split is never empty *)

(** lines 425-451: is the file averaged?  [or] does not evaluate its second operand if the first is true *)
Definition wanted_file (m : av_method) (f : string) : result bool :=
  do comp <- from_end 2 f;
  do sta <- from_end 3 f;
  let components := split_on "-" comp in
  let stations := split_on "-" sta in
  match m with
  | AutoComponents =>
      do c1 <- second components;
      if negb (String.eqb (first components) c1) then Ok false
      else do s1 <- second stations; Ok (String.eqb (first stations) s1)
  | CrossComponents =>
      do c1 <- second components;
      if String.eqb (first components) c1 then Ok false
      else do s1 <- second stations; Ok (String.eqb (first stations) s1)
  | StationWide => do s1 <- second stations; Ok (String.eqb (first stations) s1)
  | CrossStations => do s1 <- second stations; Ok (negb (String.eqb (first stations) s1))
  end.

(** list.remove *)
Fixpoint remove1 (x : string) (l : list string) : result (list string) :=
  match l with
  | [] => Raise ValueError
  | y :: r => if String.eqb y x then Ok r else do r' <- remove1 x r; Ok (y :: r')
  end.
Definition remove_caught (l : list string) (x : string) : list string :=
  match remove1 x l with Ok l' => l' | Raise _ => l end.

Definition has_part (ch f : string) : bool := existsb (String.eqb ch) (split_on "." f).

(** the loop over [filtfil] (405-453): returns infiles and fffil *)
Fixpoint scan (m : av_method) (filtfil todo infiles fffil : list string) : result (list string * list string) :=
  match todo with
  | [] => Ok (infiles, fffil)
  | f :: r =>
      if has_part (av_channel m) f then Ok (fold_left remove_caught filtfil infiles, [])    (* break *)
      else if is_substr "av" f then do i <- remove1 f infiles; scan m filtfil r i fffil
      else
        do w <- wanted_file m f;
        if w : bool then scan m filtfil r infiles (fffil ++ [f])%list
        else do i <- remove1 f infiles; scan m filtfil r i fffil
  end.

Section Read.
  (** read_dv succeeds for this file; otherwise the exception is logged (454-462) *)
  Variable readable : string -> bool.
  Fixpoint remove_each (fs infiles : list string) : result (list string) :=
    match fs with
    | [] => Ok infiles
    | f :: r => do i <- remove1 f infiles; remove_each r i
    end.

  (** one iteration of [while len(infiles)] (401-478): the remaining files and the group that is averaged, if any *)
  Definition av_step (m : av_method) (infiles : list string) : result (list string * list (list string)) :=
    match infiles with
    | [] => Ok ([], [])
    | f0 :: _ =>
        let filtfil := fnfilter infiles (base f0 ++ "*") in
        do s <- scan m filtfil filtfil infiles [];
        let '(infiles, fffil) := s in
        do infiles <- remove_each fffil infiles;
        let dvs := filter readable fffil in
        Ok (infiles, match dvs with _ :: _ :: _ => [dvs] | _ => [] end)
    end.
  (** [None]: the loop has not ended after [fuel] iterations *)
  Fixpoint av_loop (fuel : nat) (m : av_method) (infiles : list string) (acc : list (list string)) :
    result (option (list (list string))) :=
    match infiles with
    | [] => Ok (Some acc)
    | _ => match fuel with
           | O => Ok None
           | S k => do r <- av_step m infiles; av_loop k m (fst r) (acc ++ snd r)%list
           end
    end.
  (** the method with the name it is called with, 387-392 *)
  Definition components_average (fuel : nat) (method : string) (infiles : list string) :
    result (option (list (list string))) :=
    do m <- parse_method method; av_loop fuel m infiles [].
End Read.
