(** Headers of correlations, [CorrStats] (correlate/stats.py:137-246), derived from obspy's AttribDict.
    Numbers are exact (Q) instead of binary64.  Values of the keys that the class does not treat in a special way are texts. *)
From Verif Require Import Lib.Base Lib.Str Model.CorrTrace.
Local Open Scope nat_scope.
Local Open Scope string_scope.

Record stats := mkSt {
  s_sr : Q; s_delta : Q; s_start : Z; s_end : Z; s_cstart : Z; s_cend : Z; s_slag : Q; s_elag : Q; s_npts : nat;
  s_cha : string; s_other : list (string * string) }.

(** defaults, stats.py:140-155 *)
Definition default_stats : stats := mkSt 1 1 0 0 0 0 0 0 0 "" [].

(** assignments stats[key] = value; the type of the value belongs to the key *)
Inductive assign :=
| ADelta (v : Q) | ARate (v : Q) | ACorrStart (v : Z) | ACorrEnd (v : Z) | ANpts (v : nat) | AStartLag (v : Q)
| AStarttime (v : Z) | AEndtime (v : Z) | AEndLag (v : Q)
| AComponent (v : string) | AChannel (v : string) | AOther (k v : string).

(** 1.0 / x with ZeroDivisionError caught *)
Definition recip (x : Q) : Q := if Qeq_bool x 0 then 0%Q else Qinv x.

(** derived values, stats.py:199-211 *)
Definition refresh (s : stats) : stats :=
  let delta := recip (s_sr s) in
  let timediff := if (s_npts s =? 0)%nat then 0%Q else (inject_Z (Z.of_nat (s_npts s - 1)) * delta)%Q in
  mkSt (s_sr s) delta (s_cstart s) (s_cend s) (s_cstart s) (s_cend s) (s_slag s) (s_slag s + timediff)%Q (s_npts s) (s_cha s) (s_other s).

(** [__setitem__], stats.py:181-229; AttribDict raises AttributeError for the read-only keys *)
Definition setitem (s : stats) (a : assign) : result stats :=
  match a with
  | ADelta v => Ok (refresh (mkSt (recip v) (s_delta s) (s_start s) (s_end s) (s_cstart s) (s_cend s) (s_slag s) (s_elag s) (s_npts s) (s_cha s) (s_other s)))
  | ARate v => Ok (refresh (mkSt v (s_delta s) (s_start s) (s_end s) (s_cstart s) (s_cend s) (s_slag s) (s_elag s) (s_npts s) (s_cha s) (s_other s)))
  | ACorrStart v => Ok (refresh (mkSt (s_sr s) (s_delta s) (s_start s) (s_end s) v (s_cend s) (s_slag s) (s_elag s) (s_npts s) (s_cha s) (s_other s)))
  | ACorrEnd v => Ok (refresh (mkSt (s_sr s) (s_delta s) (s_start s) (s_end s) (s_cstart s) v (s_slag s) (s_elag s) (s_npts s) (s_cha s) (s_other s)))
  | AStartLag v => Ok (refresh (mkSt (s_sr s) (s_delta s) (s_start s) (s_end s) (s_cstart s) (s_cend s) v (s_elag s) (s_npts s) (s_cha s) (s_other s)))
  | ANpts v => Ok (refresh (mkSt (s_sr s) (s_delta s) (s_start s) (s_end s) (s_cstart s) (s_cend s) (s_slag s) (s_elag s) v (s_cha s) (s_other s)))
  | AStarttime _ | AEndtime _ | AEndLag _ => Raise AttributeError
  | AComponent v =>
      if negb (String.length v =? 3)%nat then Raise ValueError
      else match split_on "-" (s_cha s) with
           | [a; b] => match split_on "-" v with
                       | [an; bn] => Ok (mkSt (s_sr s) (s_delta s) (s_start s) (s_end s) (s_cstart s) (s_cend s) (s_slag s) (s_elag s) (s_npts s)
                                             (but_last a ++ an ++ "-" ++ but_last b ++ bn) (s_other s))
                       | _ => Raise ValueError
                       end
           | _ => Raise ValueError
           end
  | AChannel v => Ok (mkSt (s_sr s) (s_delta s) (s_start s) (s_end s) (s_cstart s) (s_cend s) (s_slag s) (s_elag s) (s_npts s) v (s_other s))
  | AOther k v => Ok (mkSt (s_sr s) (s_delta s) (s_start s) (s_end s) (s_cstart s) (s_cend s) (s_slag s) (s_elag s) (s_npts s) (s_cha s) (dset (s_other s) k v))
  end.

Definition readonly (a : assign) : bool := match a with AStarttime _ | AEndtime _ | AEndLag _ => true | _ => false end.

(** AttribDict.update: read-only keys are skipped; the constructor starts from the defaults *)
Fixpoint update (s : stats) (l : list assign) : result stats :=
  match l with
  | [] => Ok s
  | a :: r => if readonly a then update s r else do s' <- setitem s a; update s' r
  end.
Definition construct (l : list assign) : result stats := update default_stats l.

(** a program may catch the exceptions and go on with the unchanged header *)
Definition assign_step (s : stats) (a : assign) : stats := match setitem s a with Ok s' => s' | Raise _ => s end.

(** stats['component'], stats.py:236-239 *)
Definition component_of (s : stats) : result string :=
  match split_on "-" (s_cha s) with
  | [a; b] => match last_char a, last_char b with
              | Some x, Some y => Ok (String x (String "-" (String y "")))
              | _, _ => Raise IndexError
              end
  | _ => Raise ValueError
  end.

(** the items of a header, in any order: what copying a header passes to the constructor *)
Definition items (s : stats) : list assign :=
  ([ARate (s_sr s); ADelta (s_delta s); AStarttime (s_start s); AEndtime (s_end s); ACorrStart (s_cstart s); ACorrEnd (s_cend s);
   AStartLag (s_slag s); AEndLag (s_elag s); ANpts (s_npts s); AChannel (s_cha s)] ++ map (fun kv => AOther (fst kv) (snd kv)) (s_other s))%list.
