(** Averages of velocity changes over an area and the alignment of several curves (monitor/monitor.py):
    [average_dvs_by_coords] 1101-1152, [correct_time_shift_several] 886-936. *)
From Verif Require Import Lib.Base Lib.Str Model.CorrStream Model.LagMatrix Model.DVs.
Local Open Scope string_scope.
Local Open Scope nat_scope.

(** ** average_dvs_by_coords *)
(** A coordinate in the header of a dv: a number, or the pair of limits that an average over an area
    has there (1148-1151).  Numbers are exact. *)
Inductive coord := At (x : Q) | Span (lo hi : Q).
Record placed := mkP { p_dv : dv; p_stla : coord; p_evla : coord; p_stlo : coord; p_evlo : coord; p_stel : coord; p_evel : coord }.
(** lo <= c <= hi; a number is not comparable with a pair *)
Definition in_limits (r : Q * Q) (c : coord) : result bool :=
  match c with At x => Ok (Qle_bool (fst r) x && Qle_bool x (snd r)) | Span _ _ => Raise TypeError end.
(** all((...)): the tuple is evaluated completely *)
Definition in_area (lat lon el : Q * Q) (p : placed) : result bool :=
  do a <- in_limits lat (p_stla p);
  do b <- in_limits lat (p_evla p);
  do c <- in_limits lon (p_stlo p);
  do d <- in_limits lon (p_evlo p);
  do e <- in_limits el (p_stel p);
  do f <- in_limits el (p_evel p);
  Ok (a && b && c && d && e && f).
(** 1130-1140 *)
Fixpoint in_area_list (lat lon el : Q * Q) (l : list placed) : result (list placed) :=
  match l with
  | [] => Ok []
  | p :: r => if String.eqb (d_cha (p_dv p)) "av" then in_area_list lat lon el r
              else do b <- in_area lat lon el p;
                   do r' <- in_area_list lat lon el r;
                   Ok (if b then p :: r' else r')
  end.
(** the result: numbers and codes, and the coordinates of its header *)
Record area_average := mkAA { aa : average; aa_lat : coord; aa_lon : coord; aa_el : coord }.
Definition average_by_coords (dvs : list placed) (lat lon el : Q * Q) : result area_average :=
  do l <- in_area_list lat lon el dvs;
  match l with
  | [] => Raise ValueError
  | _ => do a <- average_components (map p_dv l);
         Ok (mkAA (mkA (a_sim a) (a_corr a) (a_value a) (a_n a) "geoav" "geoav" (a_cha a))
                  (Span (fst lat) (snd lat)) (Span (fst lon) (snd lon)) (Span (fst el) (snd el)))
  end.

(** ** correct_time_shift_several *)
(** np.mean(corr_start[avail]): mean start of the measurements; NaN if there are none.  Exact here. *)
Definition centre (d : dv) : option Q :=
  match select (d_t0 d) (avail d) with
  | [] => None
  | l => Some (Qred (inject_Z (fold_right Z.add 0%Z l) / inject_Z (Z.of_nat (length l))))
  end.
(** np.sort(np.unique(avl)); NaN comes last and equals nothing, so that no curve is selected for it: it is left out *)
Fixpoint uinsert (x : Q) (l : list Q) : list Q :=
  match l with
  | [] => [x]
  | y :: r => if Qeq_bool x y then l else if Qle_bool x y then x :: l else y :: uinsert x r
  end.
Definition unique (l : list (option Q)) : list Q := fold_right uinsert [] (defined l).
(** avl == u *)
Definition centred_at (u : Q) (d : dv) : bool := match centre d with Some c => Qeq_bool c u | None => false end.
(** the correction of one curve (927-936): a ValueError becomes a warning *)
Definition attempt (m : shift_method) (n : Z) (d ref : dv) : result dv :=
  match correct_dv_shift d ref m n with
  | Ok d' => Ok d'
  | Raise ValueError => Ok d
  | Raise e => Raise e
  end.
(** one turn of the loop: the curves centred at [v] are corrected with the first one that is centred at [u].
    The centres are those of the beginning; corrections do not change them. *)
Definition group_step (m : shift_method) (n : Z) (orig : list dv) (u v : Q) (dvs : list dv) : result (list dv) :=
  match where_true (map (centred_at u) orig) with
  | [] => Raise IndexError
  | i :: _ =>
      match nth_error dvs i with
      | None => Raise IndexError
      | Some ref => mapM (fun p => if centred_at v (fst p) then attempt m n (snd p) ref else Ok (snd p)) (combine orig dvs)
      end
  end.
Fixpoint group_loop (m : shift_method) (n : Z) (orig : list dv) (us : list Q) (dvs : list dv) : result (list dv) :=
  match us with
  | u :: ((v :: _) as r) => do dvs' <- group_step m n orig u v dvs; group_loop m n orig r dvs'
  | _ => Ok dvs
  end.
Definition align_several (m : shift_method) (n : Z) (dvs : list dv) : result (list dv) :=
  group_loop m n dvs (unique (map centre dvs)) dvs.
(** [average_components] with correct_shift=True aligns the curves it uses before it averages (1061-1065).
    The header codes and availability are those of the curves. *)
Definition average_aligned (m : shift_method) (n : Z) (dvs : list dv) : result average :=
  match dvs with
  | [] => Raise ValueError
  | d0 :: _ => do us <- use d0 dvs;
               do us' <- align_several m n us;
               average_components us'
  end.
