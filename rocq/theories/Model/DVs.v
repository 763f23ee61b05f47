(** Velocity change results (monitor/dv.py) and what the monitor does with several of them
    (monitor/monitor.py): [average_components] 1020-1098, [average_components_mem_save] 939-1017,
    [correct_dv_shift] 814-898.  Samples are exact rationals or NaN ([None]). *)
From Coq Require Import Qround.
From Verif Require Import Lib.Base Lib.Str Model.CorrStream Model.LagMatrix.
Local Open Scope string_scope.
Local Open Scope nat_scope.

(** DV.__init__, dv.py:28-98; avail (line 96-98) is where corr is not NaN.
    [d_t0] are the window starts, [d_t1] the window ends. *)
Record dv := mkDV {
  d_corr : list sample; d_value : list sample; d_sim : list (list sample); d_axis : list Q;
  d_method : string; d_net : string; d_sta : string; d_cha : string; d_t0 : list Z; d_t1 : list Z }.
Definition avail (d : dv) : list bool := map is_some (d_corr d).

(** np.argmax of a row (NaN replaced by 0 with [val]): first of the largest *)
Definition Qlt_bool (a b : Q) : bool := negb (Qle_bool b a).
Fixpoint qargmax_from (i best : nat) (bv : Q) (l : list Q) : nat :=
  match l with
  | [] => best
  | x :: r => if Qlt_bool bv x then qargmax_from (S i) i x r else qargmax_from (S i) best bv r
  end.
(** [None]: ValueError (empty row) *)
Definition qargmax (l : list Q) : option nat :=
  match l with [] => None | x :: r => Some (qargmax_from 1 0 x r) end.
(** np.nanmax of a row *)
Fixpoint qmax_from (bv : Q) (l : list Q) : Q :=
  match l with [] => bv | x :: r => if Qlt_bool bv x then qmax_from x r else qmax_from bv r end.
Definition nanmax (l : list sample) : sample :=
  match defined l with [] => None | x :: r => Some (qmax_from x r) end.

(** the maximum of each row of the averaged matrix and the stretch it belongs to
    (1069-1076 and 990-995): where the row is NaN the value is NaN *)
Definition best (axis : list Q) (row : list sample) : result (sample * sample) :=
  match qargmax (map val row) with
  | None => Raise ValueError
  | Some i => match nth_error axis i with
              | None => Raise IndexError
              | Some v => let c := nanmax row in Ok (c, match c with Some _ => Some v | None => None end)
              end
  end.

(** result of an average: similarity, correlation, value, number of components per time, codes *)
Record average := mkA {
  a_sim : list (list sample); a_corr : list sample; a_value : list sample; a_n : list nat;
  a_net : string; a_sta : string; a_cha : string }.

(** 'av' in channel+network+station *)
Definition is_av (d : dv) : bool := is_substr "av" (d_cha d ++ d_net d ++ d_sta d).
Definition shape (d : dv) : nat * nat :=
  (length (d_sim d), match d_sim d with r :: _ => length r | [] => 0 end).
Definition qlist_eqb (a b : list Q) : bool :=
  (length a =? length b) && forallb (fun p => Qeq_bool (fst p) (snd p)) (combine a b).
(** 1050-1060, 970-979: is the dv left out? *)
Definition left_out (d0 d : dv) : bool :=
  is_av d || negb ((fst (shape d) =? fst (shape d0)) && (snd (shape d) =? snd (shape d0)))
  || negb (qlist_eqb (d_axis d) (d_axis d0)).

Definition count (l : list bool) : nat := length (filter (fun b => b) l).
(** header code of the result: that of [c], 'av' unless all are the same *)
Definition common (c : string) (l : list string) : string := if forallb (String.eqb c) l then c else "av".

(** the DVs that are used; a different method raises TypeError before anything else is looked at *)
Fixpoint use (d0 : dv) (l : list dv) : result (list dv) :=
  match l with
  | [] => Ok []
  | d :: r => if negb (String.eqb (d_method d) (d_method d0)) then Raise TypeError
              else do r' <- use d0 r; Ok (if left_out d0 d then r' else d :: r')
  end.

(** [average_components].  Without any usable dv nanmean gives a scalar and nanargmax(axis=1) raises
    AxisError, a ValueError. *)
Definition average_components (dvs : list dv) : result average :=
  match dvs with
  | [] => Raise ValueError
  | d0 :: _ =>
      do us <- use d0 dvs;
      match us with
      | [] => Raise ValueError
      | u0 :: _ =>
          let '(rows, cols) := shape u0 in
          let sim := map (fun i => map (fun j => nanmean (map (fun d => nth j (nth i (d_sim d) []) None) us)) (seq 0 cols)) (seq 0 rows) in
          do b <- mapM (best (d_axis d0)) sim;
          Ok (mkA sim (map fst b) (map snd b)
                  (map (fun i => count (map (fun d => nth i (avail d) false) us)) (seq 0 (length (avail u0))))
                  (common (d_net u0) (map d_net us)) (common (d_sta u0) (map d_sta us)) (common (d_cha u0) (map d_cha us)))
      end
  end.

(** [average_components_mem_save]: one pass that keeps a sum, and counts the values that are not NaN.
    The first dv provides shape, axis, method and header, also if it is left out. *)
Definition madd (a : list (list Q)) (b : list (list sample)) : list (list Q) :=
  map (fun p => map (fun q => (fst q + val (snd q))%Q) (combine (fst p) (snd p))) (combine a b).
Definition nadd (a : list nat) (v : list sample) : list nat :=
  map (fun p => fst p + if is_some (snd p) then 1 else 0) (combine a v).
Record acc := mkAcc { c_sum : list (list Q); c_n : list nat; c_used : list dv }.
Definition acc_add (a : acc) (d : dv) : acc :=
  mkAcc (madd (c_sum a) (d_sim d)) (nadd (c_n a) (d_value d)) (c_used a ++ [d])%list.
Fixpoint mem_save_loop (d0 : dv) (l : list dv) (a : acc) : result acc :=
  match l with
  | [] => Ok a
  | d :: r =>
      if negb (String.eqb (d_method d) (d_method d0)) then Raise TypeError
      else if left_out d0 d then mem_save_loop d0 r a
      else mem_save_loop d0 r (acc_add a d)
  end.
(** 1000: sum/n with n = 0: 0/0 (and x/0) are NaN here *)
Definition divide_row (p : list Q * nat) : list sample :=
  map (fun x => if snd p =? 0 then None else Some (x / inject_Z (Z.of_nat (snd p)))%Q) (fst p).
Definition average_mem_save (dvs : list dv) : result average :=
  match dvs with
  | [] => Raise UnboundLocalError
  | d0 :: _ =>
      let zero := map (fun r => map (fun _ => 0%Q) r) (d_sim d0) in
      do a <- mem_save_loop d0 dvs (mkAcc zero (map (fun _ => 0) (d_corr d0)) []);
      let sim := map divide_row (combine (c_sum a) (c_n a)) in
      do b <- mapM (best (d_axis d0)) sim;
      Ok (mkA sim (map fst b) (map snd b) (c_n a)
              (common (d_net d0) (map d_net (c_used a))) (common (d_sta d0) (map d_sta (c_used a)))
              (common (d_cha d0) (map d_cha (c_used a))))
  end.

(** ** correct_dv_shift *)
Inductive shift_method := Mean | Median | OtherMethod.
(** np.where(l)[0] *)
Definition where_true (l : list bool) : list nat := map fst (filter snd (combine (seq 0 (length l)) l)).
(** np.array(starttime)[avail] *)
Definition select {A} (l : list A) (m : list bool) : list A := map fst (filter snd (combine l m)).
Fixpoint zindex (x : Z) (l : list Z) : nat :=                         (* np.where(l == x)[0][0] *)
  match l with [] => 0 | y :: r => if (y =? x)%Z then 0 else S (zindex x r) end.
(** index of the first/last element of l that is available *)
Definition first_avail (d : dv) : result (Z * nat) :=
  match select (d_t0 d) (avail d) with [] => Raise IndexError | t :: _ => Ok (t, zindex t (d_t0 d)) end.
Definition last_avail (d : dv) : result (Z * nat) :=
  match rev (select (d_t0 d) (avail d)) with [] => Raise IndexError | t :: _ => Ok (t, zindex t (d_t0 d)) end.
(** lines 841-871: start, stop and the gap ii - jj *)
Definition overlap (d0 d1 : dv) (n : Z) : result (Z * Z * Z) :=
  if negb (length (avail d0) =? length (avail d1)) then Raise ValueError     (* vstack *)
  else
    let both := map (fun p => fst p && snd p) (combine (avail d0) (avail d1)) in
    match where_true both with
    | i :: r => Ok (Z.of_nat i - n, Z.of_nat (last r i) + n, 0)%Z
    | [] =>
        do f0 <- first_avail d0;
        do l1 <- last_avail d1;
        if (fst l1 <? fst f0)%Z
        then Ok (Z.of_nat (snd l1) - n, Z.of_nat (snd f0) + n, Z.of_nat (snd f0) - Z.of_nat (snd l1))%Z
        else do f1 <- first_avail d1;
             do l0 <- last_avail d0;
             Ok (Z.of_nat (snd l0) - n, Z.of_nat (snd f1) + n, Z.of_nat (snd f1) - Z.of_nat (snd l0))%Z
    end.
Definition smul (a b : sample) : sample := match a, b with Some x, Some y => Some (x * y)%Q | _, _ => None end.
(** [sdiv]: NaN and infinity are both None; round() then raises (ValueError, for infinity OverflowError) *)
Definition ssub (a b : sample) : sample := match a, b with Some x, Some y => Some (x - y)%Q | _, _ => None end.
Fixpoint qinsert (x : Q) (l : list Q) : list Q :=
  match l with [] => [x] | y :: r => if Qle_bool x y then x :: l else y :: qinsert x r end.
Definition nanmedian (l : list sample) : sample :=
  let s := fold_right qinsert [] (defined l) in
  let n := length s in
  match n with
  | O => None
  | _ => if Nat.odd n then nth_error s (n / 2)
         else match nth_error s (n / 2 - 1), nth_error s (n / 2) with
              | Some a, Some b => Some ((a + b) / 2)%Q
              | _, _ => None
              end
  end.
(** int(round(x)): half to even *)
Definition round_half_even (x : Q) : Z :=
  let f := Qfloor x in
  match Qcompare (x - inject_Z f) (1 # 2) with
  | Lt => f
  | Gt => (f + 1)%Z
  | Eq => if Z.even f then f else (f + 1)%Z
  end.
(** lines 872-889 *)
Definition roll_of (d0 d1 : dv) (m : shift_method) (n : Z) : result Z :=
  do o <- overlap d0 d1 n;
  let '(start, stop, gap) := o in
  if (n <? gap)%Z then Raise ValueError
  else
    let len := Z.of_nat (length (d_value d0)) in
    let stop := (if len <=? stop then len - 1 else stop)%Z in
    let start := (if start <? 0 then 0 else start)%Z in
    let c0 := pyslice (d_corr d0) start stop in
    let v0 := pyslice (d_value d0) start stop in
    let c1 := pyslice (d_corr d1) start stop in
    let v1 := pyslice (d_value d1) start stop in
    do shift <- match m with
                | Mean => Ok (ssub (sdiv (nanmean (map (fun p => smul (fst p) (snd p)) (combine v0 c0))) (nanmean c0))
                                   (sdiv (nanmean (map (fun p => smul (fst p) (snd p)) (combine v1 c1))) (nanmean c1)))
                | Median => Ok (ssub (nanmedian v0) (nanmedian v1))
                | OtherMethod => Raise ValueError
                end;
    match d_axis d0 with
    | a0 :: a1 :: _ => match sdiv (ssub (Some 0%Q) shift) (Some (a1 - a0)%Q) with
                       | Some x => Ok (round_half_even x)
                       | None => Raise ValueError
                       end
    | _ => Raise IndexError
    end.

(** np.roll(l, r) *)
Definition roll {A} (r : Z) (l : list A) : list A :=
  let n := length l in
  let k := Z.to_nat (r mod Z.of_nat n) in
  (skipn (n - k) l ++ firstn (n - k) l)%list.
(** reshape to [rows] rows of [w] *)
Fixpoint reshape {A} (rows w : nat) (l : list A) : list (list A) :=
  match rows with O => [] | S k => firstn w l :: reshape k w (skipn w l) end.
(** np.roll(sim_mat, (roll, 0)): without axis the matrix is rolled as a whole *)
Definition roll_matrix (r : Z) (m : list (list sample)) : list (list sample) :=
  reshape (length m) (match m with row :: _ => length row | [] => 0 end) (roll r (concat m)).

(** the values afterwards (891-892): NaN counts as 0 and NaN rows get a value, too *)
Definition value_at (axis : list Q) (row : list sample) : result sample :=
  match qargmax (map val row) with
  | None => Raise ValueError
  | Some i => match nth_error axis i with Some v => Ok (Some v) | None => Raise IndexError end
  end.
Definition correct_dv_shift (d0 d1 : dv) (m : shift_method) (n : Z) : result dv :=
  do r <- roll_of d0 d1 m n;
  let sim := roll_matrix r (d_sim d0) in
  do v <- mapM (value_at (d_axis d0)) sim;
  Ok (mkDV (d_corr d0) v sim (d_axis d0) (d_method d0) (d_net d0) (d_sta d0) (d_cha d0) (d_t0 d0) (d_t1 d0)).
