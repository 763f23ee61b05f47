(** Opening a correlation file: mode, file name, compression, processing options
    (db/corr_hdf5.py: CorrelationDataBase.__init__ 348-412, DBHandler.__init__ 48-91,
    add_corr_options 96-99, get_corr_options 208-217, co_to_hdf5 514-530). *)
From Verif Require Import Lib.Base Lib.Str Lib.TimeFacts.
Local Open Scope string_scope.

(** ** CorrelationDataBase.__init__ *)
Definition open_mode (has_options : bool) (mode : string) (force : bool) : string :=
  if negb has_options && negb (String.eqb mode "r") && negb force then "r" else mode.

Definition last_str (l : list string) : string := last l "".
Definition file_name (path : string) : string :=
  if String.eqb (last_str (split_on "." path)) "h5" then path else path ++ ".h5".

(** ** compression: re.findall(r'(\w+?)(\d+)', compression)[0] *)
(** \w on ASCII *)
Definition is_word (c : ascii) : bool :=
  let n := N_of_ascii c in
  is_digit c || ((65 <=? n) && (n <=? 90))%N || ((97 <=? n) && (n <=? 122))%N || (n =? 95)%N.
(** longest run of digits at the beginning *)
Fixpoint digits (s : string) : string :=
  match s with
  | String c r => if is_digit c then String c (digits r) else ""
  | EmptyString => ""
  end.
(** a match of (\w+?)(\d+) that begins at the beginning of [s]: shortest non-empty run of word characters
    that is followed by a digit *)
Fixpoint match_here (s : string) : option (string * string) :=
  match s with
  | String c r =>
      if is_word c then
        match r with
        | String d _ => if is_digit d then Some (String c "", digits r)
                        else match match_here r with
                             | Some (w, ds) => Some (String c w, ds)
                             | None => None
                             end
        | EmptyString => None
        end
      else None
  | EmptyString => None
  end.
Fixpoint first_match (s : string) : option (string * string) :=
  match match_here s with
  | Some x => Some x
  | None => match s with String _ r => first_match r | EmptyString => None end
  end.

(** np.argmin(abs(np.arange(1, 10) - n)): first index of the smallest distance *)
Fixpoint argmin_by {A} (f : A -> Z) (best : A) (l : list A) : A :=
  match l with
  | [] => best
  | x :: r => if (f x <? f best)%Z then argmin_by f x r else argmin_by f best r
  end.
Definition levels : list Z := [1; 2; 3; 4; 5; 6; 7; 8; 9]%Z.
Definition clip_level (n : Z) : Z :=
  if existsb (Z.eqb n) levels then n else argmin_by (fun x => Z.abs (x - n)) 1%Z levels.

(** DBHandler.__init__, lines 50-69 *)
Definition compression (c : option string) : result (option (string * Z)) :=
  match c with
  | None => Ok None
  | Some s =>
      match first_match s with
      | None => Raise IndexError                 (* findall(...)[0] of an empty list *)
      | Some (w, ds) =>
          if negb (String.eqb w "gzip") then Raise ValueError
          else Ok (Some (w, clip_level (undec ds)))
      end
  end.

(** ** processing options *)
(** Python literals.  Dictionaries are listed with their keys in alphabetical order, so that equality of
    dictionaries (which ignores the order) is equality of values. *)
Inductive pv := PAtom (s : string) | PList (l : list pv) | PDict (d : list (string * pv)).

Fixpoint pv_eqb (a b : pv) {struct a} : bool :=
  match a, b with
  | PAtom x, PAtom y => String.eqb x y
  | PList l, PList l' =>
      (fix go (l l' : list pv) : bool :=
         match l, l' with
         | [], [] => true
         | x :: r, y :: r' => pv_eqb x y && go r r'
         | _, _ => false
         end) l l'
  | PDict l, PDict l' =>
      (fix go (l l' : list (string * pv)) : bool :=
         match l, l' with
         | [], [] => true
         | (k, x) :: r, (k', y) :: r' => String.eqb k k' && pv_eqb x y && go r r'
         | _, _ => false
         end) l l'
  | _, _ => false
  end.

Definition remk : list string :=
  ["subdir"; "read_start"; "read_end"; "read_len"; "read_inc"; "combination_method"; "combinations";
   "starttime"; "xcombinations"; "preprocess_subdiv"; "allow_different_params"].

(** 'stream_mask_at_utc' in step['function'] *)
Definition is_mask (step : pv) : result bool :=
  match step with
  | PDict d => match dget d "function" with
               | Some (PAtom s) => Ok (is_substr "stream_mask_at_utc" s)
               | Some _ => Raise TypeError
               | None => Raise KeyError
               end
  | _ => Raise TypeError
  end.

(** list.remove(x): the first element equal to x *)
Fixpoint remove_first (x : pv) (l : list pv) : list pv :=
  match l with
  | [] => []
  | y :: r => if pv_eqb y x then r else y :: remove_first x r
  end.
(** [[l.remove(step) for step in l if <mask>]]: the iterator holds an index into the list that shrinks
    meanwhile; a KeyError leaves the list as it is at that point (it is caught, line 528).
    [fuel] bounds the number of iterations by the length of the list. *)
Fixpoint remove_loop (fuel i : nat) (l : list pv) : result (list pv) :=
  match fuel with
  | O => Ok l
  | S fuel' =>
      match nth_error l i with
      | None => Ok l
      | Some step =>
          match is_mask step with
          | Ok true => remove_loop fuel' (S i) (remove_first step l)
          | Ok false => remove_loop fuel' (S i) l
          | Raise KeyError => Ok l
          | Raise e => Raise e
          end
      end
  end.

(** coc[key].pop(...) for a nested dictionary *)
Definition pop_in (d : list (string * pv)) (key : string) (ks : list string) : result (list (string * pv)) :=
  match dget d key with
  | Some (PDict sub) => Ok (dset d key (PDict (fold_left (@ddel pv) ks sub)))
  | Some _ => Raise AttributeError
  | None => Raise KeyError
  end.

(** co_to_hdf5 *)
Definition co_to_hdf5 (co : list (string * pv)) : result (list (string * pv)) :=
  let c := fold_left (@ddel pv) remk co in
  do c <- pop_in c "corr_args" ["combinations"];
  do c <- pop_in c "subdivision" ["recombine_subdivision"; "delete_subdivision"];
  match dget c "preProcessing" with
  | None => Ok c                                  (* KeyError caught *)
  | Some (PList l) =>
      do l' <- remove_loop (length l) 0 l;
      Ok (dset c "preProcessing" (PList l'))
  | Some _ => Raise TypeError
  end.

(** DBHandler.__init__, lines 71-91.  [stored]: the options data set of the file, if there is one.
    The options are written as text with str() and read with ast.literal_eval; literals survive that. *)
Definition open_options (stored : option (list (string * pv))) (co : option (list (string * pv))) (force : bool) :
  result (option (list (string * pv))) :=
  match co with
  | None => Ok stored
  | Some co =>
      match stored with
      | None => do s <- co_to_hdf5 co; Ok (Some s)
      | Some s =>
          match (do old <- co_to_hdf5 s; do new <- co_to_hdf5 co; Ok (pv_eqb (PDict old) (PDict new))) with
          | Ok same => if negb same && negb force then Raise PermissionError else Ok stored
          | Raise KeyError =>                     (* line 90: add_corr_options on a file that has options *)
              do _s <- co_to_hdf5 co; Raise ValueError
          | Raise e => Raise e
          end
      end
  end.
