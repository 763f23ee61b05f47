(** Saving and reading matrices of correlations: CorrBulk.__init__, CorrBulk.save and read_corr_bulk (correlate/stream.py 42-70, 627-636, 828-839)
    with the conversion of headers (utils/miic_utils.py 240-328).  As in DVFile.v texts and numbers of the header are texts, times are
    integers and arrays are lists of rows. *)
From Coq Require Import QArith.
From Verif Require Import Lib.Base Lib.Str Model.DVFile.
Local Open Scope string_scope.

(** a value in the header of a matrix; a list of texts may be a list or a numpy array, which is not distinguished *)
Inductive bval :=
| BScalar (s : string)           (* text or number *)
| BTexts (l : list string)       (* location codes, processing notes *)
| BTime (t : Z)                  (* UTCDateTime *)
| BTimes (l : list Z)            (* list of UTCDateTime *)
| BArr (row : list Q)            (* numpy array *)
| BObj.                          (* None, dictionaries, other objects *)
(** a member of the npz file *)
Inductive bmember :=
| MText (s : string) | MTexts (l : list string) | MStamps (l : list Z) | MArr (a : arr)
| MObj.                          (* object array: np.load raises ValueError on access (allow_pickle=False) *)
(** [bk_dict]: the header is a dictionary and not a CorrStats, whose entries are attributes as well *)
Record bulk := mkBulk { bk_data : arr; bk_stats : list (string * bval); bk_dict : bool; bk_ref : option (list Q) }.

(** save_header_to_np_array, 251-268 *)
Definition member_of (kv : string * bval) : result (string * bmember) :=
  if mem (fst kv) t_keys then
    match snd kv with BTime t => Ok (fst kv, MStamps [t]) | BTimes l => Ok (fst kv, MStamps l) | _ => Raise TypeError end
  else Ok (fst kv, match snd kv with BScalar s => MText s | BTexts l => MTexts l | BArr r => MArr [r] | _ => MObj end).
(** CorrBulk.save: np.savez_compressed(path, data=self.data, **kwargs); its parameters file and data cannot be given twice *)
Definition save_bulk (b : bulk) : result (list (string * bmember)) :=
  do h <- mapM member_of (bk_stats b);
  if mem "data" (map fst h) || mem "file" (map fst h) then Raise TypeError else Ok (("data", MArr (bk_data b)) :: h).

(** load_header_from_np_array, 271-293 *)
Definition load_entry (kv : string * bmember) : result (list (string * bval)) :=
  let '(k, m) := kv in
  if mem k no_stats || is_prefix "reftr" k then Ok []
  else if mem k t_keys then
    match m with
    | MStamps l => Ok [(k, match l with [t] => BTime t | _ => BTimes l end)]
    | MObj => Raise ValueError
    | _ => Raise TypeError
    end
  else match m with
       | MText s => Ok [(k, BScalar s)]
       | MTexts l => Ok [(k, BTexts l)]
       | MArr (r :: _) => Ok [(k, BArr r)]
       | MArr [] => Ok []                            (* IndexError: warning *)
       | MStamps (t :: _) => Ok [(k, BScalar "timestamp")]   (* a number *)
       | MStamps [] => Ok []                         (* IndexError: warning *)
       | MObj => Raise ValueError
       end.
(** CorrBulk.__init__(A, stats), 61-70; without a header a new CorrStats is made, of which only the entry that is set here is kept *)
Definition new_bulk (a : arr) (stats : list (string * bval)) (dict : bool) : bulk :=
  mkBulk a (dset stats "processing_bulk" (BTexts [])) (match stats with [] => false | _ => dict end) None.
(** read_corr_bulk: the header is the dictionary that load_header_from_np_array returns *)
Definition read_bulk (f : list (string * bmember)) : result bulk :=
  do hs <- mapM load_entry f;
  match dget f "data" with
  | Some (MArr a) => Ok (new_bulk a (concat hs) true)
  | Some _ => Raise ValueError
  | None => Raise KeyError
  end.

(** self.stats.processing_bulk += [text], at the end of each method that changes the data, 136, 158, 185, 208, 225, 278, 299, 499, 531, 551, 584,
    696, 725, 749 *)
Definition note (text : string) (b : bulk) : result bulk :=
  if bk_dict b then Raise AttributeError
  else match dget (bk_stats b) "processing_bulk" with
       | Some (BTexts l) => Ok (mkBulk (bk_data b) (dset (bk_stats b) "processing_bulk" (BTexts (l ++ [text]))) (bk_dict b) (bk_ref b))
       | Some _ => Raise TypeError
       | None => Raise AttributeError
       end.
(** the times that a selection compares with its window, _find_slice_index 813-820: attributes of the header (the comparison is not modelled here) *)
Definition slice_times (b : bulk) : result (list Z * list Z) :=
  if bk_dict b then Raise AttributeError
  else match dget (bk_stats b) "corr_start", dget (bk_stats b) "corr_end" with
       | Some (BTimes s), Some (BTimes e) => Ok (s, e)
       | Some (BTime s), Some (BTime e) => Ok ([s], [e])
       | _, _ => Raise AttributeError
       end.
