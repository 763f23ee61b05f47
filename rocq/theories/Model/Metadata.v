(** Station metadata of the waveform client (Store_Client, trace_data/waveform.py) and the selection of station pairs by
    distance (Correlator.find_interstat_dist, correlate/correlate.py:237-270; utils/miic_utils.py:74-126).
    An inventory is the list of its channels in the order of its networks and stations; codes are compared as they are
    (obspy's select also takes wildcards, which the codes passed here do not contain). *)
From Coq Require Import QArith.
From Verif Require Import Lib.Base Lib.Str.
Local Open Scope string_scope.

(** one channel: codes, coordinates, response *)
Record meta := mkM { m_net : string; m_sta : string; m_cha : string; m_pos : Q * Q; m_resp : Z }.
Definition inventory := list meta.
Definition of_station (n s : string) (m : meta) : bool := String.eqb (m_net m) n && String.eqb (m_sta m) s.
Definition select (inv : inventory) (n s : string) : inventory := filter (of_station n s) inv.
(** there is a response for the channel *)
Definition knows (inv : inventory) (c : string * string * string) : bool :=
  let '(n, s, x) := c in existsb (fun m => of_station n s m && String.eqb (m_cha m) x) inv.

(** self.inventory; the files inv_dir/*.xml; whether inv_dir exists *)
Record client := mkCl { mem : inventory; files : list (string * inventory); has_dir : bool }.

(** inv_dir/{net}.{sta}.xml, 388-389 *)
Definition file_name (m : meta) : string := m_net m ++ "." ++ m_sta m ++ ".xml".
Definition replace (name : string) (inv : inventory) (fs : list (string * inventory)) : list (string * inventory) :=
  (name, inv) :: filter (fun f => negb (String.eqb (fst f) name)) fs.
(** _write_inventory, 380-390.  An inventory without channels has no ninv[0] (IndexError); writing into a directory that does
    not exist fails.  Memory is changed before. *)
Definition write_inventory (c : client) (ninv : inventory) : client * option exc :=
  let memory := (mem c ++ ninv)%list in
  match ninv with
  | [] => (mkCl memory (files c) (has_dir c), Some IndexError)
  | m :: _ => if has_dir c then (mkCl memory (replace (file_name m) ninv (files c)) true, None)
              else (mkCl memory (files c) false, Some FileNotFoundError)
  end.
(** read_inventory, 313-321; obspy raises an Exception if no file matches (FileNotFoundError here) *)
Definition stored (c : client) : inventory := concat (map snd (files c)).
Definition read_inventory (c : client) : client * option exc :=
  match files c with
  | [] => (c, Some FileNotFoundError)
  | _ => (mkCl (stored c) (files c) (has_dir c), None)
  end.
(** __init__, 64-72 *)
Definition open_client (read_only : bool) (fs : list (string * inventory)) (dir : bool) : client :=
  mkCl (if dir then concat (map snd fs) else []) fs (dir || negb read_only).

(** select_inventory_or_load_remote, 323-344; [answer]: what get_stations returns *)
Definition select_or_load (c : client) (n s : string) (answer : result inventory) : client * result inventory :=
  match select (mem c) n s with
  | [] => match answer with
          | Raise e => (c, Raise e)
          | Ok ninv => match write_inventory c ninv with
                       | (c', None) => (c', Ok ninv)
                       | (c', Some e) => (c', Raise e)
                       end
          end
  | inv => (c, Ok inv)
  end.

(** _load_remote, 270-282: the responses of the traces that the server has sent ([wanted]); [answer] as above, for the requested
    channel.  All warnings are errors: attaching a response that is not there fails (a UserWarning, here a ValueError). *)
Definition responses (c : client) (wanted : list (string * string * string)) (attach : bool) (answer : result inventory) :
  client * option exc :=
  if forallb (knows (mem c)) wanted then (c, None)
  else match answer with
       | Raise e => (c, Some e)
       | Ok ninv => if attach && negb (forallb (knows ninv) wanted) then (c, Some ValueError) else write_inventory c ninv
       end.
(** ... of a request whose data the server has sent: the data are returned only if all this succeeds *)
Definition remote_request {T} (c : client) (wanted : list (string * string * string)) (attach : bool) (answer : result inventory) (sent : T) :
  client * result T :=
  match responses c wanted attach answer with (c', None) => (c', Ok sent) | (c', Some e) => (c', Raise e) end.

(** What happens to the metadata.  [Reopen]: a new client for the same directory *)
Inductive op :=
| Request (wanted : list (string * string * string)) (attach : bool) (answer : result inventory)
| Select (n s : string) (answer : result inventory)
| Reread
| Reopen (read_only : bool).
Definition step (c : client) (o : op) : client :=
  match o with
  | Request w a x => fst (responses c w a x)
  | Select n s x => fst (select_or_load c n s x)
  | Reread => fst (read_inventory c)
  | Reopen ro => open_client ro (files c) (has_dir c)
  end.
Definition history (c : client) (ops : list op) : client := fold_left step ops c.

(** ** find_interstat_dist *)
Section Distance.
  (** obspy's gps2dist_azimuth *)
  Variable dist : Q * Q -> Q * Q -> Q.
  Variable server : string -> string -> result inventory.

  (** filter_stat_dist: inv[0][0] of both *)
  Definition close (inv0 inv1 : inventory) (d : Q) : result bool :=
    match inv0, inv1 with
    | a :: _, b :: _ => Ok (Qle_bool (dist (m_pos a) (m_pos b)) d)
    | _, _ => Raise IndexError
    end.
  Definition combination (x y : string * string) : string := fst x ++ "-" ++ fst y ++ "." ++ snd x ++ "-" ++ snd y.
  (** 263-266 *)
  Fixpoint partners (c : client) (d : Q) (x : string * string) (inv0 : inventory) (l : list (string * string)) :
    client * result (list string) :=
    match l with
    | [] => (c, Ok [])
    | y :: r =>
        match select_or_load c (fst y) (snd y) (server (fst y) (snd y)) with
        | (c', Raise e) => (c', Raise e)
        | (c', Ok inv1) =>
            match close inv0 inv1 d with
            | Raise e => (c', Raise e)
            | Ok b => match partners c' d x inv0 r with
                      | (c'', Ok l) => (c'', Ok (if b then combination x y :: l else l))
                      | (c'', Raise e) => (c'', Raise e)
                      end
            end
        end
    end.
  (** 259-266 *)
  Fixpoint all_partners (c : client) (d : Q) (l : list (string * string)) : client * result (list string) :=
    match l with
    | [] => (c, Ok [])
    | x :: r =>
        match select_or_load c (fst x) (snd x) (server (fst x) (snd x)) with
        | (c', Raise e) => (c', Raise e)
        | (c', Ok inv0) =>
            match partners c' d x inv0 (x :: r) with
            | (c'', Raise e) => (c'', Raise e)
            | (c'', Ok here) => match all_partners c'' d r with
                                | (c3, Ok more) => (c3, Ok (here ++ more)%list)
                                | (c3, Raise e) => (c3, Raise e)
                                end
            end
        end
    end.
  (** 250-270; the combinations that were set before, those found *)
  Definition find_interstat_dist (c : client) (method : string) (rcombis : option (list string)) (stations : list (string * string)) (d : Q) :
    client * result (list string) :=
    if negb (String.eqb method "betweenStations") then (c, Raise ValueError)
    else match read_inventory c with
         | (c', Some e) => (c', Raise e)
         | (c', None) => match rcombis with
                         | Some _ => (c', Raise ValueError)
                         | None => all_partners c' d stations
                         end
         end.
End Distance.
