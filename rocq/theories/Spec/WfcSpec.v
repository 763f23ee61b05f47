(** What waveform coherences, their averages and their grids are. *)
From Coq Require Import Reals QArith.
From Verif Require Import Lib.Base Lib.Str Model.Similarity Model.DVFile Model.Wfc Spec.LagSpec Spec.ReferenceSpec Spec.DVFileSpec.
Local Open Scope nat_scope.

(** ** values *)

(** the sample with number i of n lies in the window of lags w (in samples) on the given side; of one-sided
    traces the first sample has lag 0 *)
Definition among (t : Z) (w : list Z) : bool := existsb (Z.eqb t) w.
Definition in_window (sd : sides) (n : nat) (w : list Z) (i : nat) : bool :=
  let lag := (Z.of_nat i - center (Z.of_nat n))%Z in
  match sd with
  | Both => among lag w || among (- lag)%Z w
  | LeftSide => among (- lag)%Z w
  | RightSide => among lag w
  | Single => among (Z.of_nat i) w
  end.
(** the samples in the window, missing samples as 0 *)
Definition window_part (sd : sides) (n : nat) (w : list Z) (row : list (option R)) : list R :=
  map (fun i => match nth i row None with Some v => v | None => 0%R end) (filter (in_window sd n w) (seq 0 n)).
Definition silent (x : list R) : Prop := forall v, In v x -> v = 0%R.
(** the coherence of two series of samples *)
Definition is_coherence (x y : list R) (v : option R) : Prop :=
  match v with
  | Some c => ~ silent x /\ ~ silent y /\ c = cosine x y
  | None => silent x \/ silent y
  end.

(** a window of lags on the trace *)
Definition good_window (sd : sides) (n : nat) (w : list Z) : Prop := window_fits sd n w /\ w <> [].

(** ** averages *)

(** the average of the values that are not missing *)
Definition is_mean (l : list (option R)) (v : option R) : Prop :=
  match v with Some c => values l <> [] /\ c = average (values l) | None => values l = [] end.
(** the value of reference k, window i and time j *)
Definition value_at (w : wfc) (k i j : nat) (v : option R) : Prop :=
  exists a b, nth_error (w_refs w) k = Some a /\ nth_error a i = Some b /\ nth_error b j = Some v.
(** they were computed for the same numbers of references, windows and times *)
Definition same_layout (a b : wfc) : Prop :=
  length (w_refs a) = length (w_refs b) /\
  forall k x y, nth_error (w_refs a) k = Some x -> nth_error (w_refs b) k = Some y ->
    length x = length y /\ forall i u v, nth_error x i = Some u -> nth_error y i = Some v -> length u = length v.
(** same frequency band and lapse time window *)
Definition same_band (a b : wfc) : Prop :=
  (w_start a == w_start b)%Q /\ (w_len a == w_len b)%Q /\ (w_fmin a == w_fmin b)%Q /\ (w_fmax a == w_fmax b)%Q.
Definition same_place (a b : wfc) : Prop := w_net a = w_net b /\ w_sta a = w_sta b /\ same_band a b.

(** the correlation can be read and prepared for each frequency band *)
Definition prepared (j : wfc_job) : Prop := j_prepare j = None /\ Forall (fun b => fst b = None) (j_bands j).

(** ** grids *)

(** frequency in the middle of the band; lapse time in the middle of the window *)
Definition centred (w : wfc) (f t : Q) : Prop :=
  (2 * f == w_fmin w + w_fmax w)%Q /\ (2 * t == w_start w + (w_start w + w_len w))%Q.
Definition at_cell (g : wfc_grid) (f t : Q) (v : option R) : Prop :=
  exists i j f' t' row, nth_error (g_freqs g) i = Some f' /\ nth_error (g_times g) j = Some t' /\ (f' == f)%Q /\ (t' == t)%Q /\
    nth_error (g_values g) i = Some row /\ nth_error row j = Some v.
(** the mean that was computed before or else the mean over the references of their means *)
Definition has_mean (w : wfc) (v : option R) : Prop :=
  match w_mean w with
  | Some m => v = m
  | None => exists av, Forall2 (fun a m => is_mean (concat a) m) (w_refs w) av /\ is_mean av v
  end.

(** ** files *)

(** the name of a coherence, the name of its average *)
Definition ref_name (k : string) : Prop := is_prefix "reftr_" k = true /\ is_av k = false.
Definition av_name (k : string) : Prop := is_av k = true.
(** a header that can be stored beside the coherences *)
Definition wfc_entry_ok (kv : string * hval) : Prop :=
  entry_ok kv /\ is_av (fst kv) = false /\ is_substr "reftr" (fst kv) = false /\ fst kv <> "mean"%string.
Record storable (w : wfc_obj) : Prop := {
  st_header : NoDup (map fst (f_stats w)) /\ Forall wfc_entry_ok (f_stats w);
  st_refs : NoDup (map fst (f_refs w)) /\ Forall (fun kv => ref_name (fst kv)) (f_refs w);
  st_av : NoDup (map fst (f_av w)) /\ Forall (fun kv => av_name (fst kv)) (f_av w);
  st_proc : exists a b c d, f_proc w = [("tw_start", a); ("tw_len", b); ("freq_min", c); ("freq_max", d)]%string }.
(** equality of numbers up to being 0-d arrays *)
Definition same_numbers (a b : list (string * pval)) : Prop :=
  map (fun kv => (fst kv, strip (snd kv))) a = map (fun kv => (fst kv, strip (snd kv))) b.
