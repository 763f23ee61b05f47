(** Matrices of correlations that are saved and read again. *)
From Coq Require Import QArith.
From Verif Require Import Lib.Base Lib.Str Model.DVFile Model.BulkFile Spec.BulkFileSpec.
From Verif Require Import Proofs.BulkFileFacts.
From Verif Require Proofs.OutputFacts.
Local Open Scope string_scope.

(** ** C149: a matrix of correlations that is saved is read again as it was *)
(** the correlations and all entries of the header but one *)
Theorem C149_read_partial : forall b, usual_header (bk_stats b) ->
  exists b', (do f <- save_bulk b; read_bulk f) = Ok b' /\ bk_data b' = bk_data b /\
    forall k, k <> "processing_bulk" -> dget (bk_stats b') k = dget (bk_stats b) k.
Proof.
  intros b H. rewrite (read_saved b H). eexists. split; [reflexivity|]. split; [reflexivity|]. intros k N. cbn [new_bulk bk_stats]. rewrite OutputFacts.dget_dset. apply String.eqb_neq in N. now rewrite N.
Qed.
Print Assumptions C149_read_partial.
(** what is missing: the notes on the processing and the reference are lost, whatever they were *)
Theorem C149_history_refuted : forall b, usual_header (bk_stats b) ->
  exists b', (do f <- save_bulk b; read_bulk f) = Ok b' /\ dget (bk_stats b') "processing_bulk" = Some (BTexts []) /\ bk_ref b' = None.
Proof.
  intros b H. rewrite (read_saved b H). eexists. split; [reflexivity|]. split; [|reflexivity]. cbn [new_bulk bk_stats]. now rewrite OutputFacts.dget_dset, String.eqb_refl.
Qed.
Print Assumptions C149_history_refuted.
(** all methods that change a matrix, and the selection of times, raise AttributeError after it was read *)
Theorem C149_methods_refuted : forall b text, usual_header (bk_stats b) -> fresh b ->
  (exists b', note text b = Ok b') /\
  exists b', (do f <- save_bulk b; read_bulk f) = Ok b' /\ note text b' = Raise AttributeError /\ slice_times b' = Raise AttributeError.
Proof.
  intros b text H (D & l & P). split; [unfold note; rewrite D, P; eexists; reflexivity|]. rewrite (read_saved b H). eexists. split; [reflexivity|].
  unfold note, slice_times. cbn [new_bulk bk_dict]. destruct (bk_stats b); [discriminate P|]. split; reflexivity.
Qed.
Print Assumptions C149_methods_refuted.
(** a list of times with one element becomes that element *)
Theorem C149_one_row_refuted : forall a dict ref h t, usual_header h -> ~ In "corr_start" (map fst h) ->
  exists b', (do f <- save_bulk (mkBulk a (("corr_start", BTimes [t]) :: h) dict ref); read_bulk f) = Ok b' /\ dget (bk_stats b') "corr_start" = Some (BTime t).
Proof.
  intros a dict ref h t (_ & ND & H) N. assert (E : save_bulk (mkBulk a (("corr_start", BTimes [t]) :: h) dict ref) = save_bulk (mkBulk a (("corr_start", BTime t) :: h) dict ref)) by reflexivity. rewrite E, read_saved.
  - eexists. split; [reflexivity|]. cbn [new_bulk bk_stats]. rewrite OutputFacts.dget_dset. reflexivity.
  - split; [discriminate|]. split; [cbn [bk_stats map fst]; now constructor|]. cbn [bk_stats]. intros k v [Q|I]; [|auto]. injection Q as <- <-. split; [|cbn; tauto].
    split; [discriminate|]. split; [|reflexivity]. cbn. intros K. repeat (destruct K as [K|K]; [discriminate|]). exact K.
Qed.
Print Assumptions C149_one_row_refuted.

(** two correlations of a pair of stations, tapered *)
Definition two_corrs : bulk :=
  mkBulk [[1; 2; 3]%Q; [2; 3; 4]%Q]
    [("network", BScalar "YA-YA"); ("station", BScalar "UV05-UV06"); ("location", BTexts ["00-00"; "00-00"]); ("channel", BScalar "HHZ-HHZ"); ("sampling_rate", BScalar "1.0");
     ("corr_start", BTimes [0; 10]%Z); ("corr_end", BTimes [10; 20]%Z); ("ntrcs", BScalar "2"); ("processing_bulk", BTexts ["tapered: width=1s"])] false (Some [1; 2; 3]%Q).
Example C149_example : usual_header (bk_stats two_corrs) /\ fresh two_corrs /\
  exists b, (do f <- save_bulk two_corrs; read_bulk f) = Ok b /\ dget (bk_stats b) "corr_start" = Some (BTimes [0; 10]%Z) /\ bk_data b = [[1; 2; 3]%Q; [2; 3; 4]%Q].
Proof.
  split; [|split; [split; [reflexivity|eexists; reflexivity]|eexists; repeat split; reflexivity]]. split; [discriminate|]. split.
  - cbn. repeat (constructor; [cbn; intros K; repeat (destruct K as [K|K]; [discriminate|]); exact K|]). constructor.
  - intros k v I. cbn in I. repeat (destruct I as [I|I]; [injection I as <- <-; split; [split; [discriminate|split; [cbn; intros K; repeat (destruct K as [K|K]; [discriminate|]); exact K|reflexivity]]|cbn; first [intros K; repeat (destruct K as [K|K]; [discriminate|]); exact K|split; [tauto|discriminate]]]|]). contradiction.
Qed.
