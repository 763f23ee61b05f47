(** What the waveform archive is: a set of samples, each in the file of its day. *)
From Coq Require Import Sorted.
From Verif Require Import Lib.Base Lib.Time Model.Archive Model.StoreClient Spec.ArchiveSpec.
Local Open Scope Z_scope.

(** sample [n] with value [v] is in the archive *)
Definition archived (d : disk) (n v : Z) : Prop := exists k p, file d k = Some p /\ In (n, v) p.
(** samples in ascending order, each once *)
Definition ascending (p : piece) : Prop := StronglySorted (fun a b => fst a < fst b) p.
(** files are not empty and hold samples of their day or the midnight that ends it *)
Definition in_order (t0 delta : Z) (d : disk) : Prop :=
  forall k p, file d k = Some p -> p <> [] /\ ascending p /\
    forall n v, In (n, v) p -> exists t, file_of t = k /\ (same_day t (stime t0 delta n) \/ ends_day_of (stime t0 delta n) t).
(** what the server sends in one operation *)
Definition sends (o : op) (n v : Z) : Prop :=
  match o with
  | Request _ _ _ (Some st) => exists tr, In tr st /\ In (n, v) (all_of tr)
  | Request _ _ _ None => False
  | Download _ _ data => In (n, v) data
  end.
(** traces are not empty; mass downloads begin at midnight *)
Definition sound_op (o : op) : Prop :=
  match o with
  | Request _ _ _ (Some st) => forall tr, In tr st -> t_vals tr <> []
  | Request _ _ _ None => True
  | Download s _ data => ascending data /\ is_midnight s
  end.
