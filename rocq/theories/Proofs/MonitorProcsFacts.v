(** The programs of the processes of a Monitor. *)
From Verif Require Import Lib.Base Lib.Str Model.Collectives Model.Partition Model.H5 Model.CorrDB Model.MonitorRun Model.MonitorProcs
  Spec.CollectiveSpec Proofs.StartupFacts Proofs.PartitionFacts.
Local Open Scope nat_scope.

Lemma mapM_total {A B} (f : A -> result B) g l : (forall i, In i l -> f i = Ok (g i)) -> mapM f l = Ok (map g l).
Proof. induction l as [|x l IH]; intros H; [reflexivity|]. cbn [mapM map]. rewrite (H x (or_introl eq_refl)). cbn [bind]. rewrite IH by (intros; apply H; now right). reflexivity. Qed.
Lemma mapM_fails {A B} (f : A -> result B) l i e : In i l -> f i = Raise e -> exists e', mapM f l = Raise e'.
Proof.
  intros I E. induction l as [|x l IH]; [contradiction|]. cbn [mapM]. destruct (f x) as [y|e'] eqn:F; cbn [bind]; [|eauto].
  destruct I as [->|I]; [congruence|]. destruct (IH I) as [e' ->]. cbn [bind]. eauto.
Qed.
Lemma mapM_succeeds {A B} (f : A -> result B) l : (forall i, In i l -> exists y, f i = Ok y) -> exists ys, mapM f l = Ok ys.
Proof.
  induction l as [|x l IH]; intros H; [now exists []|]. cbn [mapM]. destruct (H x (or_introl eq_refl)) as [y ->]. destruct IH as [ys ->]; [intros; apply H; now right|]. cbn [bind]. eauto.
Qed.
Lemma share_in {A} p r (l : list A) x : 0 < p -> r < p -> In x (my_items p r l) -> In x l.
Proof. intros P L I. rewrite <- (partition_concat p l P). apply in_concat. exists (my_items p r l). split; [|exact I]. apply in_map_iff. exists r. split; [reflexivity|]. apply in_seq. lia. Qed.
Lemma owner {A} p (l : list A) x : 0 < p -> In x l -> exists r, r < p /\ In x (my_items p r l).
Proof. intros P I. rewrite <- (partition_concat p l P) in I. apply in_concat in I. destruct I as (s & I & J). apply in_map_iff in I. destruct I as (r & <- & I). apply in_seq in I. exists r. split; [lia|exact J]. Qed.
(** with more processes than items some process has nothing to do *)
Lemma idle {A} p (l : list A) : length l < p -> exists r, r < p /\ my_items p r l = [].
Proof.
  intros L. assert (P : 0 < p) by lia. destruct (Exists_dec (fun r => my_items p r l = []) (seq 0 p)) as [E|E].
  - intros r. destruct (my_items p r l); [now left|right; discriminate].
  - apply Exists_exists in E. destruct E as (r & I & E). apply in_seq in I. exists r. split; [lia|exact E].
  - exfalso. assert (G : forall rs, ~ Exists (fun r => my_items p r l = []) rs -> length rs <= length (concat (map (fun r => my_items p r l) rs))).
    { induction rs as [|r rs IH]; intros N; [apply Nat.le_0_l|]. cbn [map concat length]. rewrite app_length. assert (H : my_items p r l <> []) by (intros X; apply N; now left).
      assert (K : length rs <= length (concat (map (fun r => my_items p r l) rs))) by (apply IH; intros X; apply N; now right).
      destruct (my_items p r l); [congruence|]. cbn [length]. lia. }
    specialize (G _ E). rewrite (partition_concat p l P), seq_length in G. lia.
Qed.

Section Bulk.
  Context {W A : Type}.
  Variable opened : string -> result file.
  Variable listed : list (string * string * string).
  Lemma share_step {R : Type} (next : nat -> list item -> prog (@shared W) (result R)) l n : 1 <= n -> plist opened listed = Ok l ->
    mstep (map (fun r => share_list opened listed r (next r)) (seq 0 n)) = Some (map (fun r => next r l) (seq 0 n)).
  Proof.
    intros N E. set (pay r := @SList W (if Nat.eqb r 0 then Some l else None)). set (go r (vs : list (@shared W)) := match vs with SList (Some l) :: _ => next r l | _ => Done (Raise TypeError) end).
    rewrite (map_ext _ (fun r => Coll Bcast (pay r) (go r))) by (intros r; unfold share_list, pay, go; rewrite E; now destruct (Nat.eqb r 0)).
    rewrite (step_all Bcast pay go n N). f_equal. apply map_ext. intros r. destruct n as [|n]; [lia|]. reflexivity.
  Qed.
  Lemma share_fails {R : Type} (next : nat -> list item -> prog (@shared W) (result R)) e n : 2 <= n -> plist opened listed = Raise e ->
    deadlocks (map (fun r => share_list opened listed r (next r)) (seq 0 n)).
  Proof. intros N E. eapply (deadlock_first _ n (Raise e) Bcast (SList None) _ N); unfold share_list; cbn [Nat.eqb]; [now rewrite E|reflexivity]. Qed.
  Lemma completes_done {R : Type} (f : nat -> R) n : completes (map (fun r => @Done (@shared W) R (f r)) (seq 0 n)) (map f (seq 0 n)).
  Proof. exists 0. cbn [mrun]. now rewrite map_map. Qed.
End Bulk.
