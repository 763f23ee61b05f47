(** Programs one after the other. *)
From Verif Require Import Lib.Base Lib.Str Model.Collectives Model.Stations Model.Combos Model.Rerun Model.RunStart Model.Startup Spec.CollectiveSpec Spec.StartupSpec
  Proofs.CollectiveFacts Proofs.StartupFacts.
From Verif Require Import Model.MonitorStart Model.CorrScript.
Local Open Scope nat_scope.

(** [h] performs the collectives of a program *)
Section Functor.
  Context {P Q R U : Type}.
  Variable inj : P -> Q.
  Variable h : nat -> prog P R -> prog Q U.
  Hypothesis H : forall r k v nx, exists nx', h r (Coll k v nx) = Coll k (inj v) nx' /\ forall vs, nx' (map inj vs) = h r (nx vs).

  Lemma contributions_h k (p : nat -> prog P R) l vs : contributions k (map p l) = Some vs -> contributions k (map (fun r => h r (p r)) l) = Some (map inj vs).
  Proof.
    revert vs. induction l as [|r l IH]; intros vs E; [injection E as <-; reflexivity|]. cbn [map contributions] in *. destruct (p r) as [x|k' v nx]; [discriminate|].
    destruct (H r k' v nx) as (nx' & -> & _). destruct (ckind_eqb k k'); [|discriminate]. destruct (contributions k (map p l)) as [vs'|]; [|discriminate]. injection E as <-. now rewrite (IH vs' eq_refl).
  Qed.
  Lemma contributions_waits k (p : nat -> prog P R) l vs : contributions k (map p l) = Some vs -> forall r, In r l -> exists k' v nx, p r = Coll k' v nx.
  Proof.
    revert vs. induction l as [|s l IH]; intros vs E r I; [contradiction|]. cbn [map contributions] in E. destruct (p s) as [x|k' v nx] eqn:G; [discriminate|].
    destruct (ckind_eqb k k'); [|discriminate]. destruct (contributions k (map p l)) as [vs'|]; [|discriminate]. destruct I as [<-|I]; [eauto|]. now apply (IH vs').
  Qed.
  Lemma mstep_h (p : nat -> prog P R) l qs : mstep (map p l) = Some qs ->
    exists p', qs = map p' l /\ mstep (map (fun r => h r (p r)) l) = Some (map (fun r => h r (p' r)) l).
  Proof.
    destruct l as [|r0 l]; [discriminate|]. intros E. cbn [map mstep] in E. destruct (p r0) as [x|k v nx] eqn:G; [discriminate|].
    assert (E' : match contributions k (map p (r0 :: l)) with Some vs => Some (map (resume vs) (map p (r0 :: l))) | None => None end = Some qs) by (cbn [map]; rewrite G; exact E). clear E.
    destruct (contributions k (map p (r0 :: l))) as [vs|] eqn:F; [|discriminate]. injection E' as <-. exists (fun r => resume vs (p r)). split; [cbn [map]; now rewrite map_map|].
    pose proof (contributions_h _ _ _ _ F) as F'. destruct (H r0 k v nx) as (nx' & X & _).
    assert (M : mstep (map (fun r => h r (p r)) (r0 :: l)) = match contributions k (map (fun r => h r (p r)) (r0 :: l)) with Some us => Some (map (resume us) (map (fun r => h r (p r)) (r0 :: l))) | None => None end).
    { cbn [map mstep]. rewrite G, X. reflexivity. }
    rewrite M, F', map_map. f_equal. apply map_ext_in. intros r I. destruct (contributions_waits _ _ _ _ F r I) as (k' & v' & nx0 & Y). rewrite Y.
    destruct (H r k' v' nx0) as (nx1 & -> & Z). cbn [resume]. apply Z.
  Qed.
  Lemma mrun_h n : forall (p : nat -> prog P R) l, exists p' m, mrun n (map p l) = map p' l /\ mrun m (map (fun r => h r (p r)) l) = map (fun r => h r (p' r)) l.
  Proof.
    induction n as [|n IH]; intros p l; [exists p, 0; split; reflexivity|]. cbn [mrun]. destruct (mstep (map p l)) as [qs|] eqn:E.
    - destruct (mstep_h p l qs E) as (p1 & -> & F). destruct (IH p1 l) as (p' & m & G & X). exists p', (S m). split; [exact G|]. cbn [mrun]. now rewrite F.
    - exists p, 0. split; reflexivity.
  Qed.
  (** ... and no others *)
  Hypothesis D : forall r x, is_done (h r (Done x)).
  Lemma contributions_none k (p : nat -> prog P R) l : contributions k (map p l) = None -> contributions k (map (fun r => h r (p r)) l) = None.
  Proof.
    induction l as [|r l IH]; intros E; [discriminate|]. cbn [map contributions] in *. destruct (p r) as [x|k' v nx].
    - pose proof (D r x) as Y. destruct (h r (Done x)); [reflexivity|contradiction].
    - destruct (H r k' v nx) as (nx' & -> & _). destruct (ckind_eqb k k'); [|reflexivity]. destruct (contributions k (map p l)); [discriminate|]. now rewrite IH.
  Qed.
  Lemma mstep_none (p : nat -> prog P R) l : mstep (map p l) = None -> mstep (map (fun r => h r (p r)) l) = None.
  Proof.
    destruct l as [|r0 l]; [reflexivity|]. intros E. cbn [map mstep] in E. destruct (p r0) as [x|k v nx] eqn:G.
    - cbn [map mstep]. rewrite G. pose proof (D r0 x) as Y. destruct (h r0 (Done x)); [reflexivity|contradiction].
    - assert (F : contributions k (map p (r0 :: l)) = None). { cbn [map]. rewrite G. destruct (contributions k (Coll k v nx :: map p l)); [discriminate|reflexivity]. }
      apply contributions_none in F. destruct (H r0 k v nx) as (nx' & X & _). cbn [map mstep] in *. rewrite G, X in *. now rewrite F.
  Qed.
  Lemma deadlocks_h (p : nat -> prog P R) l : deadlocks (map p l) -> deadlocks (map (fun r => h r (p r)) l).
  Proof.
    intros (n & E & q & I & N). destruct (mrun_h n p l) as (p' & m & G & X). rewrite G in E, I. exists m. rewrite X. split; [now apply mstep_none|].
    apply in_map_iff in I as (r & <- & I). exists (h r (p' r)). split; [apply (in_map (fun r => h r (p' r))); exact I|]. destruct (p' r) as [x|k v nx]; [destruct N; exact Logic.I|].
    destruct (H r k v nx) as (nx' & -> & _). intros Y. exact Y.
  Qed.
End Functor.

Section Seq.
  Context {P A B : Type}.
  Variable f : nat -> A -> prog P (result B).
  Lemma andthen_coll r k v nx : exists nx', andthen (Coll k v nx) (f r) = Coll k v nx' /\ forall vs, nx' (map (fun x => x) vs) = andthen (nx vs) (f r).
  Proof. eexists. split; [reflexivity|]. intros vs. cbn beta. now rewrite map_id. Qed.
  Lemma then_completes (p : nat -> prog P (result A)) (a : nat -> A) l rs : completes (map p l) (map (fun r => Ok (a r)) l) ->
    completes (map (fun r => f r (a r)) l) rs -> completes (map (fun r => andthen (p r) (f r)) l) rs.
  Proof.
    intros (n & E) (k & F). destruct (mrun_h (fun x => x) (fun r q => andthen q (f r)) andthen_coll n p l) as (p' & m & G & X).
    exists (m + k). rewrite mrun_add, X, <- F. f_equal. rewrite E, map_map in G. apply map_ext_in. intros r I. now rewrite <- (ext_in_map G r I).
  Qed.
  Lemma then_dies (p : nat -> prog P (result A)) l : dies (map p l) -> dies (map (fun r => andthen (p r) (f r)) l).
  Proof.
    intros (n & (e & I) & q & J & N). destruct (mrun_h (fun x => x) (fun r q => andthen q (f r)) andthen_coll n p l) as (p' & m & G & X).
    exists m. rewrite X. rewrite G in I, J. apply in_map_iff in I as (r & E & I). apply in_map_iff in J as (s & <- & J). split.
    - exists e. apply in_map_iff. exists r. split; [now rewrite E|exact I].
    - exists (andthen (p' s) (f s)). split; [apply (in_map (fun r => andthen (p' r) (f r))); exact J|]. destruct (p' s) as [x|k v nx]; [destruct N; exact Logic.I|]. intros Y. exact Y.
  Qed.
  (** the programs so far have returned, those that follow do not end *)
  Lemma then_deadlocks (p : nat -> prog P (result A)) (a : nat -> A) l : completes (map p l) (map (fun r => Ok (a r)) l) ->
    deadlocks (map (fun r => f r (a r)) l) -> deadlocks (map (fun r => andthen (p r) (f r)) l).
  Proof.
    intros (n & E) (k & F). destruct (mrun_h (fun x => x) (fun r q => andthen q (f r)) andthen_coll n p l) as (p' & m & G & X).
    exists (m + k). rewrite mrun_add, X. rewrite E, map_map in G.
    replace (map (fun r => andthen (p' r) (f r)) l) with (map (fun r => f r (a r)) l); [exact F|]. apply map_ext_in. intros r I. now rewrite <- (ext_in_map G r I).
  Qed.
End Seq.

Section Embed.
  Context {P Q R U : Type}.
  Variable inj : P -> Q.
  Variable prj : Q -> P.
  Variable g : R -> U.
  Hypothesis PI : forall v, prj (inj v) = v.
  Lemma embed_coll (r : nat) k v nx : exists nx', embed inj prj g (Coll k v nx) = Coll k (inj v) nx' /\ forall vs, nx' (map inj vs) = embed inj prj g (nx vs).
  Proof. eexists. split; [reflexivity|]. intros vs. cbn beta. rewrite map_map, (map_ext _ (fun x => x)) by exact PI. now rewrite map_id. Qed.
  Lemma embed_completes (p : nat -> prog P R) l rs : completes (map p l) rs -> completes (map (fun r => embed inj prj g (p r)) l) (map g rs).
  Proof.
    intros (n & E). destruct (mrun_h inj (fun _ q => embed inj prj g q) embed_coll n p l) as (p' & m & G & X). exists m. rewrite X. rewrite E in G.
    rewrite <- (map_map p' (embed inj prj g)), <- G, !map_map. reflexivity.
  Qed.
  Lemma embed_deadlocks (p : nat -> prog P R) l : deadlocks (map p l) -> deadlocks (map (fun r => embed inj prj g (p r)) l).
  Proof. apply (deadlocks_h inj (fun _ q => embed inj prj g q) embed_coll). intros _ x. exact Logic.I. Qed.
End Embed.
Section EmbedDies.
  Context {P Q A : Type}.
  Variable inj : P -> Q.
  Variable prj : Q -> P.
  Hypothesis PI : forall v, prj (inj v) = v.
  Lemma embed_dies (p : nat -> prog P (result A)) l : dies (map p l) -> dies (map (fun r => embed inj prj (fun x => x) (p r)) l).
  Proof.
    intros (n & (e & I) & q & J & N). destruct (mrun_h inj (fun _ q => embed inj prj (fun x => x) q) (embed_coll inj prj (fun x => x) PI) n p l) as (p' & m & G & X).
    exists m. rewrite X. rewrite G in I, J. apply in_map_iff in I as (r & E & I). apply in_map_iff in J as (s & <- & J). split.
    - exists e. apply in_map_iff. exists r. split; [now rewrite E|exact I].
    - exists (embed inj prj (fun x => x) (p' s)). split; [apply (in_map (fun r => embed inj prj (fun x => x) (p' r))); exact J|].
      destruct (p' s) as [x|k v nx]; [destruct N; exact Logic.I|]. intros Y. exact Y.
  Qed.
End EmbedDies.
Lemma repeat_seq {A} (x : A) n : repeat x n = map (fun _ => x) (seq 0 n).
Proof. generalize 0 as i. induction n as [|n IH]; intros i; [reflexivity|]. cbn [repeat seq map]. now rewrite <- IH. Qed.
Lemma begin_dies {I : Type} (inventory : result I) remove_response refused search n : 2 <= n ->
  ((exists e, inventory = Raise e) /\ remove_response = true) \/ (exists e, refused = Some e) \/ (exists e, search = Raise e) ->
  dies (begin_all inventory remove_response refused search n).
Proof.
  intros N X. assert (Y : (exists e, inventory = Raise e) /\ remove_response = true \/ ((exists i, inventory = Ok i) \/ remove_response = false)).
  { destruct inventory as [i|e]; [right; left; eauto|]. destruct remove_response; [left; eauto|right; now right]. }
  destruct Y as [((e & E) & R)|R].
  { apply (dies_first _ n FileNotFoundError Bcast (TInv None) (metadata refused search 1) N); unfold begin_run; cbn [Nat.eqb]; [now rewrite E, R|reflexivity]. }
  set (i := match inventory with Ok i => Some i | Raise _ => None end).
  assert (E : begin_all inventory remove_response refused search n = map (fun r => Coll Bcast (TInv (if Nat.eqb r 0 then i else None)) (metadata refused search r)) (seq 0 n)).
  { apply map_ext. intros r. unfold begin_run, i. destruct (Nat.eqb r 0); [|reflexivity]. destruct inventory as [x|e]; [reflexivity|]. destruct R as [(x & Y)| ->]; [discriminate|reflexivity]. }
  rewrite E. eapply dies_step; [apply (step_all Bcast (fun r => TInv (if Nat.eqb r 0 then i else None)) (metadata refused search) n ltac:(lia))|]. cbn beta.
  assert (F : exists e, match refused with Some e => Raise e | None => search end = Raise e).
  { destruct refused as [e|]; [eauto|]. destruct X as [((e & Q) & Z)|[(e & Q)|X]]; [|discriminate|exact X]. destruct R as [(x & Y)|Y]; congruence. }
  destruct F as [e F]. destruct n as [|n]; [lia|]. apply (dies_first _ (S n) e Bcast (TEx None) (know i) N); cbn [seq map Nat.eqb metadata]; unfold existing; cbn [Nat.eqb]; [now rewrite F|reflexivity].
Qed.
Lemma map_repeated {A B} (f : A -> B) x n : map f (repeat x n) = repeat (f x) n.
Proof. induction n as [|n IH]; [reflexivity|]. cbn [repeat map]. now rewrite IH. Qed.
