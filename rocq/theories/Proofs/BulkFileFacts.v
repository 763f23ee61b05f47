(** What read_corr_bulk makes of the file that CorrBulk.save wrote. *)
From Coq Require Import QArith.
From Verif Require Import Lib.Base Lib.Str Model.DVFile Model.BulkFile Spec.BulkFileSpec.
Local Open Scope string_scope.

Lemma mem_in k l : mem k l = true <-> In k l.
Proof. unfold mem. rewrite existsb_exists. split; [intros (x & I & E); apply String.eqb_eq in E; now subst|intros I; exists k; split; [exact I|apply String.eqb_refl]]. Qed.
Lemma mem_not k l : ~ In k l -> mem k l = false.
Proof. intros N. destruct (mem k l) eqn:E; [|reflexivity]. now apply mem_in in E. Qed.
Definition kept (kv : string * bval) : string * bmember :=
  (fst kv, match snd kv with BScalar s => MText s | BTexts l => MTexts l | BArr r => MArr [r] | BTime t => MStamps [t] | BTimes l => MStamps l | BObj => MObj end).
Lemma member_kept k v : usual_value k v -> member_of (k, v) = Ok (kept (k, v)).
Proof.
  unfold member_of, kept. cbn [fst snd]. destruct v; cbn [usual_value]; intros U; try contradiction.
  1,2,5: now rewrite (mem_not k t_keys U). 
  - now rewrite (proj2 (mem_in k t_keys) U).
  - now rewrite (proj2 (mem_in k t_keys) (proj1 U)).
Qed.
Lemma load_kept k v : free_name k -> usual_value k v -> load_entry (kept (k, v)) = Ok [(k, v)].
Proof.
  intros (_ & N1 & N2) U. unfold load_entry, kept. cbn [fst snd]. rewrite (mem_not _ _ N1), N2. cbn [orb]. destruct v; cbn [usual_value] in U; try contradiction.
  1,2,5: now rewrite (mem_not k t_keys U).
  - now rewrite (proj2 (mem_in k t_keys) U).
  - rewrite (proj2 (mem_in k t_keys) (proj1 U)). destruct l as [|a [|b l]]; try reflexivity. now destruct (proj2 U).
Qed.
Lemma saved_header h : (forall k v, In (k, v) h -> free_name k /\ usual_value k v) -> mapM member_of h = Ok (map kept h) /\ mapM load_entry (map kept h) = Ok (map (fun kv => [kv]) h).
Proof.
  induction h as [|[k v] h IH]; intros H; [split; reflexivity|]. destruct (H k v (or_introl eq_refl)) as (F & U). destruct IH as (A & B); [intros x y I; apply H; now right|].
  cbn [map mapM]. rewrite (member_kept k v U), (load_kept k v F U). cbn [bind]. rewrite A, B. split; reflexivity.
Qed.
Lemma read_saved b : usual_header (bk_stats b) -> (do f <- save_bulk b; read_bulk f) = Ok (new_bulk (bk_data b) (bk_stats b) true).
Proof.
  intros (_ & _ & H). destruct (saved_header _ H) as (A & B). unfold save_bulk. rewrite A. cbn [bind].
  assert (N : forall k, k = "data" \/ k = "file" -> mem k (map fst (map kept (bk_stats b))) = false).
  { intros k K. apply mem_not. rewrite map_map. intros I. apply in_map_iff in I. destruct I as ([k' v] & E & I). cbn [kept fst] in E. subst k'. destruct (H k v I) as ((F & NS & _) & _). destruct K as [->| ->]; [|congruence]. apply NS. cbn. tauto. }
  rewrite (N "data"), (N "file") by tauto. cbn [orb bind]. unfold read_bulk. cbn [mapM]. change (load_entry ("data", MArr (bk_data b))) with (@Ok (list (string * bval)) []). cbn [bind]. rewrite B. cbn [bind]. change (dget _ "data") with (Some (MArr (bk_data b))).
  cbn iota. do 2 f_equal. cbn [concat app]. clear. induction (bk_stats b) as [|x l IH]; [reflexivity|]. cbn [map concat app]. now rewrite IH.
Qed.
