(** Facts about spectral time series. *)
From Coq Require Import Permutation Sorted.
From Verif Require Import Lib.Base Lib.Sorting Model.Spectrogram Spec.SpectrogramSpec.
Local Open Scope nat_scope.

Lemma perm_classes {A B} (c : A -> nat) (g : A -> list B) p l : (forall x, In x l -> c x < p) ->
  Permutation (flat_map (fun r => flat_map (fun x => if c x =? r then g x else []) l) (seq 0 p)) (flat_map g l).
Proof.
  induction l as [|x l IH]; intros H; simpl.
  - induction (seq 0 p); simpl; auto.
  - assert (E : Permutation (flat_map (fun r => (if c x =? r then g x else []) ++ flat_map (fun x => if c x =? r then g x else []) l) (seq 0 p))
      (flat_map (fun r => if c x =? r then g x else []) (seq 0 p) ++ flat_map (fun r => flat_map (fun x => if c x =? r then g x else []) l) (seq 0 p))).
    { clear. induction (seq 0 p) as [|r rs IH]; simpl; auto. rewrite IH. rewrite <- !app_assoc. apply Permutation_app_head.
      rewrite !app_assoc. apply Permutation_app_tail. apply Permutation_app_comm. }
    rewrite E. clear E. apply Permutation_app; [|apply IH; intros y Hy; apply H; now right].
    assert (Hx : c x < p) by (apply H; now left). clear IH H.
    assert (G : forall n s, flat_map (fun r => if c x =? r then g x else []) (seq s n) = if (s <=? c x) && (c x <? s + n) then g x else []).
    { induction n as [|n IHn]; intros s; simpl.
      - replace (s + 0) with s by lia. destruct (Nat.leb_spec s (c x)), (Nat.ltb_spec (c x) s); simpl; auto; lia.
      - rewrite IHn. destruct (Nat.eqb_spec (c x) s), (Nat.leb_spec s (c x)), (Nat.leb_spec (S s) (c x)), (Nat.ltb_spec (c x) (S s + n)), (Nat.ltb_spec (c x) (s + S n));
          simpl; try lia; rewrite ?app_nil_r; auto. }
    rewrite G. simpl. destruct (Nat.ltb_spec (c x) p); [reflexivity|lia].
Qed.

Section Facts.
  Context {F P : Type}.
  Notation stream := (option (list (Z * outcome F P))).

  Lemma appended_flat_map {A} (g : A -> list (Z * outcome F P)) l : appended (flat_map g l) = flat_map (fun x => appended (g x)) l.
  Proof.
    induction l as [|x l IH]; simpl; auto. unfold appended in *. now rewrite flat_map_app, IH.
  Qed.
  Lemma enumerate_flat {A B} (g : A -> list B) (l : list A) : flat_map (fun x => g (snd x)) (enumerate l) = flat_map g l.
  Proof.
    unfold enumerate. generalize 0. induction l as [|x l IH]; intros k; simpl; auto. now rewrite IH.
  Qed.
  Lemma gathered_perm p (streams : list stream) : 0 < p ->
    Permutation (flat_map (fun r => appended (my_windows p r streams)) (seq 0 p)) (spectra streams).
  Proof.
    intros Hp. set (g := fun x : nat * stream => appended match snd x with Some l => l | None => [] end).
    assert (E1 : spectra streams = flat_map g (enumerate streams)).
    { unfold spectra, all_windows. rewrite appended_flat_map. symmetry. apply (enumerate_flat (fun x => appended match x with Some l => l | None => [] end)). }
    rewrite E1. rewrite <- (perm_classes (fun x => fst x mod p) g p) by (intros; apply Nat.mod_upper_bound; lia).
    erewrite flat_map_ext; [reflexivity|]. intros r. unfold my_windows. rewrite appended_flat_map.
    apply flat_map_ext. intros x. unfold g. now destruct (fst x mod p =? r).
  Qed.

  Lemma has_duplicates_nodup l : has_duplicates l = false <-> NoDup l.
  Proof.
    induction l as [|x l IH]; simpl.
    - split; [constructor|auto].
    - rewrite orb_false_iff, IH. split.
      + intros [H1 H2]. constructor; auto. intros Hi. assert (existsb (Z.eqb x) l = true); [|congruence].
        apply existsb_exists. exists x. split; auto. apply Z.eqb_refl.
      + intros H. inversion H; subst. split; auto. destruct (existsb (Z.eqb x) l) eqn:E; auto. apply existsb_exists in E as (y & Hy & E).
        apply Z.eqb_eq in E. now subst.
  Qed.

  Let le (a b : Z * P) := (fst a <=? fst b)%Z.
  Lemma le_total a b : le a b = true \/ le b a = true.
  Proof. unfold le. lia. Qed.
  Lemma le_trans a b c : le a b = true -> le b c = true -> le a c = true.
  Proof. unfold le. lia. Qed.

  Lemma sorted_strict (l : list (Z * P)) : StronglySorted (le_rel le) l -> NoDup (map fst l) -> StronglySorted Z.lt (map fst l).
  Proof.
    induction 1 as [|x l Hs IH HF]; simpl; intros H; constructor; inversion H; subst.
    - now apply IH.
    - apply Forall_forall. intros t Ht. pose proof Ht as Ht'. apply in_map_iff in Ht' as (y & <- & Hy). rewrite Forall_forall in HF. specialize (HF _ Hy).
      unfold le_rel, le in HF. assert (fst x <> fst y) by congruence. lia.
  Qed.
  Lemma strict_unique (l m : list (Z * P)) : StronglySorted Z.lt (map fst l) -> StronglySorted Z.lt (map fst m) -> Permutation l m -> l = m.
  Proof.
    revert m. induction l as [|x l IH]; intros m Hl Hm HP.
    - apply Permutation_nil in HP. auto.
    - destruct m as [|y m]; [apply Permutation_sym, Permutation_nil in HP; discriminate|].
      simpl in Hl, Hm. inversion Hl as [|? ? Sl Fl]; inversion Hm as [|? ? Sm Fm]; subst. rewrite Forall_forall in Fl, Fm.
      assert (x = y) as ->.
      { assert (Hx : In x (y :: m)) by (eapply Permutation_in; [exact HP|now left]).
        assert (Hy : In y (x :: l)) by (eapply Permutation_in; [symmetry; exact HP|now left]).
        destruct Hx as [->|Hx]; auto. destruct Hy as [->|Hy]; auto.
        apply (in_map fst) in Hx, Hy. specialize (Fl _ Hy). specialize (Fm _ Hx). lia. }
      f_equal. apply IH; auto. eapply Permutation_cons_inv; eauto.
  Qed.
  Lemma combine_fst_snd {A B} (l : list (A * B)) : combine (map fst l) (map snd l) = l.
  Proof. induction l as [|[a b] l IH]; simpl; congruence. Qed.
  Lemma map_fst_combine {A B} (t : list A) (s : list B) : length t = length s -> map fst (combine t s) = t.
  Proof. revert s. induction t; intros [|b s]; simpl; intros H; try discriminate; auto. f_equal. auto. Qed.
  Lemma map_snd_combine {A B} (t : list A) (s : list B) : length t = length s -> map snd (combine t s) = s.
  Proof. revert s. induction t; intros [|b s]; simpl; intros H; try discriminate; auto. f_equal. auto. Qed.

  Lemma time_ordered_unique l t s t' s' : time_ordered l t s -> time_ordered (P := P) l t' s' -> t = t' /\ s = s'.
  Proof.
    intros (L & S1 & P1) (L' & S1' & P1').
    assert (E : combine t s = combine t' s').
    { apply strict_unique; rewrite ?map_fst_combine; auto. rewrite P1. now symmetry. }
    split.
    - now rewrite <- (map_fst_combine t s), <- (map_fst_combine t' s'), E.
    - now rewrite <- (map_snd_combine t s), <- (map_snd_combine t' s'), E.
  Qed.

  (** what is returned *)
  Lemma spectrogram_content p (streams : list stream) f t s : 0 < p -> spectrogram p streams = Ok (f, t, s) ->
    time_ordered (spectra streams) t s.
  Proof.
    intros Hp. unfold spectrogram. set (G := flat_map _ _).
    destruct (has_duplicates (map fst G)) eqn:D; [discriminate|]. destruct (last_axis _) as [f'|]; [|discriminate].
    intros H. inversion H; subst. clear H. pose proof (gathered_perm p streams Hp) as HP. fold G in HP.
    apply has_duplicates_nodup in D. unfold time_ordered. rewrite !map_length. split; auto. split.
    - apply sorted_strict; [apply sort_sorted; [apply le_total|apply le_trans]|].
      eapply Permutation_NoDup; [|exact D]. apply Permutation_map. symmetry. apply sort_perm.
    - rewrite combine_fst_snd, sort_perm. exact HP.
  Qed.

  Lemma last_axis_in ws f : last_axis (F := F) (P := P) ws = Some f -> exists w, In w ws /\ match snd w with Computed f' _ | FailedLate f' => f' = f | Failed => False end.
  Proof.
    induction ws as [|w ws IH]; simpl; [discriminate|]. destruct (last_axis ws) as [f'|].
    - intros H. destruct (IH H) as (w' & Hw & E). exists w'. auto.
    - intros H. exists w. split; auto. destruct (snd w); congruence.
  Qed.
  Lemma my_windows_all p r (streams : list stream) w : In w (my_windows p r streams) -> In w (all_windows streams).
  Proof.
    unfold my_windows, all_windows. intros H. apply in_flat_map in H as (x & Hx & Hw). destruct (fst x mod p =? r); [|contradiction].
    apply in_flat_map. exists (snd x). split; auto. unfold enumerate in Hx. destruct x. eapply in_combine_r; eauto.
  Qed.
  Lemma my_windows_one (streams : list stream) : my_windows 1 0 streams = all_windows streams.
  Proof.
    unfold my_windows, all_windows. rewrite <- (enumerate_flat (fun x => match x with Some l => l | None => [] end)). apply flat_map_ext.
    intros x. reflexivity.
  Qed.
  Lemma last_axis_some ws w : In w ws -> snd w <> Failed -> exists f, last_axis (F := F) (P := P) ws = Some f.
  Proof.
    induction ws as [|x ws IH]; simpl; [tauto|]. intros [->|H] Hf.
    - destruct (last_axis ws); [eauto|]. destruct (snd w); eauto. congruence.
    - destruct (IH H Hf) as (f & ->). eauto.
  Qed.

  (** computed if rank 0 has an axis and the times differ *)
  Lemma spectrogram_total p (streams : list stream) w : 0 < p -> NoDup (map fst (spectra streams)) ->
    In w (my_windows p 0 streams) -> snd w <> Failed -> exists f t s, spectrogram p streams = Ok (f, t, s).
  Proof.
    intros Hp HN Hw Hf. unfold spectrogram. set (G := flat_map _ _).
    assert (D : has_duplicates (map fst G) = false).
    { apply has_duplicates_nodup. eapply Permutation_NoDup; [|exact HN]. apply Permutation_map. symmetry. apply gathered_perm. auto. }
    rewrite D. destruct (last_axis_some _ _ Hw Hf) as (f & ->). eauto.
  Qed.
  Lemma spectrogram_axis p (streams : list stream) f0 f t s : one_axis f0 streams -> spectrogram p streams = Ok (f, t, s) -> f = f0.
  Proof.
    intros H1. unfold spectrogram. destruct (has_duplicates _); [discriminate|]. destruct (last_axis _) as [f'|] eqn:E; [|discriminate].
    intros H. inversion H; subst. apply last_axis_in in E as (w & Hw & E). apply my_windows_all in Hw. specialize (H1 _ Hw). destruct (snd w); congruence || contradiction.
  Qed.
  Lemma spectrogram_same p (streams : list stream) f0 w : 0 < p -> one_axis f0 streams -> NoDup (map fst (spectra streams)) ->
    In w (my_windows p 0 streams) -> snd w <> Failed ->
    exists t s, spectrogram p streams = Ok (f0, t, s) /\ time_ordered (spectra streams) t s /\ spectrogram 1 streams = Ok (f0, t, s).
  Proof.
    intros Hp H1 HN Hw Hf. destruct (spectrogram_total p streams w Hp HN Hw Hf) as (f & t & s & E).
    assert (Hw1 : In w (my_windows 1 0 streams)) by (rewrite my_windows_one; eapply my_windows_all; eauto).
    destruct (spectrogram_total 1 streams w (Nat.lt_0_1) HN Hw1 Hf) as (f' & t' & s' & E').
    pose proof (spectrogram_content _ _ _ _ _ Hp E) as C. pose proof (spectrogram_content _ _ _ _ _ Nat.lt_0_1 E') as C'.
    destruct (time_ordered_unique _ _ _ _ _ C C') as [-> ->].
    rewrite (spectrogram_axis _ _ _ _ _ _ H1 E) in E. rewrite (spectrogram_axis _ _ _ _ _ _ H1 E') in E'. exists t', s'. auto.
  Qed.
  Lemma spectrogram_dup p (streams : list stream) : 0 < p -> ~ NoDup (map fst (spectra streams)) -> spectrogram p streams = Raise ValueError.
  Proof.
    intros Hp HN. unfold spectrogram. set (G := flat_map _ _). destruct (has_duplicates (map fst G)) eqn:D; auto. exfalso. apply HN.
    apply has_duplicates_nodup in D. eapply Permutation_NoDup; [|exact D]. apply Permutation_map. apply gathered_perm. auto.
  Qed.
End Facts.
