From Coq Require Import QArith.
From Verif Require Import Lib.Base Lib.Str Lib.StrFacts Model.StreamSteps Spec.StreamStepsSpec.
Local Open Scope string_scope.

Lemma mentions_iff s : is_substr "detrend_st" s || is_substr "cos_taper_st" s = true <-> mentions s.
Proof.
  rewrite Bool.orb_true_iff, !is_substr_iff. unfold mentions. split.
  - intros [(a & b & E)|(a & b & E)]; exists a, b; tauto.
  - intros (a & b & [E|E]); [left|right]; eauto.
Qed.
Lemma split_app_general c a b : has_char c b = false -> split_on c (a ++ String c b) = (split_on c a ++ [b])%list.
Proof.
  intros H. induction a as [|x a IH]; cbn [String.append].
  - cbn. rewrite Ascii.eqb_refl. rewrite split_on_no by exact H. reflexivity.
  - cbn [split_on]. destruct (Ascii.eqb x c); rewrite IH; [reflexivity|]. pose proof (split_on_nonempty c a). destruct (split_on c a) as [|y q] eqn:E; [congruence|]. reflexivity.
Qed.

Section F.
  Context {St Args : Type} (import : string -> result (string -> result (St -> Args -> result St))).

  Lemma func_path m n : has_char "." n = false -> func_from_str import (m ++ "." ++ n) = if String.eqb m "" then Raise ValueError else do a <- import m; a n.
  Proof.
    intros H. unfold func_from_str. change ("." ++ n) with (String "." n). rewrite split_app_general by exact H.
    rewrite last_last, removelast_last, join_split. reflexivity.
  Qed.
  Lemma func_plain n : has_char "." n = false -> func_from_str import n = Raise ValueError.
  Proof. intros H. unfold func_from_str. now rewrite split_on_no by exact H. Qed.
  (** every path without a last dot is one of these *)
  Lemma path_cases s : has_char "." s = false \/ exists m n, s = m ++ "." ++ n /\ has_char "." n = false.
  Proof.
    induction s as [|x s [IH|(m & n & E & H)]]; [now left| |].
    - cbn. destruct (Ascii.eqb x ".") eqn:X; [|now left]. apply Ascii.eqb_eq in X. subst x. right. exists "", s. split; [reflexivity|exact IH].
    - right. exists (String x m), n. split; [now rewrite E|exact H].
  Qed.
  Lemma func_names s f : func_from_str import s = Ok f <-> names import s f.
  Proof.
    split.
    - intros E. destruct (path_cases s) as [H|(m & n & -> & H)]; [rewrite func_plain in E by exact H; discriminate|]. rewrite func_path in E by exact H.
      destruct (String.eqb_spec m ""); [discriminate|]. destruct (import m) as [a|] eqn:I; [|discriminate]. exists m, n, a. cbn in E. auto.
    - intros (m & n & a & M & H & -> & I & E). rewrite func_path by exact H. destruct (String.eqb_spec m ""); [contradiction|]. rewrite I. exact E.
  Qed.
  Lemma run_applied steps x y : (forall s a, In (s, a) steps -> ~ mentions s) -> (run_steps import steps x = Ok y <-> applied import steps x y).
  Proof.
    intros N. revert x. induction steps as [|[s a] r IH]; intros x.
    - cbn. split; [intros E; injection E as <-; constructor|intros H; inversion H; reflexivity].
    - cbn [run_steps]. assert (M : is_substr "detrend_st" s || is_substr "cos_taper_st" s = false).
      { apply Bool.not_true_iff_false. rewrite mentions_iff. apply (N s a). now left. }
      rewrite M. assert (N' : forall s a, In (s, a) r -> ~ mentions s) by (intros s' a' I; apply (N s' a'); now right). specialize (IH N'). split.
      + intros E. destruct (func_from_str import s) as [f|] eqn:F; [|discriminate]. cbn in E. destruct (f x a) as [z|] eqn:X; [|discriminate]. cbn in E.
        econstructor; [apply func_names; exact F|exact X|apply IH; exact E].
      + intros H. inversion H as [|? ? f ? z ? ? NM X A]; subst. apply func_names in NM. rewrite NM. cbn. rewrite X. cbn. apply IH. exact A.
  Qed.
  Lemma run_fails l1 s a l2 x y e : (forall s' a', In (s', a') (l1 ++ [(s, a)]) -> ~ mentions s') -> applied import l1 x y -> (func_from_str import s = Raise e \/ exists f, names import s f /\ f y a = Raise e) ->
    run_steps import (l1 ++ (s, a) :: l2) x = Raise e.
  Proof.
    intros N A. revert N. induction A as [x|s' a' f x y z r NM X A IH]; intros N F.
    - cbn [app run_steps]. assert (M : is_substr "detrend_st" s || is_substr "cos_taper_st" s = false).
      { apply Bool.not_true_iff_false. rewrite mentions_iff. apply (N s a). now left. }
      rewrite M. destruct F as [F|(f & F & X)]; [now rewrite F|]. apply func_names in F. rewrite F. cbn. now rewrite X.
    - cbn [app run_steps]. assert (M : is_substr "detrend_st" s' || is_substr "cos_taper_st" s' = false).
      { apply Bool.not_true_iff_false. rewrite mentions_iff. apply (N s' a'). now left. }
      rewrite M. apply func_names in NM. rewrite NM. cbn. rewrite X. cbn. apply IH; [|exact F]. intros s'' a'' I. apply (N s'' a''). now right.
  Qed.
End F.

Lemma polarity_all st : (forall c, In c st -> is_vertical c = true -> c_dip c <> None) ->
  correct_polarity st = map (fun c => if is_vertical c && match c_dip c with Some d => negb (Qle_bool d 0) | None => false end then flip_data c else c) st.
Proof.
  induction st as [|c r IH]; intros H; [reflexivity|]. cbn [correct_polarity map]. rewrite IH by (intros d I; apply H; now right). destruct (is_vertical c) eqn:V; [|reflexivity].
  destruct (c_dip c) eqn:D; [reflexivity|]. exfalso. apply (H c); [now left|exact V|exact D].
Qed.
Lemma polarity_stops l1 c l2 : (forall d, In d l1 -> is_vertical d = true -> c_dip d <> None) -> is_vertical c = true -> c_dip c = None ->
  correct_polarity (l1 ++ c :: l2) = (correct_polarity l1 ++ c :: l2)%list.
Proof.
  intros H V D. induction l1 as [|d r IH]; [cbn; now rewrite V, D|]. cbn [app correct_polarity]. rewrite IH by (intros d' I; apply H; now right).
  destruct (is_vertical d) eqn:VD; [|reflexivity]. destruct (c_dip d) eqn:DD; [reflexivity|]. exfalso. apply (H d); [now left|exact VD|exact DD].
Qed.
Lemma last_char_inv s c : last_char s = Some c -> exists a, s = a ++ String c "".
Proof.
  induction s as [|x s IH]; [discriminate|]. cbn [last_char]. destruct s as [|y s]; [intros [= ->]; now exists ""|]. intros H. destruct (IH H) as (a & ->). now exists (String x a).
Qed.
Lemma vertical_iff c : is_vertical c = true <-> vertical (c_channel c).
Proof.
  unfold is_vertical, vertical. split.
  - destruct (last_char (c_channel c)) as [x|] eqn:L; [|discriminate]. apply last_char_inv in L. destruct L as (a & ->). rewrite orb_true_iff, !Ascii.eqb_eq. intros [-> | ->]; exists a; [now left|now right].
  - intros (a & [-> | ->]); rewrite last_char_app; reflexivity.
Qed.
