(** The options of the detrending. *)
From Coq Require Import Reals Lra Lia.
From Verif Require Import Lib.Base Lib.Str Model.Spectral Model.TimeDomain Model.Detrend Spec.TimeDomainSpec Spec.DetrendSpec
  Proofs.SpectralFacts Proofs.TimeDomainFacts Proofs.AmplitudeFacts.
Local Open Scope R_scope.

Lemma detrendqr_without f d : qr_ok (length d) f -> without_trend d (detrendqr_row f d).
Proof.
  intros Q. destruct (detrend_no_trend f d Q) as [H1 H2]. unfold without_trend, sums_to_zero, has_no_slope. rewrite detrend_length. repeat split; try assumption.
  exists (snd (detrend_coeff f d)), (fst (detrend_coeff f d) / INR (length d)). intros k K. unfold detrendqr_row. rewrite nth_map_seq by assumption. rewrite trend_nth by assumption.
  assert (INR (length d) <> 0) by (apply not_0_INR; lia). field. assumption.
Qed.
Lemma samples_all l : samples (map Some l) = l.
Proof. induction l as [|v l IH]; [reflexivity|]. cbn [map]. change (samples (Some v :: map Some l)) with (v :: samples (map Some l)). now rewrite IH. Qed.
Lemma whole_row d : (forall v, In v d -> v <> None) -> d = map Some (samples d).
Proof.
  induction d as [|[v|] d IH]; intros H; [reflexivity| |destruct (H None (or_introl eq_refl)); reflexivity]. change (samples (Some v :: d)) with (v :: samples d). cbn [map]. f_equal. apply IH. intros w I. apply H. now right.
Qed.
Lemma nth_error_some l i : nth_error (map (@Some R) l) i = Some None <-> False.
Proof. rewrite nth_error_map. destruct (nth_error l i); cbn; split; try discriminate; contradiction. Qed.
Lemma qr_on_samples f d : (forall v, In v d -> v <> None) -> qr_ok (length d) (f (length d)) -> on_samples without_trend d (detrendqr_nan f d).
Proof.
  intros W Q. rewrite (whole_row d W) in *. set (l := samples d) in *. rewrite map_length in Q. unfold detrendqr_nan. rewrite all_samples_some. unfold on_samples. rewrite !samples_all, !map_length, detrend_length.
  split; [now apply detrendqr_without|]. split; [reflexivity|]. intros i. now rewrite !nth_error_some.
Qed.
Lemma samples_demean m d : samples (map (fun v => match v with Some x => Some (x - m) | None => None end) d) = map (fun x => x - m) (samples d).
Proof. induction d as [|[v|] d IH]; [reflexivity| |exact IH]. cbn [map]. change (samples (Some v :: d)) with (v :: samples d). cbn [map]. rewrite <- IH. reflexivity. Qed.
Lemma sum_mean x : x <> [] -> rsum (length x) (fun k => nth k x 0) = mean x * INR (length x).
Proof. intros N. unfold mean. field. apply not_0_INR. destruct x; [congruence|discriminate]. Qed.
Lemma demean_without l : without_mean l (map (fun x => x - mean l) l).
Proof.
  unfold without_mean, sums_to_zero. rewrite map_length. split; [reflexivity|]. split.
  - destruct l as [|v l]; [reflexivity|]. pose proof (demean_mean (v :: l) ltac:(discriminate)) as M. unfold demean_row in M.
    rewrite <- (map_length (fun x => x - mean (v :: l)) (v :: l)). rewrite sum_mean, M; [ring|discriminate].
  - exists (mean l). intros k K. rewrite (nth_indep _ 0 (0 - mean l)) by now rewrite map_length. exact (map_nth (fun x => x - mean l) l 0 k).
Qed.
Lemma demean_on_samples d : on_samples without_mean d (demean_nan d).
Proof.
  unfold on_samples, demean_nan. rewrite samples_demean. change (existing d) with (samples d). split; [apply demean_without|]. split; [apply map_length|].
  intros i. rewrite nth_error_map. destruct (nth_error d i) as [[v|]|]; cbn; split; congruence.
Qed.
Lemma all_missing_not A : has_a_sample A -> all_missing A = false.
Proof.
  intros (d & v & I & J). unfold all_missing. destruct (forallb _ A) eqn:E; [|reflexivity]. rewrite forallb_forall in E. specialize (E d I). rewrite forallb_forall in E. now specialize (E _ J).
Qed.
