(** C150: the options of the detrending. *)
From Coq Require Import Reals Lra Lia.
From Verif Require Import Lib.Base Lib.Str Model.Spectral Model.TimeDomain Model.Detrend Spec.TimeDomainSpec Spec.DetrendSpec
  Proofs.AmplitudeFacts Proofs.DetrendFacts.
Local Open Scope string_scope.

(** by default, the linear trend of every trace is removed, if no sample is missing *)
Theorem C150_linear_partial : forall sp f A n args, (2 <= n)%nat -> qr_ok n (f n) ->
  (forall d, In d A -> length d = n /\ forall v, In v d -> v <> None) ->
  (dget args "method" = None \/ dget args "method" = Some "qr") -> (dget args "type" = None \/ dget args "type" = Some "linear") ->
  exists B, detrend sp f A args = Ok B /\ on_rows without_trend A B.
Proof.
  intros sp f A n args N Q H M T. unfold detrend, arg. assert ((match dget args "method" with Some v => v | None => "qr" end) = "qr") as -> by now destruct M as [-> | ->].
  assert ((match dget args "type" with Some v => v | None => "linear" end) = "linear") as -> by now destruct T as [-> | ->]. cbn -[detrendqr]. exists (map (detrendqr_nan f) A). split.
  - unfold detrendqr. destruct A as [|d A]; [reflexivity|]. destruct (H d (or_introl eq_refl)) as [L _]. rewrite L. destruct (Nat.ltb_spec n 2); [lia|reflexivity].
  - unfold on_rows. induction A as [|d A IH]; constructor.
    + destruct (H d (or_introl eq_refl)) as [L W]. apply qr_on_samples; [assumption|]. now rewrite L.
    + apply IH. intros e I. apply H. now right.
Qed.
Print Assumptions C150_linear_partial.
(** what is missing: with a missing sample nothing is left of the trace *)
Theorem C150_missing_refuted : forall sp f A d args B i, In d A -> In None d -> (i < length d)%nat ->
  (dget args "method" = None \/ dget args "method" = Some "qr") -> (dget args "type" = None \/ dget args "type" = Some "linear") ->
  detrend sp f A args = Ok B -> exists r e, nth_error A r = Some d /\ nth_error B r = Some e /\ nth_error e i = Some None.
Proof.
  intros sp f A d args B i I J L M T. unfold detrend, arg. assert ((match dget args "method" with Some v => v | None => "qr" end) = "qr") as -> by now destruct M as [-> | ->].
  assert ((match dget args "type" with Some v => v | None => "linear" end) = "linear") as -> by now destruct T as [-> | ->]. cbn -[detrendqr]. intros E.
  assert (B = map (detrendqr_nan f) A) as ->. { unfold detrendqr in E. destruct A as [|a A]; [destruct I|]. destruct (Nat.ltb (length a) 2); [discriminate|]. now injection E. }
  destruct (In_nth_error _ _ I) as [r R]. exists r, (detrendqr_nan f d). split; [exact R|]. split; [now rewrite nth_error_map, R|].
  unfold detrendqr_nan. rewrite (all_samples_none _ J). rewrite nth_error_map. destruct (nth_error d i) eqn:X; [reflexivity|]. apply nth_error_None in X. lia.
Qed.
Print Assumptions C150_missing_refuted.
(** with the type 'constant' the mean is removed, and missing samples stay missing *)
Theorem C150_constant : forall sp f A args, (dget args "method" = None \/ dget args "method" = Some "qr") -> dget args "type" = Some "constant" ->
  exists B, detrend sp f A args = Ok B /\ on_rows without_mean A B.
Proof.
  intros sp f A args M T. unfold detrend, arg. assert ((match dget args "method" with Some v => v | None => "qr" end) = "qr") as -> by now destruct M as [-> | ->]. rewrite T. cbn.
  eexists. split; [reflexivity|]. unfold demean, on_rows. induction A as [|d A IH]; constructor; [apply demean_on_samples|exact IH].
Qed.
Print Assumptions C150_constant.
(** the method 'scipy' is never carried out: its name is handed on to scipy, which does not know this parameter *)
Theorem C150_scipy_refuted : forall sp f A args, dget args "method" = Some "scipy" ->
  (has_a_sample A -> detrend sp f A args = Raise TypeError) /\ (~ has_a_sample A -> detrend sp f A args = Ok A).
Proof.
  intros sp f A args M. assert (D : detrend sp f A args = detrend_scipy sp A args) by (unfold detrend, arg; now rewrite M). rewrite D. unfold detrend_scipy. split.
  - intros H. rewrite (all_missing_not A H). destruct H as (d & v & I & _). destruct A as [|a A]; [destruct I|]. cbn [mapM]. unfold call_sp at 1.
    assert (existsb (fun kv => negb (String.eqb (fst kv) "type")) args = true) as ->; [|reflexivity]. apply existsb_exists. clear - M. induction args as [|[k w] args IH]; [discriminate|].
    cbn [dget] in M. destruct (String.eqb_spec "method" k) as [E|E]; [exists (k, w); split; [now left|now subst k]|]. destruct (IH M) as (x & I & X). exists x. split; [now right|exact X].
  - intros N. assert (all_missing A = true) as ->; [|reflexivity]. unfold all_missing. rewrite forallb_forall. intros d I. rewrite forallb_forall. intros [v|] J; [|reflexivity]. destruct N. now exists d, v.
Qed.
Print Assumptions C150_scipy_refuted.
(** called by its own name the method removes what its type says, and keeps missing samples *)
Theorem C150_by_name : forall (P : list R -> list R -> Prop) sp A args, (args = [] \/ args = [("type", "linear")] \/ args = [("type", "l")] \/ args = [("type", "constant")] \/ args = [("type", "c")]) ->
  (forall x, P x (sp (match args with [] => "linear" | (_, t) :: _ => t end) x) /\ length (sp (match args with [] => "linear" | (_, t) :: _ => t end) x) = length x) ->
  exists B, detrend_scipy sp A args = Ok B /\ (has_a_sample A -> on_rows P A B) /\ (~ has_a_sample A -> B = A).
Proof.
  intros P sp A args Ha H. set (t := match args with [] => "linear" | (_, t) :: _ => t end) in *. assert (C : forall x, call_sp sp args x = Ok (sp t x)) by (destruct Ha as [-> | [-> | [-> | [-> | ->]]]]; reflexivity).
  unfold detrend_scipy. destruct (all_missing A) eqn:E.
  - exists A. split; [reflexivity|]. split; [|reflexivity]. intros X. rewrite (all_missing_not A X) in E. discriminate.
  - assert (G : forall A0, mapM (fun row => do r <- call_sp sp args (existing row); Ok (put_back row r)) A0 = Ok (map (fun row => put_back row (sp t (existing row))) A0)).
    { clear -C. induction A0 as [|a A0 IH]; [reflexivity|]. cbn [mapM map]. rewrite C. cbn [bind]. now rewrite IH. }
    rewrite G. eexists. split; [reflexivity|]. split.
    + intros _. unfold on_rows. clear E G. induction A as [|d A IH]; constructor; [|exact IH]. destruct (H (existing d)) as [X L]. destruct (put_back_spec d _ L) as (L' & S & N). unfold on_samples. change samples with existing. rewrite S. auto.
    + intros N. exfalso. assert (all_missing A = true); [|congruence]. unfold all_missing. rewrite forallb_forall. intros d I. rewrite forallb_forall. intros [v|] J; [|reflexivity]. destruct N. now exists d, v.
Qed.
Print Assumptions C150_by_name.
(** other methods and types are refused *)
Theorem C150_refused : forall sp f A args, 
  (forall m, dget args "method" = Some m -> m <> "qr" -> m <> "scipy" -> detrend sp f A args = Raise ValueError) /\
  (forall t, (dget args "method" = None \/ dget args "method" = Some "qr") -> dget args "type" = Some t -> t <> "linear" -> t <> "constant" -> detrend sp f A args = Raise ValueError).
Proof.
  intros sp f A args. split.
  - intros m M N1 N2. unfold detrend, arg. rewrite M. apply String.eqb_neq in N1, N2. now rewrite N1, N2.
  - intros t M T N1 N2. unfold detrend, arg. assert ((match dget args "method" with Some v => v | None => "qr" end) = "qr") as -> by now destruct M as [-> | ->]. rewrite T. cbn. apply String.eqb_neq in N1, N2. now rewrite N1, N2.
Qed.
Print Assumptions C150_refused.

Example C150_example : exists g f, qr_ok 3 (f 3%nat) /\ (exists B, detrend g f [[Some 1; Some 2; Some 4]]%R [("type", "linear")] = Ok B /\ on_rows without_trend [[Some 1; Some 2; Some 4]]%R B) /\
  (exists B, detrend g f [[Some 1; None; Some 4]]%R [("type", "constant")] = Ok B /\ on_rows without_mean [[Some 1; None; Some 4]]%R B) /\
  has_a_sample [[Some 1; None; Some 4]]%R /\ detrend g f [[Some 1; None; Some 4]]%R [("method", "scipy"); ("type", "linear")] = Raise TypeError /\
  (exists B, detrend_scipy g [[Some 1; None; Some 4]]%R [("type", "c")] = Ok B /\ on_rows without_mean [[Some 1; None; Some 4]]%R B).
Proof.
  destruct (qr_exists 3 ltac:(lia)) as [q Q]. exists (fun _ x => map (fun v => v - mean x)%R x), (fun _ => q). split; [exact Q|].
  assert (H : has_a_sample [[Some 1; None; Some 4]]%R) by (exists [Some 1; None; Some 4]%R, 1%R; cbn; tauto).
  split; [|split; [|split; [exact H|split]]].
  - apply (C150_linear_partial _ (fun _ => q) _ 3); [lia|exact Q| |now left|now right]. intros d [<-|[]]. split; [reflexivity|]. intros v I. cbn in I. destruct I as [<-|[<-|[<-|[]]]]; discriminate.
  - apply C150_constant; [now left|reflexivity].
  - reflexivity || now apply (C150_scipy_refuted _ _ _ [("method", "scipy"); ("type", "linear")]).
  - destruct (C150_by_name without_mean (fun _ x => map (fun v => v - mean x)%R x) [[Some 1; None; Some 4]]%R [("type", "c")]) as (B & E & X & _); [tauto| |exists B; auto]. intros x. split; [apply demean_without|apply map_length].
Qed.
