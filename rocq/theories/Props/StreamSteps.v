(** The functions of the options that preprocess streams, and the polarity of vertical components. *)
From Coq Require Import QArith.
From Verif Require Import Lib.Base Lib.Str Lib.StrFacts Model.StreamSteps Spec.StreamStepsSpec Proofs.StreamStepsFacts.
Local Open Scope string_scope.

(** ** C137: vertical components with reversed polarity are flipped, all other traces stay *)
(** If the orientation of all vertical channels is known. *)
Theorem C137_flipped_partial : forall st, (forall c, In c st -> vertical (c_channel c) -> c_dip c <> None) ->
  Forall2 (fun c c' => c_channel c' = c_channel c /\
    ((vertical (c_channel c) /\ exists d, c_dip c = Some d /\ (0 < d)%Q) -> c_data c' = map (fun v => v * -1)%Q (c_data c)) /\
    (~ (vertical (c_channel c) /\ exists d, c_dip c = Some d /\ (0 < d)%Q) -> c' = c)) st (correct_polarity st).
Proof.
  intros st H. rewrite polarity_all by (intros c I V; apply H; [exact I|now apply vertical_iff]). clear H. induction st as [|c r IH]; constructor; [|exact IH]. clear IH.
  rewrite <- vertical_iff.
  destruct (is_vertical c) eqn:V; cbn [andb]; [|split; [reflexivity|]; split; [intros [E _]; discriminate|reflexivity]].
  destruct (c_dip c) as [d|] eqn:D; [|split; [reflexivity|]; split; [intros (_ & d & E & _); discriminate|reflexivity]].
  destruct (Qle_bool d 0) eqn:Q; cbn [negb].
  - split; [reflexivity|]. split; [|reflexivity]. intros (_ & d' & E & P). injection E as <-. apply Qle_bool_iff in Q. exfalso. eapply Qlt_not_le; eassumption.
  - split; [reflexivity|]. split; [reflexivity|]. intros N. exfalso. apply N. split; [reflexivity|]. exists d. split; [reflexivity|].
    apply Qnot_le_lt. intros P. apply Qle_bool_iff in P. congruence.
Qed.
Print Assumptions C137_flipped_partial.
Example C137_example : correct_polarity [mkChan "HHE" None [1; 2]; mkChan "HHZ" (Some 90) [3; 4]; mkChan "BHZ" (Some (-90)) [5]] =
  [mkChan "HHE" None [1; 2]; mkChan "HHZ" (Some 90) [3 * -1; 4 * -1]; mkChan "BHZ" (Some (-90)) [5]]%Q.
Proof. reflexivity. Qed.
(** A vertical channel whose orientation is unknown: all traces after it keep their polarity, whatever it is. *)
Theorem C137_unknown_refuted : forall l1 c l2, (forall d, In d l1 -> vertical (c_channel d) -> c_dip d <> None) -> vertical (c_channel c) -> c_dip c = None ->
  correct_polarity (l1 ++ c :: l2) = (correct_polarity l1 ++ c :: l2)%list.
Proof. intros l1 c l2 H V. apply polarity_stops; [intros d I W; apply H; [exact I|now apply vertical_iff]|now apply vertical_iff]. Qed.
Print Assumptions C137_unknown_refuted.
Example C137_unknown_example : let st := [mkChan "HHZ" None [1]; mkChan "HHZ" (Some 90) [3]]%Q in correct_polarity st = st.
Proof. reflexivity. Qed.

(** ** C138: the functions of the list are applied one after the other *)
(** Functions whose path does not contain "detrend_st" or "cos_taper_st". *)
Theorem C138_in_order_partial : forall (St Args : Type) import (steps : list (string * Args)) (x y : St), (forall s a, In (s, a) steps -> ~ mentions s) ->
  (run_steps import steps x = Ok y <-> applied import steps x y).
Proof. intros St Args. exact run_applied. Qed.
Print Assumptions C138_in_order_partial.
(** A function that cannot be imported or that fails: its exception, and no function after it is run. *)
Theorem C138_fails : forall (St Args : Type) import l1 s (a : Args) l2 (x y : St) e, (forall s' a', In (s', a') (l1 ++ [(s, a)]) -> ~ mentions s') -> applied import l1 x y ->
  (func_from_str import s = Raise e \/ exists f, names import s f /\ f y a = Raise e) -> run_steps import (l1 ++ (s, a) :: l2) x = Raise e.
Proof. intros St Args. exact run_fails. Qed.
Print Assumptions C138_fails.
(** The function that is found is the one the path says; a name without a module is refused. *)
Theorem C138_import : forall (St Args : Type) (import : string -> result (string -> result (St -> Args -> result St))) s,
  (forall f, func_from_str import s = Ok f <-> names import s f) /\ (has_char "." s = false -> func_from_str import s = Raise ValueError).
Proof. intros St Args import s. split; [apply func_names|apply func_plain]. Qed.
Print Assumptions C138_import.
(** a package with three functions *)
Definition lab : string -> result (string -> result (list Z -> Z -> result (list Z))) := fun m =>
  if String.eqb m "lab.noise"
  then Ok (fun n => if String.eqb n "add" then Ok (fun l a => Ok (map (Z.add a) l))
                    else if String.eqb n "detrend_stack" then Ok (fun l a => Ok (map (fun v => v - a)%Z l))
                    else if String.eqb n "refuse" then Ok (fun l a => Raise TypeError) else Raise AttributeError)
  else Raise OSError.
Example C138_example : run_steps lab [("lab.noise.add", 3%Z); ("lab.noise.add", 4%Z)] [1; 2]%Z = Ok [8; 9]%Z /\ applied lab [("lab.noise.add", 3%Z); ("lab.noise.add", 4%Z)] [1; 2]%Z [8; 9]%Z /\
  run_steps lab [("lab.noise.add", 3%Z); ("lab.noise.refuse", 4%Z); ("lab.noise.add", 3%Z)] [1; 2]%Z = Raise TypeError /\ run_steps lab [("add", 3%Z)] [1; 2]%Z = Raise ValueError.
Proof.
  split; [reflexivity|]. split; [|split; reflexivity]. apply run_applied; [|reflexivity]. intros s a I. rewrite <- mentions_iff.
  cbn in I. destruct I as [I|[I|[]]]; injection I as <- _; discriminate.
Qed.
(** A function of the user whose path contains one of the two names is left out without an error. *)
Theorem C138_left_out_refuted : forall (St Args : Type) import s (a : Args) l (x : St), mentions s -> run_steps import ((s, a) :: l) x = run_steps import l x.
Proof. intros St Args import s a l x M. cbn [run_steps]. apply mentions_iff in M. now rewrite M. Qed.
Print Assumptions C138_left_out_refuted.
Example C138_left_out_example : names lab "lab.noise.detrend_stack" (fun l a => Ok (map (fun v => v - a)%Z l)) /\ mentions "lab.noise.detrend_stack" /\
  run_steps lab [("lab.noise.detrend_stack", 5%Z)] [1; 2]%Z = Ok [1; 2]%Z.
Proof.
  split; [apply func_names; reflexivity|]. split; [|reflexivity]. exists "lab.noise.", "ack". now left.
Qed.
