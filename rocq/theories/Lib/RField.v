(** The real numbers of the standard library as a field of mathcomp. *)
From Coq Require Import Reals Lra ClassicalEpsilon.
From mathcomp Require Import all_ssreflect all_algebra.
Local Open Scope R_scope.

Definition eqr (x y : R) : bool := if Req_EM_T x y then true else false.
Lemma eqrP : Equality.axiom eqr.
Proof. move=> x y. rewrite /eqr. by case: Req_EM_T => E; constructor. Qed.
Definition R_eqMixin := EqMixin eqrP.
Canonical R_eqType := EqType R R_eqMixin.

Definition pick (P : pred R) (n : nat) : option R :=
  match excluded_middle_informative (exists x, P x) with left h => Some (proj1_sig (constructive_indefinite_description _ h)) | right _ => None end.
Lemma pick_some P n x : pick P n = Some x -> P x.
Proof. rewrite /pick. case: excluded_middle_informative => [h|//] [<-]. by case: constructive_indefinite_description. Qed.
Lemma pick_ex (P : pred R) : (exists x : R, P x) -> exists n, pick P n.
Proof. move=> h. exists O. rewrite /pick. by case: excluded_middle_informative. Qed.
Lemma pick_ext (P Q : pred R) : P =1 Q -> pick P =1 pick Q.
Proof. move=> /FunctionalExtensionality.functional_extensionality -> n. by []. Qed.
Definition R_choiceMixin : choiceMixin R := Choice.Mixin pick_some pick_ex pick_ext.
Canonical R_choiceType := ChoiceType R R_choiceMixin.

Lemma addA : associative Rplus. Proof. by move=> x y z; rewrite Rplus_assoc. Qed.
Lemma addC : commutative Rplus. Proof. exact: Rplus_comm. Qed.
Lemma add0 : left_id 0 Rplus. Proof. exact: Rplus_0_l. Qed.
Lemma addN : left_inverse 0 Ropp Rplus. Proof. exact: Rplus_opp_l. Qed.
Definition R_zmodMixin := ZmodMixin addA addC add0 addN.
Canonical R_zmodType := ZmodType R R_zmodMixin.
Lemma mulA : associative Rmult. Proof. by move=> x y z; rewrite Rmult_assoc. Qed.
Lemma mulC : commutative Rmult. Proof. exact: Rmult_comm. Qed.
Lemma mul1 : left_id 1 Rmult. Proof. exact: Rmult_1_l. Qed.
Lemma mulD : left_distributive Rmult Rplus. Proof. exact: Rmult_plus_distr_r. Qed.
Lemma one0 : 1 != 0 :> R. Proof. apply/eqP. exact: R1_neq_R0. Qed.
Definition R_ringMixin := ComRingMixin mulA mulC mul1 mulD one0.
Canonical R_ringType := RingType R R_ringMixin.
Canonical R_comRingType := ComRingType R mulC.

Definition invr (x : R) : R := if x == 0 then 0 else / x.
Lemma inv_mul : GRing.Field.axiom invr.
Proof. move=> x N. rewrite /invr (negbTE N). apply: Rinv_l. exact/eqP. Qed.
Lemma inv_0 : invr 0 = 0. Proof. by rewrite /invr eqxx. Qed.
Definition R_unitMixin := FieldUnitMixin inv_mul inv_0.
Canonical R_unitRingType := UnitRingType R R_unitMixin.
Canonical R_comUnitRingType := [comUnitRingType of R].
Lemma field_axiom : GRing.Field.mixin_of R_unitRingType. Proof. by []. Qed.
Definition R_idomainMixin := FieldIdomainMixin field_axiom.
Canonical R_idomainType := IdomainType R R_idomainMixin.
Canonical R_fieldType := FieldType R field_axiom.

Definition ler (x y : R) : bool := if Rle_dec x y then true else false.
Definition ltr (x y : R) : bool := if Rlt_dec x y then true else false.
Lemma lerP x y : reflect (x <= y) (ler x y). Proof. rewrite /ler. by case: Rle_dec => E; constructor. Qed.
Lemma ltrP x y : reflect (x < y) (ltr x y). Proof. rewrite /ltr. by case: Rlt_dec => E; constructor. Qed.
Lemma le0_add x y : ler 0 x -> ler 0 y -> ler 0 (x + y). Proof. move=> /lerP ? /lerP ?; apply/lerP; lra. Qed.
Lemma le0_mul x y : ler 0 x -> ler 0 y -> ler 0 (x * y). Proof. move=> /lerP ? /lerP ?; apply/lerP; exact: Rmult_le_pos. Qed.
Lemma le0_anti x : ler 0 x -> ler x 0 -> x = 0. Proof. move=> /lerP ? /lerP ?; lra. Qed.
Lemma sub_ge0 x y : ler 0 (y - x) = ler x y. Proof. apply/lerP/lerP; lra. Qed.
Lemma le0_total x : ler 0 x || ler x 0. Proof. apply/orP. case: (Rle_dec 0 x) => H; [left|right]; apply/lerP; lra. Qed.
Lemma ge0_norm x : ler 0 x -> Rabs x = x. Proof. move=> /lerP ?. apply: Rabs_pos_eq. by []. Qed.
Lemma lt_def x y : ltr x y = (y != x) && ler x y.
Proof.
  apply/ltrP/andP => [L|[/eqP N /lerP L]]; last by lra.
  split; [apply/eqP; lra|apply/lerP; lra].
Qed.
Definition R_leMixin : realLeMixin R_idomainType :=
  RealLeMixin (le := ler) (lt := ltr) (norm := Rabs) le0_add le0_mul le0_anti sub_ge0 le0_total Rabs_Ropp ge0_norm lt_def.
Definition Rf : realFieldType := LeRealFieldOfField R_leMixin.
