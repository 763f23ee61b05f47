(** Histories of calls of the grid; order of the velocity changes. *)
From Coq Require Import Reals Lra List ZArith Permutation FinFun.
From mathcomp Require Import all_ssreflect all_fingroup all_algebra.
From Verif Require Import Lib.Base Lib.RField Model.Kernel Model.Inversion Model.GridInversion Model.DVGrid Model.GridCalls Spec.GridCallsSpec Proofs.KernelFacts Proofs.DVGridFacts.
Set Implicit Arguments.
Unset Strict Implicit.

(** ** inversions do not depend on the order of the data *)
Section Perm.
  Import GRing.Theory.
  Local Open Scope ring_scope.
  Variables (F : realFieldType) (n m : nat) (s : 'S_n).
  Let P : 'M[F]_n := perm_mx s.
  Lemma PV : P *m P^T = 1%:M. Proof. rewrite /P tr_perm_mx -perm_mxM mulgV perm_mx1 //. Qed.
  Lemma VP : P^T *m P = 1%:M. Proof. rewrite /P tr_perm_mx -perm_mxM mulVg perm_mx1 //. Qed.
  Lemma Punit : P \in unitmx. Proof. exact: unitmx_perm. Qed.
  Lemma invP : invmx P = P^T.
  Proof. rewrite -[RHS]mulmx1 -(mulmxV Punit) mulmxA VP mul1mx //. Qed.
  Lemma linv_perm (A : 'M[F]_n) : linv (P *m A *m P^T) = omap (fun B => P *m B *m P^T) (linv A).
  Proof.
    rewrite /linv !unitmx_mul unitmx_tr Punit /= andbT. case: ifP => //= U. congr Some.
    have U1 : P *m A \in unitmx by rewrite unitmx_mul Punit U.
    have U2 : P *m A *m P^T \in unitmx by rewrite unitmx_mul unitmx_tr Punit U1.
    have H : P *m A *m P^T *m (P *m invmx A *m P^T) = 1%:M.
    { rewrite !mulmxA -(mulmxA _ P^T P) VP mulmx1 -(mulmxA P A) (mulmxV U) mulmx1. exact: PV. }
    move: H U2. set X := P *m A *m P^T. set Y := P *m invmx A *m P^T. move=> H U2.
    rewrite -[LHS]mulmx1 -H mulmxA (mulVmx U2) mul1mx //.
  Qed.
  Lemma diag_perm (v : 'rV[F]_n) : diag_mx (col_perm s v) = P *m diag_mx v *m P^T.
  Proof.
    rewrite /P -row_permE tr_perm_mx -col_permE.
    apply/matrixP=> i j. rewrite !mxE (eqtype.inj_eq perm_inj) //.
  Qed.
  Lemma b_perm (G : 'M[F]_(n, m)) cm v : factor_b (row_perm s G) cm (data_covariance (col_perm s v)) = omap (fun B => P *m B *m P^T) (factor_b G cm (data_covariance v)).
  Proof.
    rewrite /factor_b /data_covariance diag_perm row_permE -/P -linv_perm. congr linv.
    rewrite trmx_mul !mulmxA mulmxDr mulmxDl !mulmxA //.
  Qed.
  Lemma dv_perm (G : 'M[F]_(n, m)) cm v (d : 'cV[F]_n) : compute_dv_grid (row_perm s G) cm (col_perm s v) (row_perm s d) = compute_dv_grid G cm v d.
  Proof.
    rewrite /compute_dv_grid b_perm. case: (factor_b _ _ _) => //= b. congr Some.
    rewrite /factor_a !row_permE -/P trmx_mul !mulmxA. rewrite -(mulmxA _ P^T P) VP mulmx1 -(mulmxA _ P^T P) VP mulmx1 //.
  Qed.
  Lemma res_perm (G : 'M[F]_(n, m)) cm v : compute_resolution (row_perm s G) cm (col_perm s v) = compute_resolution G cm v.
  Proof.
    rewrite /compute_resolution b_perm. case: (factor_b _ _ _) => //= b. congr Some. apply/matrixP=> i j. rewrite !mxE. apply: eq_bigr => k _.
    rewrite /factor_a !row_permE -/P trmx_mul !mulmxA. rewrite -(mulmxA _ P^T P) VP mulmx1 -(mulmxA _ P^T P) VP mulmx1 //.
  Qed.
  Lemma post_perm (G : 'M[F]_(n, m)) cm v : posterior_covariance (row_perm s G) cm (col_perm s v) = posterior_covariance G cm v.
  Proof.
    rewrite /posterior_covariance /data_covariance diag_perm linv_perm. case: (linv (diag_mx v)) => //= b. case: (linv cm) => // icm. congr linv. congr (_ + _).
    rewrite row_permE -/P trmx_mul !mulmxA. rewrite -(mulmxA _ P^T P) VP mulmx1 -(mulmxA _ P^T P) VP mulmx1 //.
  Qed.
End Perm.

(** ** lists and permutations *)
Lemma perm_of (T : Type) (d : T) (l l' : list T) : Permutation l l' ->
  exists s : 'S_(length l), forall i : 'I_(length l), List.nth i l' d = List.nth (s i) l d.
Proof.
  move=> /(Permutation_nth l l' d) /= [L [f [B [I H]]]].
  have Bf (i : 'I_(length l)) : (f i < length l)%nat by apply/ltP; apply: B; apply/ltP.
  pose h (i : 'I_(length l)) := Ordinal (Bf i).
  have hI : injective h.
  { move=> i j /(congr1 val) /= E. apply: val_inj => /=. apply: I E; exact/ltP. }
  exists (perm hI) => i. rewrite permE /=. apply: H. exact/ltP.
Qed.
Section Lists.
  Variables (m : nat) (T : Type) (row : T -> list R) (var val : T -> R) (l l' : list T).
  Hypothesis PL : Permutation l l'.
  Lemma shuffled n : n = length l -> exists s : 'S_n,
    matrix_of n m (List.map row l') = row_perm s (matrix_of n m (List.map row l)) /\
    row_of n (List.map var l') = col_perm s (row_of n (List.map var l)) /\
    column_of n (List.map val l') = row_perm s (column_of n (List.map val l)).
  Proof.
    move=> ->. move: PL. case: l => [|d r] PL'; first by exists 1%g; repeat split; apply/matrixP; first [by move=> [[]]|by move=> ? [[]]].
    have [s H] := perm_of d PL'. have L := Permutation_length PL'. exists s.
    have N (A : Type) (f : T -> A) (a : A) (i : 'I_(length (d :: r))) : List.nth i (List.map f l') a = List.nth (s i) (List.map f (d :: r)) a.
    { rewrite (nth_indep _ a (f d)); last by rewrite map_length -L; apply/ltP.
      rewrite (map_nth f l' d) H -(map_nth f (d :: r) d). apply: nth_indep. rewrite map_length; exact/ltP. }
    split; first by apply/matrixP=> i j; rewrite !mxE N.
    split; apply/matrixP=> i j; rewrite !mxE N //.
  Qed.
End Lists.

(** ** histories *)
Definition inv g (s : gstate g) : Prop := cache_ok g (s_cache s) /\ (s_dist s = None \/ s_dist s = Some (distances g)).
(** the calls without anything kept *)
Definition prepared g (a : args) : result (info * ((R * R) * R * R) * list (list R)) :=
  bind (snd (extract nil (a_dvs a) (a_utc a))) (fun i => bind (settings a i) (fun w =>
  bind (mapM (kernel_row g (middle w.1.1.1 w.1.1.2)) (i_pairs i)) (fun ks => Ok (i, w, ks)))).
Definition plain g (c : call) : result (out (size_of g)) :=
  match c with
  | Invert a => bind (prepared g a) (fun '(i, w, ks) => solve i w ks (fun n G v vals => OModel (compute_dv_grid G (cm_from a (distances g)) v vals)))
  | Resolution a => bind (prepared g a) (fun '(i, w, ks) => solve i w ks (fun n G v _ => OResolution (compute_resolution G (cm_from a (distances g)) v)))
  | Posterior a => bind (prepared g a) (fun '(i, w, ks) => solve i w ks (fun n G v _ => OCovariance (posterior_covariance G (cm_from a (distances g)) v)))
  | Forward x a =>
      if negb (length x == size_of g) then Raise ValueError else
      bind (snd (extract nil (a_dvs a) (a_utc a))) (fun i =>
      match or_tw (a_tw a) (i_tw i) with
      | None => Raise TypeError
      | Some tw => bind (mapM (kernel_row g (middle tw.1 tw.2)) (i_pairs i)) (fun ks => Ok (OValues (List.map (fun k => dotp k x) ks)))
      end)
  end.
Lemma get_dist_ok g (s : gstate g) : inv s -> snd (get_dist s) = distances g /\ inv (fst (get_dist s)) /\
  s_stats (fst (get_dist s)) = s_stats s /\ s_vel (fst (get_dist s)) = s_vel s.
Proof.
  move=> [C D]. rewrite /get_dist. case: D => E; rewrite E /=; last by (repeat split=> //; right).
  repeat split=> //. by right.
Qed.
Lemma get_info_ok g (s : gstate g) a : inv s -> snd (get_info s a) = snd (extract nil (a_dvs a) (a_utc a)) /\ inv (fst (get_info s a)) /\
  s_stats (fst (get_info s a)) = fst (extract (s_stats s) (a_dvs a) (a_utc a)) /\ s_vel (fst (get_info s a)) = s_vel s.
Proof.
  move=> [C D]. rewrite /get_info. have := extract_result (s_stats s) nil (a_dvs a) (a_utc a).
  case: (extract (s_stats s) (a_dvs a) (a_utc a)) => st r /= ->. repeat split=> //.
Qed.
Lemma get_kernels_ok g (s : gstate g) i tw : inv s -> snd (get_kernels s i tw) = mapM (kernel_row g (middle tw.1 tw.2)) (i_pairs i) /\
  inv (fst (get_kernels s i tw)) /\ s_stats (fst (get_kernels s i tw)) = s_stats s /\ s_vel (fst (get_kernels s i tw)) = s_vel s.
Proof.
  move=> [C D]. rewrite /get_kernels. have := kernels_ok g (middle tw.1 tw.2) (i_pairs i) _ C.
  case: (kernels _ _ _ _) => c r /= [-> C']. repeat split=> //.
Qed.
Lemma prepare_ok g (s : gstate g) a : inv s -> snd (prepare s a) = prepared g a /\ inv (fst (prepare s a)) /\
  s_stats (fst (prepare s a)) = fst (extract (s_stats s) (a_dvs a) (a_utc a)) /\ s_vel (fst (prepare s a)) = s_vel s.
Proof.
  move=> I. rewrite /prepare /prepared. have [E [J [S V]]] := get_info_ok a I.
  case: (get_info s a) E J S V => s1 ri /= -> J S V. case: (snd (extract nil _ _)) => [i|e] //=.
  case: (settings a i) => [[[tw f0] f1]|e] //=. have [E [K [S' V']]] := get_kernels_ok i tw J.
  case: (get_kernels s1 i tw) E K S' V' => s2 rk /= -> K -> ->. repeat split=> //; apply K.
Qed.
Definition last_model m (r : result (out m)) (old : option 'cV[Rf]_m) : option 'cV[Rf]_m :=
  match r with Ok (OModel (Some x)) => Some x | _ => old end.
Lemma solve_shape m i w ks f (r : out m) : solve (m := m) i w ks f = Ok r -> exists n G v d, r = f n G v d.
Proof. rewrite /solve. case: w => [[tw f0] f1]. case: (variances _ _ _ _ _) => //= vs [<-]. by do 4 eexists. Qed.
Lemma run_ok g (s : gstate g) c : inv s -> snd (run s c) = plain g c /\ inv (fst (run s c)) /\
  s_vel (fst (run s c)) = last_model (plain g c) (s_vel s).
Proof.
  move=> I. case: c => [a|a|a|x a] /=.
  - have [E [J [S V]]] := prepare_ok a I. case: (prepare s a) E J S V => s1 r /= -> J S V.
    case: (prepared g a) => [[[i w] ks]|e] //=. have [E [K [S' V']]] := get_dist_ok J.
    case: (get_dist s1) E K S' V' => s2 d /= -> K S' V'.
    case E: (solve _ _ _ _) => [o|e] /=; last by rewrite V'. have [n [G [v [y Y]]]] := solve_shape E. rewrite Y.
    case: (compute_dv_grid _ _ _ _) => [z|] /=; last by rewrite V'. repeat split=> //; apply K.
  - have [E [J [S V]]] := get_dist_ok I. case: (get_dist s) E J S V => s1 d /= -> J S V.
    have [E [K [S' V']]] := prepare_ok a J. case: (prepare s1 a) E K S' V' => s2 r /= -> K S' V'. split=> //. split=> //. rewrite V' V.
    case: (prepared g a) => [[[i w] ks]|e] //=. case E: (solve _ _ _ _) => [o|e] //=. by have [n [G [v [y ->]]]] := solve_shape E.
  - have [E [J [S V]]] := get_dist_ok I. case: (get_dist s) E J S V => s1 d /= -> J S V.
    have [E [K [S' V']]] := prepare_ok a J. case: (prepare s1 a) E K S' V' => s2 r /= -> K S' V'. split=> //. split=> //. rewrite V' V.
    case: (prepared g a) => [[[i w] ks]|e] //=. case E: (solve _ _ _ _) => [o|e] //=. by have [n [G [v [y ->]]]] := solve_shape E.
  - case: eqP => //= _. have [E [J [S V]]] := get_info_ok a I. case: (get_info s a) E J S V => s1 ri /= -> J S V.
    case: (snd (extract nil _ _)) => [i|e] //=. case: (or_tw _ _) => [tw|] //=. have [E [K [S' V']]] := get_kernels_ok i tw J.
    case: (get_kernels s1 i tw) E K S' V' => s2 rk /= -> K S' V'. split=> //. split=> //. rewrite V' V. by case: (mapM _ _).
Qed.
Lemma new_inv g : inv (new_grid g). Proof. split; [by []|by left]. Qed.
Lemma runs_inv g cs : forall s : gstate g, inv s -> inv (runs s cs).
Proof. elim: cs => //= c cs IH s I. apply: IH. by have [_ [J _]] := run_ok c I. Qed.
Lemma history g cs c : snd (run (runs (new_grid g) cs) c) = snd (run (new_grid g) c).
Proof. have [-> _] := run_ok c (runs_inv cs (new_inv g)). by have [-> _] := run_ok c (new_inv g). Qed.
(** stations *)
Lemma run_stats g (s : gstate g) c : inv s -> (s_stats (fst (run s c)) = s_stats s /\ plain g c = Raise ValueError) \/ s_stats (fst (run s c)) = fst (extract (s_stats s) (a_dvs (args_of c)) (a_utc (args_of c))).
Proof.
  move=> I. case: c => [a|a|a|x a] /=.
  - right. have [E [J [S V]]] := prepare_ok a I. case: (prepare s a) E J S V => s1 r /= -> J S V.
    case: (prepared g a) => [[[i w] ks]|e] //=. have [E [K [S' V']]] := get_dist_ok J.
    case: (get_dist s1) E K S' V' => s2 d /= -> K S' V'. rewrite -S -S'. by case: (solve _ _ _ _) => [[[z|]|||]|].
  - right. have [E [J [S V]]] := get_dist_ok I. case: (get_dist s) E J S V => s1 d /= _ J S V.
    have [E [K [S' V']]] := prepare_ok a J. case: (prepare s1 a) E K S' V' => s2 r /= _ K S' V'. by rewrite S' S.
  - right. have [E [J [S V]]] := get_dist_ok I. case: (get_dist s) E J S V => s1 d /= _ J S V.
    have [E [K [S' V']]] := prepare_ok a J. case: (prepare s1 a) E K S' V' => s2 r /= _ K S' V'. by rewrite S' S.
  - case: eqP => /= _; last by left. right. have [E [J [S V]]] := get_info_ok a I. case: (get_info s a) E J S V => s1 ri /= -> J S V.
    case: (snd (extract nil _ _)) => [i|e] //=. case: (or_tw _ _) => [tw|] //=. have [E [K [S' V']]] := get_kernels_ok i tw J.
    case: (get_kernels s1 i tw) E K S' V' => s2 rk /= _ K S' V'. by rewrite S' S.
Qed.
Lemma plain_info g c o : plain g c = Ok o -> exists i, snd (extract nil (a_dvs (args_of c)) (a_utc (args_of c))) = Ok i.
Proof.
  case: c => [a|a|a|x a] /=; rewrite /prepared; try (case: (snd (extract nil _ _)) => [i|e] //= _; by exists i).
  case: ifP => //= _. case: (snd (extract nil _ _)) => [i|e] //= _; by exists i.
Qed.
Lemma runs_nodup g cs : forall s : gstate g, inv s -> List.NoDup (s_stats s) -> List.NoDup (s_stats (runs s cs)).
Proof.
  elim: cs => //= c cs IH s I N. have [_ [J _]] := run_ok c I. apply: IH J _.
  case: (run_stats c I) => [[-> _]|->]; first by []. exact: extract_nodup.
Qed.
Lemma runs_only g cs p : forall s : gstate g, inv s -> In p (s_stats (runs s cs)) -> In p (s_stats s) \/ exists c, In c cs /\ station_of (a_utc (args_of c)) (a_dvs (args_of c)) p.
Proof.
  elim: cs => [|c cs IH] s I /= H; first by left. have [_ [J _]] := run_ok c I. case: (IH _ J H) => [K|[c' [M K]]]; last by right; exists c'; split; [right|].
  case: (run_stats c I) => [[E _]|E]; rewrite E in K; first by left. case: (extract_only _ _ _ _ K) => K'; [by left|right; exists c; by split; [left|]].
Qed.
Lemma extract_keeps st dvs utc p : In p st -> In p (fst (extract st dvs utc)).
Proof.
  rewrite /extract /add_stations. case: (List.rev (used utc dvs)) => [|[l x] r] //.
  case: (existsb outside _) => //. case: (existsb outside _) => /= H; rewrite ?add_new_in; tauto.
Qed.
Lemma runs_keeps g cs p : forall s : gstate g, inv s -> In p (s_stats s) -> In p (s_stats (runs s cs)).
Proof.
  elim: cs => [|c cs IH] s I //= H. have [_ [J _]] := run_ok c I. apply: IH J _.
  case: (run_stats c I) => [[-> _]|->]; first by []. exact: extract_keeps.
Qed.
Lemma runs_all g cs c p o : forall s : gstate g, inv s -> In c cs -> plain g c = Ok o -> station_of (a_utc (args_of c)) (a_dvs (args_of c)) p -> In p (s_stats (runs s cs)).
Proof.
  elim: cs => [|c' cs IH] s I //= H O S. have [_ [J _]] := run_ok c' I. case: H => [E|H]; last exact: IH J H O S.
  subst c'. apply: runs_keeps J _. have [i Ei] := plain_info O.
  have Es : s_stats (fst (run s c)) = fst (extract (s_stats s) (a_dvs (args_of c)) (a_utc (args_of c))).
  { case: (run_stats c I) => // [[_ E]]. by rewrite O in E. }
  rewrite Es. apply/(extract_all _ _ _ i); first by rewrite -Ei; exact: extract_result. by right.
Qed.

(** ** order *)
Lemma settings_of a us d : settings a (info_of us d) =
  match setting_of a d with (Some tw, Some f0, Some f1) => Ok (tw, f0, f1) | _ => Raise AttributeError end.
Proof.
  rewrite /settings /setting_of /info_of /=. case: (d_proc d) => [[[[s l] f0] f1]|] //=. by case: (a_tw a).
Qed.
Definition row_for g (w : (R * R) * R * R) (u : dvr * (R * R)) : list R :=
  match kernel_row g (middle w.1.1.1 w.1.1.2) (d_s0 (fst u), d_s1 (fst u)) with Ok k => k | Raise _ => nil end.
Definition var_for (w : (R * R) * R * R) (u : dvr * (R * R)) : R :=
  match data_variance (snd (snd u)) (Rminus w.2 w.1.2) w.1.1.1 w.1.1.2 (Rdiv (Rplus w.2 w.1.2) 2) with Ok s => pow s 2 | Raise _ => R0 end.
Lemma solve_perm m g us us' d d' w ks ks' (f : forall n, 'M[Rf]_(n, m) -> 'rV[Rf]_n -> 'cV[Rf]_n -> out m) o :
  (forall n (s : 'S_n) (G : 'M[Rf]_(n, m)) v y, f n (row_perm s G) (col_perm s v) (row_perm s y) = f n G v y) ->
  Permutation us us' ->
  ks = List.map (row_for g w) us -> ks' = List.map (row_for g w) us' ->
  solve (info_of us d) w ks f = Ok o -> solve (info_of us' d') w ks' f = Ok o.
Proof.
  move=> F P -> ->. case: w => [[tw f0] f1]. rewrite /solve /info_of /=. case V: (variances _ _ _ _ _) => [vs|] //= E.
  have [vs' V'] := mapM_perm _ _ _ _ (Permutation_map (fun u => snd (snd u)) P) V. rewrite /variances in V V' *. rewrite V' /=.
  have := mapM_unok R0 _ _ _ V. have := mapM_unok R0 _ _ _ V'. rewrite !map_map => -> Ev. rewrite Ev in E. rewrite -E. congr Ok.
  rewrite !map_length -(Permutation_length P). have [s [A [B C]]] := @shuffled m _ (row_for g (tw, f0, f1)) (var_for (tw, f0, f1)) (fun u => fst (snd u)) us us' P _ erefl.
  have X l : List.map (fun x : dvr * (R * R) => match (do s0 <- data_variance (snd (snd x)) (Rminus f1 f0) (fst tw) (snd tw) (Rdiv (Rplus f1 f0) 2); Ok (pow s0 2)) with Ok y => y | Raise _ => R0 end) l = List.map (var_for (tw, f0, f1)) l.
  { apply: map_ext => u. rewrite /var_for /=. by case: (data_variance _ _ _ _ _). }
  rewrite !X A B C. exact: F.
Qed.
Lemma uniform_used a d d' p p' : uniform a -> In (d, p) (used (a_utc a) (a_dvs a)) -> In (d', p') (used (a_utc a) (a_dvs a)) -> setting_of a d = setting_of a d'.
Proof.
  move=> U /used_in [/= I E] /used_in [/= I' E']. apply: U => //; rewrite /usable ?E ?E' //.
Qed.
Lemma prepared_iff g a i w ks : prepared g a = Ok (i, w, ks) <->
  snd (extract nil (a_dvs a) (a_utc a)) = Ok i /\ settings a i = Ok w /\ mapM (kernel_row g (middle w.1.1.1 w.1.1.2)) (i_pairs i) = Ok ks.
Proof.
  rewrite /prepared. split.
  - case: (snd (extract nil _ _)) => [j|] //=. case S: (settings a j) => [v|] //=. case K: (mapM _ _) => [l|] //= [<- <- <-]. by split.
  - move=> [-> [/= -> /= ->]]. by [].
Qed.
Lemma prepared_perm g a dvs' i w ks : Permutation (a_dvs a) dvs' -> uniform a -> prepared g a = Ok (i, w, ks) ->
  exists d d' ks', let us := used (a_utc a) (a_dvs a) in let us' := used (a_utc a) dvs' in
    Permutation us us' /\ i = info_of us d /\ prepared g (with_dvs a dvs') = Ok (info_of us' d', w, ks') /\
    ks = List.map (row_for g w) us /\ ks' = List.map (row_for g w) us'.
Proof.
  move=> P U /prepared_iff [E [S K]]. have [d [p [us [Us [O I]]]]] := proj1 (extract_iff _ _ _ _) E.
  have PU := used_perm (a_utc a) _ _ P. have NE : used (a_utc a) dvs' <> nil.
  { move=> N. rewrite N Us in PU. have := Permutation_length PU. rewrite app_length /=. lia. }
  have [us' [[d' p'] Us']] := exists_last NE.
  have IN : In (d', p') (used (a_utc a) (a_dvs a)) by apply: (Permutation_in _ (Permutation_sym PU)); rewrite Us'; apply: in_or_app; right; left.
  have IN0 : In (d, p) (used (a_utc a) (a_dvs a)) by rewrite Us; apply: in_or_app; right; left.
  have [ks' K'] : exists ks', mapM (kernel_row g (middle w.1.1.1 w.1.1.2)) (i_pairs (info_of (used (a_utc a) dvs') d')) = Ok ks'.
  { apply: (mapM_perm _ _ _ _ _ K). rewrite I /info_of /=. exact: Permutation_map. }
  exists d, d', ks'. split=> //. split=> //. split; [|split].
  - apply/prepared_iff. split; [|split=> //].
    + apply/extract_iff. exists d', p', us'. split=> //. split=> // q [u [J Q]]. apply: O. exists u. split=> //. apply: Permutation_in J. exact: Permutation_sym.
    + rewrite settings_of. rewrite I settings_of in S. rewrite (uniform_used U IN0 IN) in S. exact: S.
  - rewrite I /info_of /= in K. rewrite (mapM_unok nil _ _ _ K) map_map //.
  - rewrite /info_of /= in K'. rewrite (mapM_unok nil _ _ _ K') map_map //.
Qed.
Lemma plain_perm g c dvs' o : is_forward c = false -> Permutation (a_dvs (args_of c)) dvs' -> uniform (args_of c) -> plain g c = Ok o ->
  plain g (with_args c (with_dvs (args_of c) dvs')) = Ok o.
Proof.
  case: c => [a|a|a|x a] //= _ P U; case E: (prepared g a) => [[[i w] ks]|] //= S;
    have [d [d' [ks' [PU [I [E' [K K']]]]]]] := prepared_perm P U E; rewrite E' /=; rewrite I in S; rewrite -[cm_from (with_dvs a dvs') _]/(cm_from a (distances g));
    have F := @solve_perm _ g _ _ d d' w ks ks' _ o _ PU K K' S; apply: F => n s G v y.
  - by rewrite dv_perm.
  - by rewrite res_perm.
  - by rewrite post_perm.
Qed.
Lemma extract_used st dvs dvs' utc : used utc dvs = used utc dvs' -> extract st dvs utc = extract st dvs' utc.
Proof. rewrite /extract => ->. by []. Qed.
Lemma prepared_extract g a a' : snd (extract nil (a_dvs a) (a_utc a)) = snd (extract nil (a_dvs a') (a_utc a')) ->
  a_tw a = a_tw a' -> a_freq0 a = a_freq0 a' -> a_freq1 a = a_freq1 a' -> prepared g a = prepared g a'.
Proof. rewrite /prepared /settings => -> -> -> ->. by []. Qed.
Lemma plain_extract g c dvs' : snd (extract nil (a_dvs (args_of c)) (a_utc (args_of c))) = snd (extract nil dvs' (a_utc (args_of c))) ->
  plain g (with_args c (with_dvs (args_of c) dvs')) = plain g c.
Proof.
  move=> E. case: c E => [a|a|a|x a] /= E; try (rewrite (@prepared_extract g (with_dvs a dvs') a) //; by rewrite /= E).
  by rewrite E.
Qed.
Lemma plain_irrelevant g c l d r : a_dvs (args_of c) = l ++ d :: r -> ~ usable (args_of c) d ->
  plain g (with_args c (with_dvs (args_of c) (l ++ r))) = plain g c.
Proof.
  move=> E U. apply: plain_extract. rewrite E. congr snd. apply: extract_used. rewrite !used_app. congr (_ ++ _). rewrite /used /=.
  case P: (picked _ d) => [x|] //. by case: U; rewrite /usable P.
Qed.
Lemma picked_with utc p d : picked utc (with_proc p d) = picked utc d. Proof. by []. Qed.
Lemma used_with utc p l : used utc (List.map (with_proc p) l) = List.map (fun u => (with_proc p (fst u), snd u)) (used utc l).
Proof.
  elim: l => //= d l IH. rewrite /used /= -/(used utc l) -/(used utc _) IH picked_with. by case: (picked utc d).
Qed.
Lemma extract_with st l d utc : picked utc d <> None -> extract st (List.map (with_proc (d_proc d)) l ++ [d]) utc = extract st (l ++ [d]) utc.
Proof.
  move=> P. have [x E] : exists x, used utc [d] = [(d, x)] by rewrite /used /=; case: (picked utc d) P => [x|] // _; exists x.
  rewrite /extract !used_app used_with E !rev_app_distr /=. rewrite !map_app !map_map /=. by [].
Qed.
Lemma plain_window g c l d : a_dvs (args_of c) = l ++ [d] -> usable (args_of c) d ->
  plain g (with_args c (with_dvs (args_of c) (List.map (with_proc (d_proc d)) l ++ [d]))) = plain g c.
Proof. move=> E U. apply: plain_extract. rewrite E extract_with //. Qed.

Lemma cm_from_distances g a : cm_from a (distances g) = cm_of g (a_scaling a) (a_corr_len a) (a_std a).
Proof. apply/matrixP=> i j. rewrite !mxE. by []. Qed.
Lemma invert_dv_grid g a : plain g (Invert a) =
  bind (snd (extract nil (a_dvs a) (a_utc a))) (fun i => bind (settings a i) (fun w =>
  bind (dv_grid g (i_pairs i) (i_corrs i) (i_vals i) w.1.1.1 w.1.1.2 w.1.2 w.2 (a_scaling a) (a_corr_len a) (a_std a)) (fun x => Ok (OModel x)))).
Proof.
  rewrite /= /prepared. case: (snd (extract nil _ _)) => [i|] //=. case: (settings a i) => [[[tw f0] f1]|] //=.
  rewrite /dv_grid. case: (mapM _ _) => [ks|] //=. rewrite /solve. case: (variances _ _ _ _ _) => [vs|] //=. by rewrite cm_from_distances.
Qed.
