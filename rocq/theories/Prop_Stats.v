(** C82: the statistics of a signal, and where normalized data starts. *)
From Verif Require Import Base Ordered Kernels PairSpec KernelProofs PairLemmas CoreModel CoreProofs2 CoreProofs3 FftModel NormModel NormSpec CorrModel CorrSpec
  CorrProofs CorrProofs2 NormProofs NormProofs2 NormApi NormAuto NormMap NormMode NormApi2 NormApi3 WeightApi StreamSpec StatsModel LevelProofs Prop_Count Prop_Norm1 Prop_Norm2 Prop_Weight Prop_Smooth Examples.
From Coq Require Import String ZArith Lia.
Open Scope string_scope.
Open Scope nat_scope.
Local Notation length := List.length.
Set Implicit Arguments.

Section Lists.
  Variable K : Fld.
  Notation C := (Cx K).
  Add Field KstatsF : (flaw K).
  Local Ltac kring := match goal with |- @eq _ ?a ?b => change (@eq (fcar K) a b) end; ring.
  Local Notation S_ l f := (Sum (fmon K) l f : fcar K).

  Lemma cre_total (l : list C) g : cre (Sum (cmon K) l g) = S_ l (fun x => cre (g x)).
  Proof. induction l as [|x l IH]; [reflexivity|]. rewrite !Sum_cons. cbn [cmon fmon madd mcar]. rewrite <- IH. reflexivity. Qed.
  Lemma cim_total (l : list C) g : cim (Sum (cmon K) l g) = S_ l (fun x => cim (g x)).
  Proof. induction l as [|x l IH]; [reflexivity|]. rewrite !Sum_cons. cbn [cmon fmon madd mcar]. rewrite <- IH. reflexivity. Qed.
  Lemma np_mean_eq (l : list C) : l <> [] -> np_mean l = Fin (list_mean l).
  Proof.
    intros H. unfold np_mean, cover, list_mean. destruct (length l) eqn:E; [destruct l; [congruence|discriminate]|].
    rewrite cre_total, cim_total. reflexivity.
  Qed.
  Lemma np_var_eq (l : list C) : l <> [] -> np_var l = Fin (list_variance l).
  Proof.
    intros H. unfold np_var. rewrite np_mean_eq by exact H. cbn [fv_bind]. unfold over, list_variance.
    destruct (length l) eqn:E; [destruct l; [congruence|discriminate]|]. reflexivity.
  Qed.
  Lemma len_neq0 A (l : list A) : l <> [] -> fnat K (length l) <> f0 K.
  Proof. intros H. apply fnat_neq0. destruct l; [congruence|cbn; lia]. Qed.
  Lemma S_const A (l : list A) (c : K) : S_ l (fun _ => c) = fmul K (fnat K (length l)) c.
  Proof. induction l as [|x l IH]; [cbn; kring|]. rewrite Sum_cons, IH. cbn [length madd fmon mcar]. rewrite fnat_S. kring. Qed.
  Lemma S_lin A (l : list A) (f g : A -> K) (a : K) : S_ l (fun x => fadd K (f x) (fmul K a (g x))) = fadd K (S_ l f) (fmul K a (S_ l g)).
  Proof. induction l as [|x l IH]; [cbn; kring|]. rewrite !Sum_cons, IH. cbn [madd fmon mcar]. kring. Qed.

  (** the sum of |x - b|^2 *)
  Lemma S_about (l : list C) (b : C) : S_ l (fun x => cnorm2 (csub x b)) =
    fadd K (fsub K (S_ l (@cnorm2 K)) (fmul K (fadd K (f1 K) (f1 K)) (fadd K (fmul K (cre b) (S_ l (@cre K))) (fmul K (cim b) (S_ l (@cim K))))))
      (fmul K (fnat K (length l)) (cnorm2 b)).
  Proof.
    induction l as [|x l IH]; [cbn; kring|]. rewrite !Sum_cons, IH. cbn [length madd fmon mcar]. rewrite fnat_S.
    generalize (S_ l (@cnorm2 K)) (S_ l (@cre K)) (S_ l (@cim K)). cbn [mcar fmon]. intros s1 s2 s3.
    destruct x as [a c], b as [d e]. unfold cnorm2, csub, cre, cim. cbn [fst snd]. kring.
  Qed.
  Lemma variance_eq (l : list C) : l <> [] ->
    list_variance l = fsub K (fdiv K (S_ l (@cnorm2 K)) (fnat K (length l))) (cnorm2 (list_mean l)).
  Proof.
    intros H. pose proof (len_neq0 H) as HN. unfold list_variance. rewrite S_about. unfold list_mean. cbn [cre cim fst snd].
    generalize dependent (fnat K (length l)). generalize (S_ l (@cnorm2 K)) (S_ l (@cre K)) (S_ l (@cim K)). cbn [mcar fmon]. intros s1 s2 s3 n HN.
    unfold cnorm2. cbn [cre cim fst snd].
    match goal with |- @eq _ ?a ?b => change (@eq (fcar K) a b) end. field. exact HN.
  Qed.

  (** samples of a signal *)
  Lemma combine_fst A B (l : list A) (t : list B) : length t = length l -> map fst (combine l t) = l.
  Proof. revert t. induction l as [|x l IH]; intros [|u t] HL; try discriminate; [reflexivity|]. cbn in *. f_equal. apply IH. lia. Qed.
  Lemma samples_fst A (f : list A) t : valid_auto f t -> map fst (samples f t) = f.
  Proof.
    destruct t as [t|]; cbn [samples valid_auto]; [intros [HL _]; apply combine_fst; exact HL|]. intros _. unfold regular. apply combine_fst.
    unfold arange. rewrite map_length, seq_length. reflexivity.
  Qed.
  Lemma Sum_samples M (f : list C) t (g : C -> mcar M) : valid_auto f t -> Sum M (samples f t) (fun x => g (fst x)) = Sum M f g.
  Proof. intros HV. rewrite <- (Sum_map M (fun x => fst x) (samples f t) g). rewrite samples_fst by exact HV. reflexivity. Qed.
  Lemma len_samples (f : list C) t : valid_auto f t -> length (samples f t) = length f.
  Proof. intros HV. rewrite <- (samples_fst f t HV) at 2. rewrite map_length. reflexivity. Qed.

  (** At delay 0 an average over pairs of samples is an average over the signal. *)
  Lemma pairs_0_length (f : list C) t : valid_auto f t -> distinct (samples f t) -> length (upairs_at 0 (samples f t)) = length f.
  Proof.
    intros HV HD. rewrite <- (len_samples f t HV). pose proof (@Sum_upairs_at_0 natmon C (samples f t) (fun _ => 1) HD) as H.
    assert (L : forall X (l : list X), Sum natmon l (fun _ => 1) = length l) by (induction l as [|x l IH]; [reflexivity|rewrite Sum_cons, IH; reflexivity]).
    rewrite !L in H. exact H.
  Qed.
  Lemma mean_0 (f : list C) t g : valid_auto f t -> distinct (samples f t) ->
    (forall x, g (x, x) = g ((fst x, 0%Z), (fst x, 0%Z))) ->
    mean (upairs_at 0 (samples f t)) g = fdiv K (S_ f (fun x => g ((x, 0%Z), (x, 0%Z)))) (fnat K (length f)).
  Proof.
    intros HV HD Hg. unfold mean. rewrite pairs_0_length by assumption. f_equal. rewrite Sum_upairs_at_0 by exact HD.
    rewrite <- (Sum_samples (fmon K) f t (fun x => g ((x, 0%Z), (x, 0%Z))) HV). apply Sum_ext. intros x _. apply Hg.
  Qed.
  Lemma start_value (f : list C) t z : f <> [] -> valid_auto f t -> distinct (samples f t) ->
    auto_value (list_mean f) (list_variance f) z (upairs_at 0 (samples f t)) = list_variance f.
  Proof.
    intros H HV HD. unfold auto_value. destruct (z =? 1)%Z; [|destruct ((z =? 5) || (z =? 13))%Z; [|destruct (z =? 9)%Z]].
    - rewrite mean_0 by (assumption || reflexivity). rewrite variance_eq by exact H. f_equal. f_equal. apply Sum_ext. intros [a c] _.
      unfold re_prod, cmul, conj, cnorm2, cre, cim. cbn [fst snd]. kring.
    - rewrite mean_0 by (assumption || reflexivity). unfold list_variance. f_equal. apply Sum_ext. intros [a c] _. generalize (list_mean f). intros [d e].
      unfold prod_about, fst_val, snd_val, csub, cmul, conj, cnorm2, cre, cim. cbn [fst snd]. kring.
    - rewrite mean_0 by (assumption || reflexivity). rewrite variance_eq by exact H. f_equal.
      + f_equal. apply Sum_ext. intros [a c] _. unfold re_prod, cmul, conj, cnorm2, cre, cim. cbn [fst snd]. kring.
      + f_equal. unfold cmean. rewrite !mean_0 by (assumption || reflexivity). unfold list_mean. f_equal; f_equal; apply Sum_ext; intros [a c] _;
          unfold halfsum, first, second; cbn [fst snd]; pose proof (ahalf_double (cgrp K) (a, c)) as HH; change (madd (cgrp K) (a, c) (a, c)) with (cadd (a, c) (a, c)) in HH.
        * exact (f_equal (@cre K) HH).
        * exact (f_equal (@cim K) HH).
    - rewrite mean_0 by (assumption || reflexivity).
      rewrite (Sum_ext (fmon K) f _ (fun _ => f0 K)); [rewrite S_const|intros [a c] _; unfold sq_diff, csub, cnorm2, cre, cim; cbn [fst snd]; kring].
      unfold half. pose proof (len_neq0 H) as HN. pose proof (@two_neq0 K) as H2. generalize dependent (fnat K (length f)). generalize (list_variance f). intros v n HN.
      match goal with |- @eq _ ?a ?b => change (@eq (fcar K) a b) end. field. split; assumption.
  Qed.
  Lemma csub_affine (d x : C) : csub x d = cadd (cmul (c1 K) x) (csub (c0 K) d).
  Proof. destruct d, x. unfold csub, cadd, cmul, c0, c1, cre, cim. cbn [fst snd]. f_equal; kring. Qed.
  Lemma csub_self (x : C) : csub x x = c0 K.
  Proof. destruct x. unfold csub, c0, cre, cim. cbn [fst snd]. f_equal; kring. Qed.
  Lemma norm_one (v : K) : fmul K (cnorm2 (c1 K)) v = v.
  Proof. unfold cnorm2, c1, cre, cim. cbn [fst snd]. ring. Qed.
  Lemma half_double_eq (v : K) : fdiv K (fadd K v v) (fadd K (f1 K) (f1 K)) = v.
  Proof. pose proof (@two_neq0 K) as H2. field. exact H2. Qed.
  Lemma twice_zero (v : K) : fmul K (fadd K (f1 K) (f1 K)) (fsub K v v) = f0 K.
  Proof. ring. Qed.
  Lemma div_self (v : K) : v <> f0 K -> fdiv K v v = f1 K.
  Proof. intros H. field. exact H. Qed.
  Lemma zero_div (v : K) : v <> f0 K -> fdiv K (f0 K) v = f0 K.
  Proof. intros H. field. exact H. Qed.
  Lemma S_affine (l : list C) (p q r : K) : S_ l (fun x => fadd K (fadd K (fmul K p (cre x)) (fmul K q (cim x))) r) =
    fadd K (fadd K (fmul K p (S_ l (@cre K))) (fmul K q (S_ l (@cim K)))) (fmul K (fnat K (length l)) r).
  Proof. induction l as [|x l IH]; [cbn; kring|]. rewrite !Sum_cons, IH. cbn [length madd fmon mcar]. rewrite fnat_S. kring. Qed.
  Lemma mean_affine (a c : C) (f : list C) : f <> [] -> list_mean (map (fun x => cadd (cmul a x) c) f) = cadd (cmul a (list_mean f)) c.
  Proof.
    intros H. pose proof (len_neq0 H) as HN. unfold list_mean. rewrite map_length, !Sum_map.
    rewrite (Sum_ext (fmon K) f (fun x => cre (cadd (cmul a x) c)) (fun x => fadd K (fadd K (fmul K (cre a) (cre x)) (fmul K (fopp K (cim a)) (cim x))) (cre c))) by (intros [u w] _; cbn; kring).
    rewrite (Sum_ext (fmon K) f (fun x => cim (cadd (cmul a x) c)) (fun x => fadd K (fadd K (fmul K (cim a) (cre x)) (fmul K (cre a) (cim x))) (cim c))) by (intros [u w] _; cbn; kring).
    rewrite !S_affine. generalize dependent (fnat K (length f)). generalize (S_ f (@cre K)) (S_ f (@cim K)). cbn [mcar fmon]. intros s2 s3 n HN.
    destruct a as [a1 a2], c as [c1' c2']. unfold cadd, cmul, cre, cim. cbn [fst snd]. f_equal; match goal with |- @eq _ ?a ?b => change (@eq (fcar K) a b) end; field; exact HN.
  Qed.
  Lemma S_scal A (l : list A) (a : K) (g : A -> K) : S_ l (fun x => fmul K a (g x)) = fmul K a (S_ l g).
  Proof. induction l as [|x l IH]; [cbn; kring|]. rewrite !Sum_cons, IH. cbn [madd fmon mcar]. kring. Qed.
  Lemma variance_affine (a c : C) (f : list C) : f <> [] -> list_variance (map (fun x => cadd (cmul a x) c) f) = fmul K (cnorm2 a) (list_variance f).
  Proof.
    intros H. unfold list_variance. rewrite (mean_affine a c H), map_length, Sum_map.
    rewrite (Sum_ext (fmon K) f _ (fun x => fmul K (cnorm2 a) (cnorm2 (csub x (list_mean f))))).
    - rewrite S_scal. generalize (S_ f (fun x => cnorm2 (csub x (list_mean f)))). cbn [mcar fmon]. intros s. rewrite !(Fdiv_def (flaw K)). ring.
    - intros [u w] _. generalize (list_mean f). intros [d e]. destruct a as [a1 a2], c as [c1' c2']. unfold cnorm2, csub, cadd, cmul, cre, cim. cbn [fst snd]. kring.
  Qed.
End Lists.

Section Signs.
  Variable K : OFld.
  Notation C := (Cx K).
  Add Field KstatsG : (flaw K).
  Lemma cnorm2_nonneg (z : C) : fle (f0 K) (cnorm2 z).
  Proof. unfold cnorm2. replace (f0 K) with (fadd K (f0 K) (f0 K)) by ring. apply fle_add2; apply fle_square. Qed.
  Lemma cnorm2_zero (z : C) : cnorm2 z = f0 K -> z = c0 K.
  Proof.
    destruct z as [a b]. unfold cnorm2, cre, cim. cbn [fst snd]. intros E.
    assert (sq0 : forall x : K, fmul K x x = f0 K -> x = f0 K).
    { intros x Hx. destruct (flt K x (f0 K)) eqn:L1; [|destruct (flt K (f0 K) x) eqn:L2; [|apply flt_total; assumption]];
        (transitivity (fmul K (finv K x) (fmul K x x)); [field|rewrite Hx; ring]).
      - apply flt_neq. exact L1.
      - intros ->. rewrite flt_irrefl in L2. discriminate. }
    pose proof (fle_square K a) as Ha. pose proof (fle_square K b) as Hb.
    assert (Ea : fmul K a a = f0 K).
    { apply fle_antisym; [|exact Ha]. apply fle_sub. replace (fsub K (f0 K) (fmul K a a)) with (fmul K b b); [exact Hb|]. rewrite <- E. ring. }
    rewrite Ea in E. assert (Eb : fmul K b b = f0 K) by (rewrite <- E; ring). rewrite (sq0 a Ea), (sq0 b Eb). reflexivity.
  Qed.
  Lemma over_nonneg (x : K) n : n <> 0 -> fle (f0 K) x -> fle (f0 K) (fdiv K x (fnat K n)).
  Proof.
    intros Hn H. replace (f0 K) with (fdiv K (f0 K) (fnat K n)); [apply fle_div; [exact H|apply flt_fnat; lia]|].
    field. apply fnat_neq0. exact Hn.
  Qed.
  Lemma variance_nonneg (f : list C) : f <> [] -> fle (f0 K) (list_variance f).
  Proof.
    intros H. unfold list_variance. apply over_nonneg; [destruct f; [congruence|discriminate]|]. apply Sum_nonneg. intros x _. apply cnorm2_nonneg.
  Qed.
  Lemma variance_zero (f : list C) : f <> [] -> (list_variance f = f0 K <-> forall x, In x f -> x = list_mean f).
  Proof.
    intros H. pose proof (len_neq0 K H) as HN. unfold list_variance. split.
    - intros E x Hx.
      assert (Z : Sum (fmon K) f (fun x => cnorm2 (csub x (list_mean f))) = f0 K).
      { revert E. generalize (Sum (fmon K) f (fun x => cnorm2 (csub x (list_mean f)))). cbn [mcar fmon]. intros y E. transitivity (fmul K (fnat K (length f)) (fdiv K y (fnat K (length f)))); [field; exact HN|rewrite E; ring]. }
      pose proof (@Sum_nonneg_zero K _ f _ (fun x _ => cnorm2_nonneg (csub x (list_mean f))) Z x Hx) as Q. apply cnorm2_zero in Q.
      generalize dependent (list_mean f). intros [d e] _ _ Q. destruct x as [u w]. unfold csub, c0, cre, cim in Q. cbn [fst snd] in Q.
      assert (Q1 := f_equal fst Q). assert (Q2 := f_equal snd Q). cbn [fst snd] in Q1, Q2. f_equal.
      + transitivity (fadd K (fsub K u d) d); [ring|rewrite Q1; ring].
      + transitivity (fadd K (fsub K w e) e); [ring|rewrite Q2; ring].
    - intros E. rewrite (Sum_ext (fmon K) f _ (fun _ => f0 K)); [rewrite (S_const K); field; exact HN|]. intros x Hx. rewrite (E x Hx). destruct (list_mean f). unfold cnorm2, csub, cre, cim. cbn [fst snd]. match goal with |- @eq _ ?a ?b => change (@eq (fcar K) a b) end. ring.
  Qed.
  Lemma le_minus_half (v x : K) : fle (f0 K) x -> fle (fsub K v (half K x)) v.
  Proof.
    intros H. apply fle_sub. replace (fsub K v (fsub K v (half K x))) with (fdiv K x (fnat K 2)); [apply over_nonneg; [discriminate|exact H]|].
    unfold half. replace (fnat K 2) with (fadd K (f1 K) (f1 K)) by (unfold fnat; simpl; ring). pose proof (@two_neq0 K) as H2. field. exact H2.
  Qed.
End Signs.

(* ------------------------------------------------------------------ *)
(** * stats *)
(** The mean and the variance of every signal, as arguments of normalize. *)
Theorem C82_stats (K : Fld) (f f1 f2 : list (Cx K)) :
  stats f None = (match f with [] => NonFin | _ => Fin (SOne (list_mean f), SOne (list_variance f)) end) /\
  stats f1 (Some f2) = (match f1, f2 with [], _ | _, [] => NonFin
    | _, _ => Fin (STwo (list_mean f1) (list_mean f2), STwo (list_variance f1) (list_variance f2)) end).
Proof.
  split.
  - unfold stats. destruct f as [|x f]; [reflexivity|]. rewrite np_mean_eq, np_var_eq by discriminate. reflexivity.
  - unfold stats. destruct f1 as [|x f1]; [reflexivity|]. rewrite (@np_mean_eq K (x :: f1)), (@np_var_eq K (x :: f1)) by discriminate.
    destruct f2 as [|y f2]; [reflexivity|]. rewrite np_mean_eq, np_var_eq by discriminate. reflexivity.
Qed.
Print Assumptions C82_stats.
(** The variance is the mean of |x|^2 minus |mean|^2; it does not change if a constant is
    added and is multiplied by |a|^2 if the signal is multiplied by a. *)
Theorem C82_variance (K : Fld) (f : list (Cx K)) (a c : Cx K) : f <> [] ->
  list_variance f = fsub K (fdiv K (Sum (fmon K) f (@cnorm2 K)) (fnat K (length f))) (cnorm2 (list_mean f)) /\
  list_mean (map (fun x => cadd (cmul a x) c) f) = cadd (cmul a (list_mean f)) c /\
  list_variance (map (fun x => cadd (cmul a x) c) f) = fmul K (cnorm2 a) (list_variance f).
Proof. intros H. split; [exact (variance_eq H)|]. split; [exact (mean_affine a c H)|exact (variance_affine a c H)]. Qed.
Print Assumptions C82_variance.
(** It is not negative, and zero for constant signals only. *)
Theorem C82_variance_sign (K : OFld) (f : list (Cx K)) : f <> [] ->
  fle (f0 K) (list_variance f) /\ (list_variance f = f0 K <-> forall x, In x f -> x = list_mean f).
Proof. intros H. split; [exact (variance_nonneg K H)|exact (variance_zero K H)]. Qed.
Print Assumptions C82_variance_sign.

(* ------------------------------------------------------------------ *)
(** * subtract_background *)
(** Without a given background the mean is subtracted and returned; what remains has mean zero. *)
Theorem C82_subtract (K : Fld) (f : list (Cx K)) (b : Cx K) ret : f <> [] ->
  subtract_background f None ret = (map (fun x => Fin (csub x (list_mean f))) f, if ret then Some (Fin (list_mean f)) else None) /\
  subtract_background f (Some b) ret = (map (fun x => Fin (csub x b)) f, if ret then Some (Fin b) else None) /\
  list_mean (map (fun x => csub x (list_mean f)) f) = c0 K /\
  list_variance (map (fun x => csub x b) f) = list_variance f.
Proof.
  intros H. split; [unfold subtract_background; rewrite np_mean_eq by exact H; destruct ret; reflexivity|].
  split; [unfold subtract_background; destruct ret; reflexivity|].
  split.
  - rewrite (map_ext _ _ (csub_affine (list_mean f))), (mean_affine _ _ H). rewrite <- csub_affine. apply csub_self.
  - rewrite (map_ext _ _ (csub_affine b)), (variance_affine _ _ H). apply norm_one.
Qed.
Print Assumptions C82_subtract.

Section Calls.
  Variable K : Fld.
  Notation C := (Cx K).
  Variable W : nat -> C.
  Lemma auto_call_map (g : C -> C) f t n method N : auto_call W f t n method N -> auto_call W (map g f) t n method N.
  Proof.
    intros (H1 & H2 & H3 & H4 & H5). split; [destruct t; [destruct H1 as [A B]; split; [rewrite map_length; exact A|apply map_neq_nil; exact B]|exact H1]|].
    rewrite !NormMap.samples_map. split; [apply distinct_map; exact H2|]. split.
    { destruct n; [exact H3|]. destruct H3 as [A B]. split; [apply map_neq_nil; exact A|apply covers_map; exact B]. }
    split; [rewrite map_length; exact H4|]. destruct H5 as [H5|[H5 H6]]; [left; exact H5|right; split; [exact H5|]].
    destruct H6 as (A & L & B & D). split; [apply map_neq_nil; exact A|]. exists L. rewrite !NormMap.samples_map. split; [apply covers_map; exact B|exact D].
  Qed.
  Lemma divided_auto P N nm : divided (f0 K) (over K) (Ok (@auto_real_data K P N nm)) = Ok (at_delays N P (fun Q => mean Q (@re_prod K))).
  Proof.
    clear W. unfold divided, auto_real_data, acorr_tuple. rewrite (@len_fresh (fmon K)). f_equal. unfold at_delays.
    apply map_ext_in. intros k Hk. apply in_seq in Hk. cbn [start].
    rewrite (@nth_fresh (fmon K)), (@nth_fresh natmon) by lia. destruct (P k); reflexivity.
  Qed.
  Lemma stats_args (f : list C) bg var : stats f None = Fin (bg, var) \/ stats f (Some f) = Fin (bg, var) ->
    f <> [] /\ (bg = SOne (list_mean f) \/ bg = STwo (list_mean f) (list_mean f)) /\ scale_factor K var = Ok (list_variance f).
  Proof.
    clear W. destruct f as [|x f]; [intros [H|H]; discriminate|]. destruct (C82_stats (x :: f) (x :: f) (x :: f)) as [E1 E2]. rewrite E1, E2. intros H. split; [discriminate|].
    destruct H as [H|H]; injection H as <- <-; (split; [auto|]); [reflexivity|]. cbn [scale_factor]. f_equal. generalize (list_variance (x :: f)). intros v.
    apply half_double_eq.
  Qed.
End Calls.
(** normalize with the mean as background equals subtracting the background first and
    dividing by the count. *)
Theorem C82_subtracted_first (K : Fld) (W : nat -> Cx K) aligned f t n norm nm method N var denoise w data b :
  auto_call W f t n method N -> norm_arg norm nm -> In nm [5; 6; 7]%Z ->
  subtract_background f None true = (map Fin data, Some (Fin b)) ->
  (let* data := acorr W aligned f t None n norm method None in
   normalize real_ops denoise data (SOne b) var (Some (NInt 5%Z)) "corr" false w) =
  divided (f0 K) (over K) (acorr W aligned data t None n norm method None).
Proof.
  intros HC HN HI HS. assert (Hd : data = map (fun x => csub x b) f).
  { unfold subtract_background in HS. apply pair_equal_spec in HS. destruct HS as [H1 H2]. destruct (np_mean f) as [m|]; [|discriminate]. injection H2 as ->. cbn [fv_map] in H1.
    clear -H1. revert data H1. induction f as [|x f IH]; intros [|d data] H1; try discriminate; [reflexivity|]. cbn [map] in *. injection H1 as H0 H1. f_equal; [symmetry; exact H0|apply IH; exact H1]. }
  subst data. rewrite (@C18_auto K W aligned f t n norm nm method N b (SOne b) var denoise w HC HN HI (or_introl eq_refl)).
  rewrite (@acorr_call K W aligned _ t n norm nm method N (auto_call_map (fun x => csub x b) HC) HN).
  rewrite divided_auto. f_equal. symmetry.
  etransitivity; [apply at_delays_map with (m := fun x => x) (h := PairLemmas.map_pair (on_val (fun x => csub x b)) (on_val (fun y => csub y b)))|apply map_fv_id; reflexivity].
  - intros k. rewrite NormMap.samples_map. apply upairs_at_map. reflexivity.
  - intros Q _. rewrite mean_map. reflexivity.
Qed.
Print Assumptions C82_subtracted_first.

(* ------------------------------------------------------------------ *)
(** * Where normalized data starts *)
(** With the statistics of the signal as background and variance, every norm that is not
    weighted gives the variance at delay 0. *)
Theorem C82_start (K : Fld) (W : nat -> Cx K) aligned f t n norm nm method N bg var denoise w z :
  auto_call W f t n method N -> 0 < N -> norm_arg norm nm ->
  stats f None = Fin (bg, var) \/ stats f (Some f) = Fin (bg, var) ->
  data_supports (Z.testbit nm 1) (Z.testbit nm 2) z = true -> (Z.land z 3 <> 3)%Z ->
  exists rest,
  (let* data := acorr W aligned f t None n norm method None in
   normalize real_ops denoise data bg var (Some (NInt z)) "corr" false w) = Ok (Fin (list_variance f) :: rest).
Proof.
  intros HC H0 HN HS HD HZ. destruct (stats_args f HS) as (Hf & HB & HV).
  rewrite (@acorr_call K W aligned f t n norm nm method N HC HN). cbn [bind].
  rewrite (@normalize_auto_real K (fun i => upairs_at i (samples f t)) N nm (list_mean f) bg var (list_variance f) HB).
  - destruct N as [|N]; [lia|]. unfold at_delays. cbn [seq map]. eexists. f_equal. f_equal.
    destruct HC as (HV' & HD' & _). pose proof (pairs_0_length f t HV' HD') as HL. pose proof (@start_value K f t z Hf HV' HD') as E.
    destruct (upairs_at 0 (samples f t)); [destruct f; [congruence|discriminate]|]. f_equal. exact E.
  - rewrite <- flags_bits. exact HD.
  - unfold unweighted. apply negb_true_iff, Z.eqb_neq. exact HZ.
  - intros _. exact HV.
Qed.
Print Assumptions C82_start.

Definition starts_with {V} (r : res (list (fval V))) (x : V) : Prop := exists rest, r = Ok (Fin x :: rest).

Lemma unweighted_any_weight (K : Fld) denoise (data : cdata K K) bg var z mode scale w w' : (Z.land z 3 <> 3)%Z ->
  normalize real_ops denoise data bg var (Some (NInt z)) mode scale w = normalize real_ops denoise data bg var (Some (NInt z)) mode scale w'.
Proof. intros H. unfold normalize. apply body_unweighted. exact H. Qed.
Lemma unweighted_starts (K : Fld) denoise (data : cdata K K) bg var v z mode scale w :
  scale_factor K var = Ok v -> _default_norm_from_data data (Some z) = Ok z -> (Z.land z 3 <> 3)%Z -> (mode = "corr" \/ mode = "diff") ->
  (scale = true -> v <> f0 K) ->
  (forall w, starts_with (normalize real_ops denoise data bg var (Some (NInt z)) "corr" false w) v) ->
  starts_with (normalize real_ops denoise data bg var (Some (NInt z)) mode scale w) (if String.eqb mode "diff" then f0 K else if scale then f1 K else v).
Proof.
  intros HV HD HZ HM HS H.
  assert (A : forall w, starts_with (normalize real_ops denoise data bg var (Some (NInt z)) mode false w) (if String.eqb mode "diff" then f0 K else v)).
  { intros w'. destruct HM as [->| ->]; [apply H|]. cbn [String.eqb Ascii.eqb Bool.eqb]. change (Some (NInt z)) with (option_map NInt (Some z)).
    rewrite (@C22_modes_unweighted K denoise data bg var v (Some z) w' z HV HD HZ). cbn [option_map]. destruct (H w') as [rest ->]. eexists. unfold on_result. cbn [bind map fv_map]. unfold twice_minus. do 3 f_equal. apply twice_zero. }
  destruct scale; [|destruct HM as [->| ->]; apply A].
  rewrite (@unweighted_any_weight K denoise data bg var z mode true w (Some []) HZ). rewrite (@C67_scale K denoise data bg var v (Some (NInt z)) mode [] HV (HS eq_refl)).
  destruct (A (Some [])) as [rest ->]. eexists. unfold on_result. cbn [bind map fv_map]. f_equal. f_equal. f_equal.
  destruct HM as [->| ->]; cbn [String.eqb Ascii.eqb Bool.eqb]; [apply div_self|apply zero_div]; exact (HS eq_refl).
Qed.
(** The same for all norms, modes and with scaling; the weight of a weighted norm is any
    finite number. *)
Theorem C82_start_all (K : Fld) (W : nat -> Cx K) aligned f t n norm nm method N bg var denoise w z mode scale :
  auto_call W f t n method N -> 0 < N -> norm_arg norm nm ->
  stats f None = Fin (bg, var) \/ stats f (Some f) = Fin (bg, var) ->
  data_supports (Z.testbit nm 1) (Z.testbit nm 2) z = true -> (mode = "corr" \/ mode = "diff") ->
  (scale = true -> list_variance f <> f0 K) ->
  (Z.land z 3 = 3 -> exists w0 w', w = Some (Fin w0 :: w'))%Z ->
  starts_with (let* data := acorr W aligned f t None n norm method None in
     normalize real_ops denoise data bg var (Some (NInt z)) mode scale w)
    (if String.eqb mode "diff" then f0 K else if scale then f1 K else list_variance f).
Proof.
  intros HC H0 HN HS HD HM HV0 HW. pose proof (stats_args f HS) as (Hf & HB & HV).
  assert (A : forall z, data_supports (Z.testbit nm 1) (Z.testbit nm 2) z = true -> (Z.land z 3 <> 3)%Z -> forall w,
    starts_with (normalize real_ops denoise (auto_real_data (fun i => upairs_at i (samples f t)) N nm) bg var (Some (NInt z)) mode scale w)
      (if String.eqb mode "diff" then f0 K else if scale then f1 K else list_variance f)).
  { intros y Hy HyZ w1. apply unweighted_starts; auto.
    - apply auto_supports. rewrite <- flags_bits. exact Hy.
    - intros w2. destruct (@C82_start K W aligned f t n norm nm method N bg var denoise w2 y HC H0 HN HS Hy HyZ) as [rest E].
      rewrite (@acorr_call K W aligned f t n norm nm method N HC HN) in E. cbn [bind] in E. exists rest. exact E. }
  rewrite (@acorr_call K W aligned f t n norm nm method N HC HN). cbn [bind].
  destruct (Z.eq_dec (Z.land z 3) 3) as [HZ|HZ]; [|apply A; assumption].
  destruct (HW HZ) as (w0 & w' & ->).
  assert (HI : In z [3; 7; 11; 15]%Z).
  { unfold data_supports in HD. apply andb_prop in HD. destruct HD as [HD _]. apply andb_prop in HD. destruct HD as [HD _]. apply in_list_In in HD.
    unfold supported_norms in HD. cbn [In] in HD |- *. repeat (destruct HD as [HD|HD]; [subst z; try discriminate HZ; tauto|]). destruct HD. }
  rewrite (@C25_normalize K denoise _ bg var z mode scale (Fin w0 :: w') (list_variance f) HI HV).
  - assert (D1 : data_supports (Z.testbit nm 1) (Z.testbit nm 2) (z - 1) = true /\ (Z.land (z - 1) 3 <> 3)%Z /\ data_supports (Z.testbit nm 1) (Z.testbit nm 2) (z - 2) = true /\ (Z.land (z - 2) 3 <> 3)%Z).
    { revert HD. generalize (Z.testbit nm 1) (Z.testbit nm 2). intros b1 b2 HD. cbn [In] in HI.
      destruct HI as [<-|[<-|[<-|[<-|[]]]]]; destruct b1, b2; vm_compute in HD |- *; try discriminate HD; repeat split; congruence. }
    destruct D1 as (D1 & D2 & D3 & D4). destruct (A (z - 1)%Z D1 D2 None) as [r1 ->]. cbn [bind]. destruct (A (z - 2)%Z D3 D4 None) as [r2 ->]. cbn [bind].
    unfold weighted_sum. cbn [combine map fst snd fv_bind fv_map]. eexists. f_equal. f_equal. f_equal. cbn [op_weighted real_ops]. apply C25_ends; exact (f0 K).
  - assert (E := @auto_supports K (fun i => upairs_at i (samples f t)) N nm K (plus_cells (fmon K) (repeat (f0 K) N) (fun i => Sum (fmon K) (upairs_at i (samples f t)) (@re_prod K))) z).
    rewrite <- flags_bits in E. specialize (E HD). rewrite NormMode3.default_norm_spec in E. unfold auto_real_data. destruct (NormMode3.supports _ z); [reflexivity|discriminate].
  - destruct HB as [->| ->]; discriminate.
  - exact HM.
Qed.
Print Assumptions C82_start_all.
(** Structured norms never exceed the start value. *)
Theorem C82_structured_bound (K : OFld) (W : nat -> Cx K) aligned f t n norm nm method N bg var denoise w z l x :
  auto_call W f t n method N -> norm_arg norm nm -> In nm [6; 7]%Z -> In z [2; 6; 10]%Z ->
  stats f None = Fin (bg, var) \/ stats f (Some f) = Fin (bg, var) ->
  (let* data := acorr W aligned f t None n norm method None in
   normalize real_ops denoise data bg var (Some (NInt z)) "corr" false w) = Ok l ->
  In (Fin x) l -> fle x (list_variance f).
Proof.
  intros HC HN HI HZ HS E Hx. destruct (stats_args f HS) as (Hf & HB & HV).
  rewrite (@C19_auto K W aligned f t n norm nm method N (list_mean f) bg var (list_variance f) denoise w z HC HN HI HB HV HZ) in E. injection E as <-.
  unfold at_delays in Hx. apply in_map_iff in Hx. destruct Hx as (k & Hk & _). destruct (upairs_at k (samples f t)) as [|p Q] eqn:EQ; [discriminate|].
  apply (f_equal (fun y => match y with Fin a => a | NonFin => x end)) in Hk. cbv beta iota in Hk. rewrite <- Hk.
  apply le_minus_half. unfold mean. apply over_nonneg; [discriminate|]. apply Sum_nonneg. intros q _. apply cnorm2_nonneg.
Qed.
Print Assumptions C82_structured_bound.
(** A signal with irregular times: stats, and the start of norms 1, 5, 10 and 7. *)
Example C82_example :
  (match stats nf1 None with Fin (SOne m, SOne v) => Some (showc m, show v) | _ => None end) = Some (2, 1, (1, 3), (20, 9))%Z /\
  (match stats nf1 None with
   | Fin (bg, var) => map (fun z => show_all showv (let* data := acorr nW true nf1 (Some nt1) None (Some 4) None None None in
       normalize real_ops idn data bg var (Some (NInt z)) "corr" false (Some (repeat (Fin (q 3)) 4)))) [1; 5; 10; 7]%Z
   | NonFin => [] end) =
    [Ok [Some (20, 9); Some (-28, 9); Some (17, 9); Some (-19, 9)]; Ok [Some (20, 9); Some (-29, 9); Some (4, 9); Some (-5, 9)];
     Ok [Some (20, 9); Some (-77, 18); Some (11, 9); Some (-5, 18)]; Ok [Some (20, 9); Some (-115, 18); Some (25, 9); Some (5, 18)]]%Z /\
  map showcv (fst (subtract_background nf1 None false)) = [Some (-1, 1, (5, 3)); Some (1, 1, (-4, 3)); Some (0, 1, (-1, 3))]%Z.
Proof. split; [|split]; vm_compute; reflexivity. Qed.
