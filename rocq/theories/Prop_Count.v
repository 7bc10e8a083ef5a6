(** C75: effective counts of multilevel data. *)
From Coq Require Import ZifyBool ZifyNat Sorting.Sorted.
From Verif Require Import Base Ordered KernelProofs RegularProofs CoreProofs3 MultiModel LevelModel LevelProofs LevelProofs2 AvgProofs AvgProofs2 MultiProofs CountModel CountProofs Prop_Level PairSpec Examples.
Set Implicit Arguments.
Ltac Zify.zify_post_hook ::= Z.div_mod_to_equations.

(* ------------------------------------------------------------------ *)
(** * multilevel_count *)

(** The weight of delay [p] in an average over a triangle of half width [h] about [c]:
    (h - |p - c|) / h^2. *)
Definition triangle_weight (K : Fld) (h c p : nat) : K := fdiv K (fnat K (h - (Nat.max p c - Nat.min p c))) (fnat K (h * h)).
(** Averaging with these weights the values of delays with [count p] measurements each: the
    number of measurements that the average stands for. *)
Definition effective (K : Fld) (h c : nat) (count : list K) : K :=
  let x p := fmul K (triangle_weight K h c p) (nth p count (f0 K)) in
  let m := Sum (fmon K) (seq 0 (length count)) x in
  fdiv K (fmul K (fmul K m m) m) (Sum (fmon K) (seq 0 (length count)) (fun p => fmul K (x p) (x p))).

Lemma weight_triangle (K : OFld) h c p : weight K h c p = triangle_weight K h c p.
Proof. unfold weight, triangle_weight, tri. do 2 f_equal. lia. Qed.

(** One row per level, one entry per delay. *)
Theorem C75_shape (K : OFld) (count : list K) level_size binning : (2 <= level_size)%Z -> count <> [] ->
  exists rows L, multilevel_count K count level_size binning = Ok rows /\ length rows = L + 1 /\
    length count <= Z.to_nat level_size * 2 ^ L /\ (forall l, l < L -> Z.to_nat level_size * 2 ^ l < length count) /\
    forall row, In row rows -> length row = Z.to_nat level_size.
Proof.
  intros Hs Hc. rewrite multilevel_count_ok by assumption. eexists _, (levels_of (Z.to_nat level_size) (length count)). split; [reflexivity|].
  rewrite map_length, seq_length. split; [reflexivity|]. destruct (@levels_of_spec (Z.to_nat level_size) (length count) ltac:(lia)) as [A B]. split; [exact A|]. split; [exact B|].
  intros row Hr. apply in_map_iff in Hr. destruct Hr as (l & <- & _). apply the_row_length. exact Hc.
Qed.
Print Assumptions C75_shape.

Section Mean.
  Variable K : OFld.
  Add Field KeffF : (flaw K).
  Local Ltac kring := match goal with |- @eq _ ?a ?b => change (@eq (fcar K) a b) end; ring.
  Local Notation S_ l f := (Sum (fmon K) l f : fcar K).

  Lemma fle_square (x : K) : fle (f0 K) (fmul K x x).
  Proof.
    destruct (fle_total K (f0 K) x) as [H|H]; [apply fle_mul_pos; exact H|].
    replace (fmul K x x) with (fmul K (fopp K x) (fopp K x)) by ring. assert (N : fle (f0 K) (fopp K x)) by (apply fle_sub in H; replace (fopp K x) with (fsub K (f0 K) x) by ring; exact H).
    apply fle_mul_pos; exact N.
  Qed.
  Lemma Sum_nonneg A (l : list A) (f : A -> K) : (forall x, In x l -> fle (f0 K) (f x)) -> fle (f0 K) (S_ l f).
  Proof.
    induction l as [|x l IH]; intros H; [apply fle_refl|]. rewrite Sum_cons. cbn [madd fmon mcar].
    replace (f0 K) with (fadd K (f0 K) (f0 K)) by ring. apply fle_add2; [apply H; left; reflexivity|apply IH; intros; apply H; right; assumption].
  Qed.
  Lemma Sum_nonneg_zero A (l : list A) (f : A -> K) : (forall x, In x l -> fle (f0 K) (f x)) -> S_ l f = f0 K -> forall x, In x l -> f x = f0 K.
  Proof.
    induction l as [|y l IH]; intros H E x Hx; [destruct Hx|]. rewrite Sum_cons in E. cbn [madd fmon mcar] in E.
    assert (A1 : fle (f0 K) (f y)) by (apply H; left; reflexivity). assert (A2 : fle (f0 K) (S_ l f)) by (apply Sum_nonneg; intros; apply H; right; assumption).
    assert (B : f y = f0 K).
    { apply fle_antisym; [|exact A1]. rewrite <- E. revert A2. generalize (S_ l f). cbn [mcar fmon]. intros z A2. apply fle_sub. replace (fsub K (fadd K (f y) z) (f y)) with z by ring. exact A2. }
    destruct Hx as [<-|Hx]; [exact B|]. apply IH; [intros; apply H; right; assumption| |exact Hx]. rewrite B in E. transitivity (fadd K (f0 K) (S_ l f)); [symmetry; kring|exact E].
  Qed.
  (** The square of a sum of nonnegative numbers is at least the sum of their squares ... *)
  Lemma squares_le A (l : list A) (f : A -> K) : (forall x, In x l -> fle (f0 K) (f x)) -> fle (S_ l (fun x => fmul K (f x) (f x))) (fmul K (S_ l f) (S_ l f)).
  Proof.
    induction l as [|x l IH]; intros H.
    - rewrite !Sum_nil. cbn [m0 fmon]. replace (fmul K (f0 K) (f0 K)) with (f0 K) by ring. apply fle_refl.
    - rewrite !Sum_cons. cbn [madd fmon mcar]. specialize (IH (fun y Hy => H y (or_intror Hy))). assert (A1 : fle (f0 K) (f x)) by (apply H; left; reflexivity).
      assert (A2 : fle (f0 K) (S_ l f)) by (apply Sum_nonneg; intros; apply H; right; assumption).
      revert IH A1 A2. generalize (S_ l (fun x => fmul K (f x) (f x))) (S_ l f) (f x). cbn [mcar fmon]. intros q s y IH A1 A2.
      apply fle_sub. replace (fsub K (fmul K (fadd K y s) (fadd K y s)) (fadd K (fmul K y y) q)) with (fadd K (fadd K (fmul K y s) (fmul K y s)) (fsub K (fmul K s s) q)) by ring.
      apply fle_sub in IH. pose proof (fle_mul_pos A1 A2) as M. replace (f0 K) with (fadd K (fadd K (f0 K) (f0 K)) (f0 K)) by ring. apply fle_add2; [apply fle_add2; exact M|exact IH].
  Qed.
  Lemma deviations A (l : list A) (f : A -> K) y :
    fle (f0 K) (fadd K (fsub K (S_ l (fun x => fmul K (f x) (f x))) (fmul K (fmul K (fnat K 2) y) (S_ l f))) (fmul K (fnat K (length l)) (fmul K y y))).
  Proof.
    replace (fadd K (fsub K (S_ l (fun x => fmul K (f x) (f x))) (fmul K (fmul K (fnat K 2) y) (S_ l f))) (fmul K (fnat K (length l)) (fmul K y y))) with (S_ l (fun x => fmul K (fsub K (f x) y) (fsub K (f x) y))).
    - apply Sum_nonneg. intros. apply fle_square.
    - induction l as [|x l IH]; [rewrite !Sum_nil; cbn [m0 fmon length]; change (fnat K 0) with (f0 K); kring|]. rewrite !Sum_cons, IH. cbn [madd fmon mcar length]. rewrite (fnat_S K (length l)).
      replace (fnat K 2) with (fadd K (f1 K) (f1 K)) by (unfold fnat; simpl; ring). kring.
  Qed.
  (** ... and at most that times the number of terms. *)
  Lemma cauchy A (l : list A) (f : A -> K) : fle (fmul K (S_ l f) (S_ l f)) (fmul K (fnat K (length l)) (S_ l (fun x => fmul K (f x) (f x)))).
  Proof.
    induction l as [|x l IH].
    - rewrite !Sum_nil. cbn [m0 fmon length]. change (fnat K 0) with (f0 K). replace (fmul K (f0 K) (f0 K)) with (f0 K) by ring. apply fle_refl.
    - pose proof (deviations l f (f x)) as D. rewrite !Sum_cons. cbn [length madd fmon mcar]. rewrite fnat_S.
      revert IH D. generalize (S_ l (fun x => fmul K (f x) (f x))) (S_ l f) (f x) (fnat K (length l)). cbn [mcar fmon]. intros q s y n IH D. apply fle_sub in IH. apply fle_sub.
      replace (fsub K (fmul K (fadd K (f1 K) n) (fadd K (fmul K y y) q)) (fmul K (fadd K y s) (fadd K y s))) with (fadd K (fsub K (fmul K n q) (fmul K s s)) (fadd K (fsub K q (fmul K (fmul K (fadd K (f1 K) (f1 K)) y) s)) (fmul K n (fmul K y y)))) by ring.
      replace (f0 K) with (fadd K (f0 K) (f0 K)) by ring. apply fle_add2; [exact IH|]. replace (fadd K (f1 K) (f1 K)) with (fnat K 2) by (unfold fnat; simpl; ring). exact D.
  Qed.

  Lemma flt_div (x y z : K) : flt K (f0 K) z = true -> fle x y -> fle (fdiv K x z) (fdiv K y z).
  Proof. intros H1 H2. apply fle_div; assumption. Qed.
  Lemma square_pos (x : K) : x <> f0 K -> flt K (f0 K) (fmul K x x) = true.
  Proof.
    intros H. pose proof (fle_square x) as L. apply fle_cases in L. destruct L as [L|L]; [exact L|]. exfalso. apply H.
    assert (I : fmul K (finv K x) (fmul K x x) = x) by (field; exact H). rewrite <- L in I. rewrite <- I. ring.
  Qed.

  Lemma triangle_zero h c p : h <= Nat.max p c - Nat.min p c -> triangle_weight K h c p = f0 K.
  Proof.
    intros H. unfold triangle_weight. replace (h - (Nat.max p c - Nat.min p c)) with 0 by lia. change (fnat K 0) with (f0 K).
    rewrite (Field_theory.Fdiv_def (flaw K)). ring.
  Qed.
  Lemma triangle_pos h c p : Nat.max p c - Nat.min p c < h -> flt K (f0 K) (triangle_weight K h c p) = true.
  Proof.
    intros H. unfold triangle_weight. rewrite (Field_theory.Fdiv_def (flaw K)). apply flt_mul_pos; [apply flt_fnat; lia|apply flt_inv, flt_fnat; nia].
  Qed.
  Definition inside (h c p : nat) : bool := Nat.max p c - Nat.min p c <? h.
  Lemma inside_few h c n : length (filter (inside h c) (seq 0 n)) <= 2 * h - 1.
  Proof.
    rewrite <- (seq_length (2 * h - 1) (c + 1 - h)). apply NoDup_incl_length; [apply NoDup_filter, seq_NoDup|].
    intros p Hp. apply filter_In in Hp. destruct Hp as [_ Hp]. unfold inside in Hp. apply in_seq. lia.
  Qed.
  Section Entry.
    Variables (h c : nat) (count : list K).
    Hypothesis Hcount : forall y, In y count -> fle (f0 K) y.
    Let x p := fmul K (triangle_weight K h c p) (nth p count (f0 K)).
    Let m : K := Sum (fmon K) (seq 0 (length count)) x.
    Let D : K := Sum (fmon K) (seq 0 (length count)) (fun p => fmul K (x p) (x p)).
    Lemma x_nonneg p : fle (f0 K) (x p).
    Proof.
      unfold x. destruct (Nat.lt_ge_cases (Nat.max p c - Nat.min p c) h) as [L|L].
      - apply fle_mul_pos; [apply flt_le, triangle_pos; exact L|]. destruct (Nat.lt_ge_cases p (length count)) as [P|P]; [apply Hcount, nth_In; exact P|rewrite nth_overflow by exact P; apply fle_refl].
      - rewrite triangle_zero by exact L. replace (fmul K (f0 K) (nth p count (f0 K))) with (f0 K) by ring. apply fle_refl.
    Qed.
    Lemma some_pos : (exists p, p < length count /\ Nat.max p c - Nat.min p c < h /\ nth p count (f0 K) <> f0 K) -> flt K (f0 K) D = true /\ flt K (f0 K) m = true.
    Proof.
      intros (p & Hp & Hi & Hn).
      assert (X : x p <> f0 K). { unfold x. intros E. apply Hn. pose proof (@flt_neq _ _ _ (@triangle_pos h c p Hi)) as W. transitivity (fmul K (finv K (triangle_weight K h c p)) (fmul K (triangle_weight K h c p) (nth p count (f0 K)))); [field; congruence|]. rewrite E. ring. }
      assert (HD : fle (f0 K) D) by (apply Sum_nonneg; intros; apply fle_square). assert (Hm : fle (f0 K) m) by (apply Sum_nonneg; intros; apply x_nonneg).
      assert (I : In p (seq 0 (length count))) by (apply in_seq; lia). split.
      - apply fle_cases in HD. destruct HD as [HD|HD]; [exact HD|]. exfalso. symmetry in HD.
        pose proof (@Sum_nonneg_zero _ (seq 0 (length count)) (fun p => fmul K (x p) (x p)) ltac:(intros; apply fle_square) HD p I) as Z. cbn beta in Z. pose proof (square_pos X) as P. rewrite Z in P. rewrite flt_irrefl in P. discriminate.
      - apply fle_cases in Hm. destruct Hm as [Hm|Hm]; [exact Hm|]. exfalso. symmetry in Hm. apply X.
        apply (@Sum_nonneg_zero _ (seq 0 (length count)) x ltac:(intros; apply x_nonneg) Hm p I).
    Qed.
    Lemma none_zero : (forall p, p < length count -> Nat.max p c - Nat.min p c < h -> nth p count (f0 K) = f0 K) -> D = f0 K.
    Proof.
      intros H. apply (@Sum_zero (fmon K)). intros p Hp. apply in_seq in Hp. unfold x. destruct (Nat.lt_ge_cases (Nat.max p c - Nat.min p c) h) as [L|L].
      - rewrite H by lia. cbn [m0 fmon]. kring.
      - rewrite triangle_zero by exact L. cbn [m0 fmon]. kring.
    Qed.
    Lemma cut_sum (g : nat -> K) : (forall p, inside h c p = false -> g p = f0 K) -> Sum (fmon K) (filter (inside h c) (seq 0 (length count))) g = Sum (fmon K) (seq 0 (length count)) g.
    Proof. intros H. rewrite Sum_filter. apply Sum_ext. intros p _. destruct (inside h c p) eqn:E; [reflexivity|]. symmetry. apply H, E. Qed.
    Lemma upper : fle (fmul K m m) (fmul K (fnat K (2 * h - 1)) D).
    Proof.
      assert (Z : forall p, inside h c p = false -> x p = f0 K) by (intros p Hp; unfold x, inside in *; rewrite triangle_zero by lia; ring).
      pose proof (cauchy (filter (inside h c) (seq 0 (length count))) x) as C. rewrite !cut_sum in C by (intros p Hp; rewrite ?Z by exact Hp; ring || reflexivity).
      eapply fle_trans; [exact C|]. assert (HD : fle (f0 K) D) by (apply Sum_nonneg; intros; apply fle_square). fold D.
      pose proof (inside_few h c (length count)) as F. apply fle_sub. unfold m, D in *.
      replace (2 * h - 1) with (length (filter (inside h c) (seq 0 (length count))) + (2 * h - 1 - length (filter (inside h c) (seq 0 (length count))))) by lia.
      rewrite fnat_add. generalize dependent (2 * h - 1 - length (filter (inside h c) (seq 0 (length count)))). intros d. generalize (fnat K (length (filter (inside h c) (seq 0 (length count))))). intros a.
      revert HD. generalize (Sum (fmon K) (seq 0 (length count)) (fun p => fmul K (x p) (x p))). cbn [mcar fmon]. intros D' HD.
      replace (fsub K (fmul K (fadd K a (fnat K d)) D') (fmul K a D')) with (fmul K (fnat K d) D') by ring. apply fle_mul_pos; [apply fle_0_fnat|exact HD].
    Qed.
    Lemma between : (exists p, p < length count /\ Nat.max p c - Nat.min p c < h /\ nth p count (f0 K) <> f0 K) ->
      fle m (effective K h c count) /\ fle (effective K h c count) (fmul K (fnat K (2 * h - 1)) m).
    Proof.
      intros H. destruct (some_pos H) as [HD Hm]. change (effective K h c count) with (fdiv K (fmul K (fmul K m m) m) D).
      pose proof (@squares_le _ (seq 0 (length count)) x ltac:(intros; apply x_nonneg)) as L1. change (fle D (fmul K m m)) in L1. pose proof upper as L2.
      pose proof (@flt_neq _ _ _ HD) as ND. assert (ND' : D <> f0 K) by congruence. clear ND H. clearbody m D. split.
      - replace m with (fdiv K (fmul K m D) D) at 1 by (field; exact ND'). apply fle_div; [|exact HD].
        replace (fmul K (fmul K m m) m) with (fmul K m (fmul K m m)) by ring. apply fle_mul; [exact L1|apply flt_le; exact Hm].
      - replace (fmul K (fnat K (2 * h - 1)) m) with (fdiv K (fmul K m (fmul K (fnat K (2 * h - 1)) D)) D) by (field; exact ND'). apply fle_div; [|exact HD].
        replace (fmul K (fmul K m m) m) with (fmul K m (fmul K m m)) by ring. apply fle_mul; [exact L2|apply flt_le; exact Hm].
    Qed.
  End Entry.
End Mean.

(** If the kernel is not longer than the data, entry (l, k) is the effective count of an
    average over the triangle about delay k * 2^l, without any measurement there it is nan,
    and so it is beyond the data. *)
Theorem C75_effective (K : OFld) (count : list K) level_size rows l k :
  (forall y, In y count -> fle (f0 K) y) -> multilevel_count K count level_size BINNING_MEAN = Ok rows ->
  l < length rows -> k < Z.to_nat level_size -> 2 * 2 ^ l - 1 <= length count ->
  let some := exists p, p < length count /\ Nat.max p (k * 2 ^ l) - Nat.min p (k * 2 ^ l) < 2 ^ l /\ nth p count (f0 K) <> f0 K in
  (length count <= k * 2 ^ l -> nth k (nth l rows []) None = None) /\
  (k * 2 ^ l < length count -> some -> nth k (nth l rows []) None = Some (effective K (2 ^ l) (k * 2 ^ l) count)) /\
  (~ some -> nth k (nth l rows []) None = None).
Proof.
  intros Hcount HE Hl Hk HN some.
  assert (Hc : count <> []) by (intros ->; pose proof (pow2_pos l); cbn [length] in HN; lia).
  assert (Hs : (2 <= level_size)%Z) by (unfold multilevel_count in HE; destruct (Z.ltb_spec level_size 2); [discriminate|assumption]).
  rewrite multilevel_count_ok in HE by assumption. apply ok_inj in HE. subst rows. rewrite map_length, seq_length in Hl. rewrite nth_map_seq by exact Hl. rewrite the_row_mean by assumption.
  set (c := k * 2 ^ l) in *. set (h := 2 ^ l) in *.
  assert (E1 : mean_count K h c count = Sum (fmon K) (seq 0 (length count)) (fun p => fmul K (triangle_weight K h c p) (nth p count (f0 K)))) by (apply Sum_ext; intros; rewrite weight_triangle; reflexivity).
  assert (E2 : square_count K h c count = Sum (fmon K) (seq 0 (length count)) (fun p => fmul K (fmul K (triangle_weight K h c p) (nth p count (f0 K))) (fmul K (triangle_weight K h c p) (nth p count (f0 K))))) by (apply Sum_ext; intros; rewrite weight_triangle; reflexivity).
  rewrite E1, E2. split; [|split].
  - intros H. replace (c <? length count) with false by lia. reflexivity.
  - intros H HS. replace (c <? length count) with true by lia. destruct (@some_pos K h c count Hcount HS) as [P _]. unfold cube_ratio. cbn [mcar fmon] in *. rewrite P. reflexivity.
  - intros HS. assert (Z0 : forall p, p < length count -> Nat.max p c - Nat.min p c < h -> nth p count (f0 K) = f0 K).
    { intros p Hp Hi. destruct (fle_total K (nth p count (f0 K)) (f0 K)) as [L|L].
      - apply fle_antisym; [exact L|]. apply Hcount, nth_In. exact Hp.
      - apply fle_cases in L. destruct L as [L|L]; [|symmetry; exact L]. exfalso. apply HS. exists p. repeat split; try assumption. intros E. rewrite E, flt_irrefl in L. discriminate. }
    pose proof (@none_zero K h c count Hcount Z0) as D0. cbn [mcar fmon] in *. rewrite D0. unfold cube_ratio. rewrite flt_irrefl. cbn [orb]. destruct (c <? length count); reflexivity.
Qed.
Print Assumptions C75_effective.

(** It lies between the mean count and the number of delays of the triangle times the mean. *)
Theorem C75_between (K : OFld) h c (count : list K) : (forall y, In y count -> fle (f0 K) y) ->
  (exists p, p < length count /\ Nat.max p c - Nat.min p c < h /\ nth p count (f0 K) <> f0 K) ->
  let mean := Sum (fmon K) (seq 0 (length count)) (fun p => fmul K (triangle_weight K h c p) (nth p count (f0 K))) in
  fle mean (effective K h c count) /\ fle (effective K h c count) (fmul K (fnat K (2 * h - 1)) mean).
Proof. intros Hc Hs mean. exact (@between K h c count Hc Hs). Qed.
Print Assumptions C75_between.

Lemma window_sum (M : CMon) h c n (g : nat -> M) : 0 < h -> h - 1 <= c -> c + h <= n -> (forall p, h <= Nat.max p c - Nat.min p c -> g p = m0 M) ->
  Sum M (seq 0 n) g = Sum M (seq 0 (2 * h - 1)) (fun i => g (i + (c - (h - 1)))).
Proof.
  intros Hh Hc Hn Z. replace n with (c - (h - 1) + (2 * h - 1 + (n - (c + h)))) by lia. rewrite seq_app, Sum_app, seq_app, Sum_app.
  rewrite (@Sum_zero M _ (seq 0 (c - (h - 1)))) by (intros p Hp; apply in_seq in Hp; apply Z; lia).
  rewrite (@Sum_zero M _ (seq _ (n - (c + h)))) by (intros p Hp; apply in_seq in Hp; apply Z; lia).
  rewrite madd_0_l, madd_comm, madd_0_l. cbn [Nat.add]. apply Sum_seq_shift.
Qed.
Lemma triangle_squares h : 0 < h -> 3 * Sum natmon (seq 0 (2 * h - 1)) (fun i => Nat.min (i + 1) (2 * h - 1 - i) * Nat.min (i + 1) (2 * h - 1 - i)) = h * (2 * h * h + 1).
Proof.
  intros Hh. replace (2 * h - 1) with (h + (h - 1)) at 1 by lia. rewrite seq_app, Sum_app. cbn [Nat.add].
  assert (A : forall m, 6 * Sum natmon (seq 0 m) (fun i => (i + 1) * (i + 1)) = m * (m + 1) * (2 * m + 1)).
  { induction m as [|m IH]; [reflexivity|]. rewrite seq_last, Sum_app, Sum_cons, Sum_nil. cbn [natmon madd m0 Nat.add mcar] in *. nia. }
  rewrite (@Sum_ext natmon _ (seq 0 h) _ (fun i => (i + 1) * (i + 1))) by (intros i Hi; apply in_seq in Hi; replace (Nat.min (i + 1) (2 * h - 1 - i)) with (i + 1) by lia; reflexivity).
  rewrite (@Sum_ext natmon _ (seq h (h - 1)) _ (fun i => (2 * h - 1 - i) * (2 * h - 1 - i))) by (intros i Hi; apply in_seq in Hi; replace (Nat.min (i + 1) (2 * h - 1 - i)) with (2 * h - 1 - i) by lia; reflexivity).
  assert (B : Sum natmon (seq h (h - 1)) (fun i => (2 * h - 1 - i) * (2 * h - 1 - i)) = Sum natmon (seq 0 (h - 1)) (fun i => (i + 1) * (i + 1))).
  { rewrite Sum_seq_shift. destruct h as [|[|h]]; [lia|reflexivity|]. replace (S (S h) - 1) with (S h) by lia.
    rewrite <- (Sum_reverse natmon h (fun i => (i + 1) * (i + 1))). apply Sum_ext. intros i Hi. apply in_seq in Hi. replace (2 * S (S h) - 1 - (i + S (S h))) with (h - i + 1) by lia. reflexivity. }
  rewrite B. pose proof (A h) as A1. pose proof (A (h - 1)) as A2. cbn [natmon madd m0 mcar] in *. destruct h as [|h]; [lia|]. replace (S h - 1) with h in * by lia. nia.
Qed.

(** [n] measurements of each delay of the triangle count as n * 3 h^3 / (2 h^2 + 1). *)
Section Uniform.
Variable K : OFld.
Add Field KuniF : (flaw K).
Local Ltac kf := match goal with |- @eq _ ?a ?b => change (@eq (fcar K) a b) end.
Local Ltac kz := match goal with |- @eq _ ?a ?b => change (@eq (fcar K) a (f0 K)) end.
Theorem C75_uniform h c (count : list K) (n : K) : 0 < h -> h - 1 <= c -> c + h <= length count -> n <> f0 K ->
  (forall p, Nat.max p c - Nat.min p c < h -> nth p count (f0 K) = n) ->
  effective K h c count = fdiv K (fmul K n (fnat K (3 * h * h * h))) (fnat K (2 * h * h + 1)).
Proof.
  intros Hh Hc HN Hn HU. unfold effective.
  assert (T : forall i, i < 2 * h - 1 -> h - (Nat.max (i + (c - (h - 1))) c - Nat.min (i + (c - (h - 1))) c) = Nat.min (i + 1) (2 * h - 1 - i)) by (intros; lia).
  set (hh := fnat K (h * h)). assert (Hz : hh <> f0 K) by (apply fnat_neq0; nia).
  assert (E1 : Sum (fmon K) (seq 0 (length count)) (fun p => fmul K (triangle_weight K h c p) (nth p count (f0 K))) = n).
  { rewrite (@window_sum (fmon K) h c); try assumption.
    - rewrite (@Sum_ext (fmon K) _ _ _ (fun i => fmul K (fdiv K n hh) (fnat K (Nat.min (i + 1) (2 * h - 1 - i))))).
      + rewrite Sum_fmul, <- fnat_Sum, triangle_sum by exact Hh. fold hh. clearbody hh. kf. field. exact Hz.
      + intros i Hi. apply in_seq in Hi. rewrite HU by lia. unfold triangle_weight. rewrite T by lia. fold hh. kf. field. exact Hz.
    - intros p Hp. rewrite triangle_zero by exact Hp. kz. ring. }
  assert (E2 : Sum (fmon K) (seq 0 (length count)) (fun p => fmul K (fmul K (triangle_weight K h c p) (nth p count (f0 K))) (fmul K (triangle_weight K h c p) (nth p count (f0 K)))) =
    fmul K (fdiv K (fmul K n n) (fmul K hh hh)) (fdiv K (fnat K (h * (2 * h * h + 1))) (fnat K 3))).
  { rewrite (@window_sum (fmon K) h c); try assumption.
    - rewrite (@Sum_ext (fmon K) _ _ _ (fun i => fmul K (fdiv K (fmul K n n) (fmul K hh hh)) (fnat K (Nat.min (i + 1) (2 * h - 1 - i) * Nat.min (i + 1) (2 * h - 1 - i))))).
      + rewrite Sum_fmul, <- fnat_Sum. f_equal. rewrite <- triangle_squares by exact Hh. rewrite fnat_mul. pose proof (@fnat_neq0 K 3 ltac:(lia)) as H3. revert H3. generalize (fnat K 3). intros t H3. cbn [mcar natmon]. kf. field. exact H3.
      + intros i Hi. apply in_seq in Hi. rewrite HU by lia. unfold triangle_weight. rewrite T by lia. fold hh. rewrite fnat_mul. kf. field. exact Hz.
    - intros p Hp. rewrite triangle_zero by exact Hp. kz. ring. }
  rewrite E1, E2. unfold hh in *. replace (3 * h * h * h) with (3 * (h * (h * h))) by lia. rewrite !fnat_mul in *.
  pose proof (@fnat_neq0 K 3 ltac:(lia)) as H3. pose proof (@fnat_neq0 K h ltac:(lia)) as Hk. pose proof (@fnat_neq0 K (2 * h * h + 1) ltac:(lia)) as Hd. rewrite fnat_add, !fnat_mul in *.
  revert H3 Hk Hd Hn. generalize (fnat K 3) (fnat K h) (fnat K 2) (fnat K 1). cbn [mcar fmon]. intros t u v w H3 Hk Hd Hn. field. repeat split; assumption.
Qed.
End Uniform.
Print Assumptions C75_uniform.

(** A level size of at least 4 leaves no level whose kernel is longer than the data. *)
Theorem C75_fits (K : OFld) (count : list K) level_size binning rows l : (4 <= level_size)%Z -> count <> [] ->
  multilevel_count K count level_size binning = Ok rows -> l < length rows -> 2 * 2 ^ l - 1 <= length count.
Proof.
  intros Hs Hc HE Hl. rewrite multilevel_count_ok in HE by (assumption || lia). apply ok_inj in HE. subst rows. rewrite map_length, seq_length in Hl.
  destruct (@levels_of_spec (Z.to_nat level_size) (length count) ltac:(lia)) as [_ B]. destruct l as [|l].
  - destruct count; [congruence|cbn; lia].
  - specialize (B l ltac:(lia)). rewrite pow2_S. pose proof (pow2_pos l). nia.
Qed.
Print Assumptions C75_fits.
(** With fewer entries per level numpy centres the convolution on the longer array, which is the
    kernel, and the triangle of delay 0 is not about delay 0. *)
Theorem C75_short_refuted : exists (count : list QcO) rows l k,
  multilevel_count QcO count 2 BINNING_MEAN = Ok rows /\ l < length rows /\ k < 2 /\ k * 2 ^ l < length count /\
  (exists p, p < length count /\ Nat.max p (k * 2 ^ l) - Nat.min p (k * 2 ^ l) < 2 ^ l /\ nth p count (f0 QcO) <> f0 QcO) /\
  nth k (nth l rows []) None <> Some (effective QcO (2 ^ l) (k * 2 ^ l) count).
Proof.
  exists [q 1; q 0; q 0; q 0; q 0]. eexists _, 2, 0. split; [apply multilevel_count_ok; [lia|discriminate]|].
  rewrite map_length, seq_length. change (levels_of (Z.to_nat 2) (length [q 1; q 0; q 0; q 0; q 0])) with 2. split; [lia|]. split; [lia|]. split; [cbn; lia|]. split.
  - exists 0. split; [cbn; lia|]. split; [cbn; lia|]. intros E. apply (f_equal show) in E. vm_compute in E. discriminate.
  - rewrite nth_map_seq by lia. intros E. apply (f_equal (option_map show)) in E. vm_compute in E. discriminate.
Qed.
Print Assumptions C75_short_refuted.

Section Cube.
  Variable K : OFld.
  Add Field KcubeF : (flaw K).
  Lemma div_cube (n : K) : n <> f0 K -> fmul K (fmul K (fmul K n n) n) (finv K (fmul K n n)) = n.
  Proof. intros H. field. exact H. Qed.
  Lemma zero_square : f0 K = fmul K (f0 K) (f0 K).
  Proof. ring. Qed.
End Cube.

(** Without averaging the counts are those of the chosen delays. *)
Theorem C75_first (K : OFld) (count : list K) level_size binning rows l k : binning <> BINNING_MEAN -> count <> [] ->
  multilevel_count K count level_size binning = Ok rows -> l < length rows -> k < Z.to_nat level_size -> k * 2 ^ l < length count ->
  let n := nth (k * 2 ^ l) count (f0 K) in
  (n <> f0 K -> nth k (nth l rows []) None = Some n) /\ (n = f0 K -> nth k (nth l rows []) None = None).
Proof.
  intros Hb Hc HE Hl Hk HN n. assert (Hs : (2 <= level_size)%Z) by (unfold multilevel_count in HE; destruct (Z.ltb_spec level_size 2); [discriminate|assumption]).
  rewrite multilevel_count_ok in HE by assumption. apply ok_inj in HE. subst rows. rewrite map_length, seq_length in Hl. rewrite nth_map_seq by exact Hl. rewrite the_row_first by assumption.
  replace (k * 2 ^ l <? length count) with true by lia. fold n. clearbody n. unfold cube_ratio, square. split.
  - intros H. rewrite square_pos by exact H. cbn [orb]. f_equal. pose proof (flaw K) as F. 
    rewrite (Field_theory.Fdiv_def F). apply (@div_cube K n H).
  - intros ->. rewrite <- (zero_square K). rewrite flt_irrefl. reflexivity.
Qed.
Print Assumptions C75_first.
Theorem C75_errors (K : OFld) (count : list K) level_size binning :
  ((level_size < 2)%Z -> multilevel_count K count level_size binning = Raise ValueError) /\
  ((2 <= level_size)%Z -> multilevel_count K [] level_size binning = Raise ValueError).
Proof.
  split; intros H; unfold multilevel_count.
  - replace (level_size <? 2)%Z with true by lia. reflexivity.
  - replace (level_size <? 2)%Z with false by lia. cbn [length]. change (levels_of (Z.to_nat level_size) 0) with 0. cbn [Nat.add seq fold_left bind]. unfold count_row. destruct (binning =? BINNING_MEAN)%Z; reflexivity.
Qed.
Print Assumptions C75_errors.

(* ------------------------------------------------------------------ *)
(** * log_average_count, log_merge_count *)
Lemma merge_full_times (V W : Type) n (d : list (list V)) (d' : list (list W)) x y x' y' : length d = length d' ->
  merge_full n d = Ok (x, y) -> merge_full n d' = Ok (x', y') -> x = x'.
Proof.
  intros HL E E'. destruct d as [|r d]; [discriminate|]. destruct d' as [|r' d']; [discriminate|]. cbn [length] in HL. injection HL as HL.
  unfold merge_full, merge_half in *. destruct (negb (n mod 2 =? 0)); [discriminate|]. cbn [bind fst] in *. apply ok_inj in E. apply ok_inj in E'. injection E as <- _. injection E' as <- _. rewrite HL. reflexivity.
Qed.
Lemma merge_half_times (V W : Type) n (d : list (list V)) (d' : list (list W)) x y x' y' : length d = length d' ->
  merge_half n d = Ok (x, y) -> merge_half n d' = Ok (x', y') -> x = x'.
Proof.
  intros HL E E'. unfold merge_half in *. destruct (negb (n mod 2 =? 0)); [discriminate|]. apply ok_inj in E. apply ok_inj in E'. injection E as <- _. injection E' as <- _. rewrite HL. reflexivity.
Qed.

(** The counts of the rows of multilevel_count, with the times that log_average gives to data
    of the same length. *)
Theorem C75_log_average (K : OFld) junk (count data : list K) size r : (1 <= size)%Z -> count <> [] -> length data = length count ->
  exists rows x y y', multilevel_count K count (size * 2) BINNING_MEAN = Ok rows /\ log_average_count K count size = Ok (x, y) /\
    length x = length y /\ combine x y = merged_full (Z.to_nat (size * 2)) rows None /\
    log_average (f0 K) (real_conv K junk) data size r = Ok (x, y').
Proof.
  intros Hs Hc HL. destruct (@C75_shape K count (size * 2) BINNING_MEAN ltac:(lia) Hc) as (rows & L & E & HR & L1 & L2 & HW).
  assert (H0 : rows <> []) by (intros ->; cbn in HR; lia).
  destruct (@C48_full (option K) (Z.to_nat (size * 2)) rows None ltac:(lia) H0 HW) as (x & y & F1 & F2 & F3 & F4).
  destruct (@C48_log_average K junk data size r Hs) as (rows' & x' & y' & G1 & G2 & G3 & G4 & _).
  exists rows, x, y, y'. split; [exact E|]. split; [unfold log_average_count; rewrite E; exact F1|]. split; [exact F2|]. split; [exact F3|].
  rewrite G2. do 2 f_equal.
  destruct (@multilevel_shape K (f0 K) (real_conv K junk) (@real_conv_ok K junk) data (size * 2) BINNING_MEAN r eq_refl ltac:(lia)) as (rows2 & E2 & HL2 & _). rewrite E2 in G1. apply ok_inj in G1. subst rows2.
  assert (EL : L = levels_of (Z.to_nat (size * 2)) (length data)) by (symmetry; apply levels_of_least; [lia|rewrite HL; exact L1|rewrite HL; exact L2]).
  unfold log_average in G2. replace (size <? 1)%Z with false in G2 by lia. rewrite E2 in G2. cbn [bind] in G2.
  apply (@merge_full_times (option K) (option K) (Z.to_nat (size * 2)) rows' rows x' y' x y); [|exact G2|exact F1]. rewrite HR, HL2, <- EL. lia.
Qed.
Print Assumptions C75_log_average.
Theorem C75_log_merge (K : OFld) junk (lin_count lin : list K) n (multi_count multi : list (list (option K))) period binning r : _inspect_binning binning = Ok binning ->
  2 <= n -> n mod 2 = 0 -> 1 <= period -> length lin_count = period * n -> length lin = period * n -> length multi = length multi_count ->
  (forall row, In row multi_count -> length row = n) -> (forall row, In row multi -> length row = n) ->
  exists rows x y y', multilevel_count K lin_count (Z.of_nat n) binning = Ok rows /\ log_merge_count K lin_count n multi_count binning = Ok (x, y) /\
    length x = length y /\ combine x y = merged_full n rows None ++ merged_half (2 * period) n multi_count None /\
    log_merge (f0 K) (real_conv K junk) lin n multi binning r = Ok (x, y').
Proof.
  intros Hb H2 Hn Hp HL HL' HM HR HR'.
  assert (Hc : lin_count <> []) by (intros ->; cbn in HL; nia).
  destruct (@C75_shape K lin_count (Z.of_nat n) binning ltac:(lia) Hc) as (rows & L & E & HRw & L1 & L2 & HW). rewrite Nat2Z.id in *.
  assert (H0 : rows <> []) by (intros ->; cbn in HRw; lia).
  destruct (@C48_full (option K) n rows None Hn H0 HW) as (x & y & F1 & F2 & F3 & F4).
  destruct (@C48_half (option K) n multi_count None Hn HR) as (u & v & U1 & U2 & U3 & U4).
  destruct (@C48_half (option K) n multi None Hn HR') as (u' & v' & V1 & V2 & V3 & V4).
  destruct (@multilevel_shape K (f0 K) (real_conv K junk) (@real_conv_ok K junk) lin (Z.of_nat n) binning r Hb ltac:(lia)) as (rows2 & E2 & HL2 & HW2 & _). rewrite Nat2Z.id in *.
  assert (H02 : rows2 <> []) by (intros ->; cbn in HL2; lia).
  destruct (@C48_full (option K) n rows2 None Hn H02 HW2) as (x2 & y2 & X1 & _).
  exists rows, (x ++ map (fun t => 2 * period * t) u), (y ++ v), (y2 ++ v'). split; [exact E|].
  assert (Hd : period * n / n = period) by (apply Nat.div_mul; lia). assert (Hm : (period * n) mod n = 0) by (apply Nat.mod_mul; lia).
  split; [|split; [|split]].
  - unfold log_merge_count. replace (n =? 0) with false by lia. rewrite HL, Hd, Hm. cbn [Nat.eqb negb]. rewrite E. cbn [bind]. rewrite F1, U1. reflexivity.
  - rewrite !app_length, map_length. lia.
  - rewrite combine_app' by exact F2. rewrite F3. f_equal. rewrite combine_map_l, U3. unfold merged_half. rewrite map_flat_map. rewrite !flat_map_concat_map. f_equal. apply map_ext. intros l. rewrite map_map. apply map_ext. intros k. cbn [fst snd]. rewrite Nat.mul_1_l. reflexivity.
  - unfold log_merge. rewrite Hb. cbn [bind]. replace (n =? 0) with false by lia. rewrite HL', Hd, Hm. cbn [Nat.eqb negb]. rewrite E2. cbn [bind]. rewrite X1, V1. cbn [bind fst snd]. do 2 f_equal. f_equal.
    + symmetry. apply (@merge_full_times (option K) (option K) n rows rows2 x y x2 y2); [|exact F1|exact X1].
      assert (EL : L = levels_of n (length lin)) by (symmetry; apply levels_of_least; [lia|rewrite HL', <- HL; exact L1|rewrite HL', <- HL; exact L2]). rewrite HRw, HL2, <- EL. lia.
    + f_equal. symmetry. apply (@merge_half_times (option K) (option K) n multi_count multi u v u' v'); [symmetry; exact HM|exact U1|exact V1].
Qed.
Print Assumptions C75_log_merge.
(** The length of the linear counts has to be a multiple of the length of a row. *)
Theorem C75_log_merge_refused (K : OFld) (lin_count : list K) n multi_count binning :
  (n = 0 -> log_merge_count K lin_count n multi_count binning = Raise ZeroDivisionError) /\
  (n <> 0 -> length lin_count mod n <> 0 -> log_merge_count K lin_count n multi_count binning = Raise ValueError).
Proof.
  unfold log_merge_count. split; [intros ->; reflexivity|]. intros H1 H2. apply Nat.eqb_neq in H1, H2. rewrite H1, H2. reflexivity.
Qed.
Print Assumptions C75_log_merge_refused.

(* ------------------------------------------------------------------ *)
(** * ccorr_multi_count, acorr_multi_count *)
Section Multi.
  Variable K : OFld.
  Add Field KmultF : (flaw K).
  Local Ltac kf := match goal with |- @eq _ ?a ?b => change (@eq (fcar K) a b) end.

  Lemma linspace_length (a b : K) n : length (linspace K a b n) = n.
  Proof. unfold linspace. destruct (Nat.eqb_spec n 1) as [->|]; [reflexivity|]. rewrite map_length, seq_length. reflexivity. Qed.
  Lemma linspace_nth (a b : K) n i d : 2 <= n -> i < n -> nth i (linspace K a b n) d = fadd K a (fmul K (fnat K i) (fdiv K (fsub K b a) (fnat K (n - 1)))).
  Proof. intros H1 H2. unfold linspace. replace (n =? 1) with false by lia. rewrite nth_map_seq by exact H2. reflexivity. Qed.

  (** The linear counts: n, n-1, ..., 1 measurements of the delays 0, 1, ..., n-1. *)
  Lemma falling n : linspace K (fnat K n) (f1 K) n = map (fun i => fnat K (n - i)) (seq 0 n).
  Proof.
    destruct (Nat.eq_dec n 1) as [->|H1]; [reflexivity|]. apply list_nth_ext with (d := f0 K); [rewrite linspace_length, map_length, seq_length; reflexivity|].
    rewrite linspace_length. intros i Hi. rewrite linspace_nth, nth_map_seq by lia. replace (fnat K n) with (fadd K (fnat K (n - 1)) (f1 K)).
    - pose proof (@fnat_neq0 K (n - 1) ltac:(lia)) as Z. assert (E : fadd K (fnat K (n - i)) (fnat K i) = fadd K (fnat K (n - 1)) (f1 K)).
      { replace (f1 K) with (fnat K 1) by (unfold fnat; simpl; ring). rewrite <- !fnat_add. f_equal. lia. }
      revert Z E. generalize (fnat K (n - 1)) (fnat K (n - i)) (fnat K i). intros a b c Z E. transitivity (fsub K (fadd K a (f1 K)) c); [field; exact Z|]. rewrite <- E. ring.
    - replace (f1 K) with (fnat K 1) by (unfold fnat; simpl; ring). rewrite <- fnat_add. f_equal. lia.
  Qed.

  (** The slow counts are those of multilevel_count of the counts factor * (count - i), without
      the first level; without averaging level l is divided by 2^l. *)
  Definition slow_spec (factor : K) (count : nat) (level_size binning : Z) (slow : list (list (option K))) : Prop :=
    exists rows, multilevel_count K (map (fun i => fmul K (fnat K (count - i)) factor) (seq 0 count)) level_size binning = Ok rows /\
      length slow = length rows - 1 /\
      forall l k, S l < length rows -> nth k (nth l slow []) None =
        option_map (fun x => if (binning =? BINNING_MEAN)%Z then x else fdiv K x (fnat K (2 ^ S l))) (nth k (nth (S l) rows []) None).
  Lemma slow_ok factor count level_size binning : (2 <= level_size)%Z -> 0 < count -> exists slow, slow_count K factor count level_size binning = Ok slow /\ slow_spec factor count level_size binning slow.
  Proof.
    intros Hs Hc. unfold slow_count, slow_spec. rewrite falling, map_map.
    destruct (@C75_shape K (map (fun i => fmul K (fnat K (count - i)) factor) (seq 0 count)) level_size binning Hs) as (rows & L & E & HR & _). { destruct count; [lia|discriminate]. }
    rewrite E. cbn [bind]. eexists. split; [reflexivity|]. exists rows. split; [reflexivity|].
    assert (SN : forall A (l : list A) i d, nth i (skipn 1 l) d = nth (S i) l d) by (intros A [|x l] i d; [destruct i; reflexivity|reflexivity]).
    destruct (binning =? BINNING_MEAN)%Z.
    - rewrite skipn_length. split; [reflexivity|]. intros l k Hl. rewrite SN. destruct (nth k (nth (S l) rows []) None); reflexivity.
    - rewrite skipn_length. unfold halve_levels. rewrite map_length, combine_length, seq_length, Nat.min_id. split; [reflexivity|]. intros l k Hl. rewrite SN.
      rewrite (nth_indep _ [] (map (option_map (fun x => fdiv K x (fnat K (2 ^ (fst (0, @nil (option K))))))) (snd (0, @nil (option K))))) by (rewrite map_length, combine_length, seq_length; lia).
      rewrite (map_nth (fun p => map (option_map (fun x => fdiv K x (fnat K (2 ^ (fst p))))) (snd p))). rewrite combine_nth by (rewrite seq_length; reflexivity). cbn [fst snd]. rewrite seq_nth by exact Hl. cbn [Nat.add].
      change (@None K) with (option_map (fun x => fdiv K x (fnat K (2 ^ S l))) (@None K)) at 1. rewrite map_nth. reflexivity.
  Qed.

  (** The linear part falls linearly from 2*count/period, at delay 0, to
      2*(count - level_size)/period at the last delay, period*level_size - 1. *)
  Theorem C75_ccorr count period level_size binning : 0 < count -> 0 < period -> (2 <= level_size)%Z ->
    exists fast slow, ccorr_multi_count K count period level_size binning = Ok (fast, slow) /\ length fast = period * Z.to_nat level_size /\
      (forall i, i < period * Z.to_nat level_size -> nth i fast (f0 K) =
         fmul K (fdiv K (fnat K 2) (fnat K period)) (fsub K (fnat K count) (fdiv K (fmul K (fnat K i) (fnat K (Z.to_nat level_size))) (fnat K (period * Z.to_nat level_size - 1))))) /\
      slow_spec (fnat K 2) count level_size binning slow.
  Proof.
    intros Hc Hp Hs. unfold ccorr_multi_count. replace (period =? 0) with false by lia. replace (level_size <? 0)%Z with false by lia.
    destruct (@slow_ok (fnat K 2) count level_size binning Hs Hc) as (slow & E & S1). rewrite E. cbn [bind]. eexists _, slow. split; [reflexivity|]. split; [apply linspace_length|]. split; [|exact S1].
    intros i Hi. rewrite linspace_nth by (lia || nia). unfold minus_level. replace (0 <=? level_size)%Z with true by lia.
    pose proof (@fnat_neq0 K period ltac:(lia)) as Z1. pose proof (@fnat_neq0 K (period * Z.to_nat level_size - 1) ltac:(nia)) as Z2. revert Z1 Z2.
    generalize (fnat K period) (fnat K (period * Z.to_nat level_size - 1)) (fnat K count) (fnat K (Z.to_nat level_size)) (fnat K i) (fnat K 2). intros a b c d e f Z1 Z2. field. split; assumption.
  Qed.
  Theorem C75_acorr count period level_size binning : 0 < count -> 0 < period -> (2 <= level_size)%Z ->
    exists fast slow, acorr_multi_count K count period level_size binning = Ok (fast, slow) /\ length fast = period * Z.to_nat level_size /\
      (let value i := fmul K (fdiv K (f1 K) (fnat K period)) (fsub K (fnat K count) (fdiv K (fmul K (fnat K i) (fnat K (Z.to_nat level_size))) (fnat K (period * Z.to_nat level_size - 1)))) in
       forall i, i < period * Z.to_nat level_size -> nth i fast (f0 K) =
         if i <? period then fmul K (value period) (fdiv K (fnat K i) (fnat K period)) else value i) /\
      slow_spec (f1 K) count level_size binning slow.
  Proof.
    intros Hc Hp Hs. unfold acorr_multi_count. replace (period =? 0) with false by lia. replace (level_size <? 0)%Z with false by lia.
    set (cf := linspace K _ _ _). assert (LC : length cf = period * Z.to_nat level_size) by apply linspace_length.
    pose proof (@fnat_neq0 K period ltac:(lia)) as Z1. pose proof (@fnat_neq0 K (period * Z.to_nat level_size - 1) ltac:(nia)) as Z2.
    set (value := fun i => fmul K (fdiv K (f1 K) (fnat K period)) (fsub K (fnat K count) (fdiv K (fmul K (fnat K i) (fnat K (Z.to_nat level_size))) (fnat K (period * Z.to_nat level_size - 1))))).
    assert (V : forall i, i < period * Z.to_nat level_size -> nth i cf (f0 K) = value i).
    { intros i Hi. unfold cf, value. rewrite linspace_nth by (lia || nia). unfold minus_level. replace (0 <=? level_size)%Z with true by lia. revert Z1 Z2.
      generalize (fnat K period) (fnat K (period * Z.to_nat level_size - 1)) (fnat K count) (fnat K (Z.to_nat level_size)) (fnat K i). intros a b c d e Z1 Z2. field. split; assumption. }
    rewrite (nth_error_nth' cf (f0 K)) by (rewrite LC; nia). rewrite V by nia.
    destruct (@slow_ok (f1 K) count level_size binning Hs Hc) as (slow & E & S1). rewrite E. cbn [bind]. eexists _, slow. split; [reflexivity|].
    split; [rewrite app_length, linspace_length, skipn_length, LC; nia|]. split; [|exact S1]. intros i Hi. fold (value period). fold (value i). clearbody value. clear E S1.
    destruct (Nat.lt_ge_cases i (period + 1)) as [L|L].
    - rewrite app_nth1 by (rewrite linspace_length; exact L). rewrite linspace_nth by lia. replace (period + 1 - 1) with period by lia.
      destruct (Nat.ltb_spec i period) as [L'|L'].
      + revert Z1. generalize (fnat K period) (fnat K i). intros a b Z1. field. exact Z1.
      + replace i with period by lia. revert Z1. generalize (fnat K period). intros a Z1. field. exact Z1.
    - rewrite app_nth2 by (rewrite linspace_length; exact L). rewrite linspace_length, nth_skipn. replace (i - (period + 1) + (period + 1)) with i by lia. replace (i <? period) with false by lia. apply V. exact Hi.
  Qed.

  (** The errors. *)
  Theorem C75_multi_errors count level_size binning :
    ccorr_multi_count K count 0 level_size binning = Raise ZeroDivisionError /\ acorr_multi_count K count 0 level_size binning = Raise ZeroDivisionError /\
    (forall period, 0 < period -> (level_size < 2)%Z -> ccorr_multi_count K count period level_size binning = Raise ValueError) /\
    (forall period, 0 < period -> (2 <= level_size)%Z -> ccorr_multi_count K 0 period level_size binning = Raise ValueError /\ acorr_multi_count K 0 period level_size binning = Raise ValueError) /\
    (forall period, 0 < period -> (0 <= level_size < 2)%Z -> acorr_multi_count K count period level_size binning = Raise IndexError).
  Proof.
    split; [reflexivity|]. split; [reflexivity|]. split; [|split]; intros period Hp Hs.
    - unfold ccorr_multi_count. replace (period =? 0) with false by lia. destruct (Z.ltb_spec level_size 0); [reflexivity|]. unfold slow_count, multilevel_count. replace (level_size <? 2)%Z with true by lia. reflexivity.
    - assert (E : forall f, slow_count K f 0 level_size binning = Raise ValueError).
      { intros f. unfold slow_count. change (map (fun x => fmul K x f) (linspace K (fnat K 0) (f1 K) 0)) with (@nil K). rewrite (proj2 (@C75_errors K [] level_size binning) Hs). reflexivity. }
      unfold ccorr_multi_count, acorr_multi_count. replace (period =? 0) with false by lia. replace (level_size <? 0)%Z with false by lia. rewrite !E. split; [reflexivity|].
      match goal with |- match ?x with _ => _ end = _ => destruct x eqn:X end; [reflexivity|]. apply nth_error_None in X. rewrite linspace_length in X. nia.
    - unfold acorr_multi_count. replace (period =? 0) with false by lia. replace (level_size <? 0)%Z with false by lia.
      match goal with |- match ?x with _ => _ end = _ => destruct x eqn:X end; [|reflexivity]. exfalso. assert (N : nth_error (linspace K (fdiv K (fnat K count) (fnat K period)) (fdiv K (minus_level K count level_size) (fnat K period)) (period * Z.to_nat level_size)) period <> None) by congruence.
      apply nth_error_Some in N. rewrite linspace_length in N. nia.
  Qed.
End Multi.
Print Assumptions C75_ccorr.
Print Assumptions C75_acorr.
Print Assumptions C75_multi_errors.

(* ------------------------------------------------------------------ *)
(** * Against the pairs of frames of a regular record *)

(** n frames at the times 0, ..., n-1 have 2*(n - m) pairs of one frame of each camera with
    the delay m > 0, n with the delay 0, and n - m pairs of frames of one camera. *)
Theorem C75_true_counts A (x y : list A) m : length x = length y ->
  length (pairs_at m (regular x) (regular y)) = (if m =? 0 then 1 else 2) * (length x - m) /\ length (upairs_at m (regular x)) = length x - m.
Proof.
  intros HL. destruct x as [|d x']; [destruct y; [destruct m; split; reflexivity|discriminate]|]. set (x := d :: x') in *. split.
  - rewrite <- Sum_nat_1. destruct (Nat.eqb_spec m 0) as [->|N].
    + rewrite pairs_at_0. change 0%Z with (Z.of_nat 0). rewrite (regular_pairs_pos natmon x y d d) by exact HL. rewrite Sum_nat_1, seq_length. lia.
    + rewrite pairs_at_signed by lia. rewrite (regular_pairs_pos natmon x y d d) by exact HL. rewrite (regular_pairs_neg natmon x y d d) by exact HL. rewrite !Sum_nat_1, seq_length. cbn [madd natmon]. lia.
  - rewrite <- Sum_nat_1, (regular_upairs natmon x d), Sum_nat_1, seq_length. reflexivity.
Qed.
Print Assumptions C75_true_counts.

Section Compare.
  Variable K : OFld.
  Add Field KcmpF : (flaw K).

  (** The linear counts of frames taken one by one (period 1) are not the numbers of pairs:
      the line ends at (count - level_size) instead of at (count - level_size + 1), so that entry i is
      too small by i/(level_size - 1) per camera; at delay 0 twice as large for two cameras
      and zero for one. *)
  Theorem C75_linear_counts A (x y : list A) level_size binning fast slow fast' slow' i : length x = length y -> 0 < length x -> (2 <= level_size)%Z ->
    i < Z.to_nat level_size -> i <= length x ->
    ccorr_multi_count K (length x) 1 level_size binning = Ok (fast, slow) -> acorr_multi_count K (length x) 1 level_size binning = Ok (fast', slow') ->
    let short := fdiv K (fnat K i) (fnat K (Z.to_nat level_size - 1)) in
    nth i fast (f0 K) = (if i =? 0 then fmul K (fnat K 2) (fnat K (length (pairs_at i (regular x) (regular y)))) else fsub K (fnat K (length (pairs_at i (regular x) (regular y)))) (fmul K (fnat K 2) short)) /\
    nth i fast' (f0 K) = (if i =? 0 then f0 K else fsub K (fnat K (length (upairs_at i (regular x)))) short).
  Proof.
    intros HL Hc Hs Hi Hi' E1 E2. cbv zeta.
    destruct (@C75_ccorr K (length x) 1 level_size binning Hc ltac:(lia) Hs) as (f & s & F1 & _ & F2 & _). rewrite E1 in F1. injection F1 as -> ->.
    destruct (@C75_acorr K (length x) 1 level_size binning Hc ltac:(lia) Hs) as (g & t & G1 & _ & G2 & _). rewrite E2 in G1. injection G1 as -> ->. cbv zeta in G2.
    rewrite F2, G2 by lia. destruct (C75_true_counts x y i HL) as [T1 T2]. rewrite T1, T2. rewrite Nat.mul_1_l. clear - Hs Hi Hi'.
    pose proof (@fnat_neq0 K (Z.to_nat level_size - 1) ltac:(lia)) as Z2. assert (N1 : fnat K 1 = f1 K) by (unfold fnat; simpl; ring). assert (N0 : fnat K 0 = f0 K) by reflexivity.
    destruct (Nat.eqb_spec i 0) as [->|Ni].
    - replace (0 <? 1) with true by lia. rewrite Nat.mul_1_l, Nat.sub_0_r, N0, !N1. revert Z2. generalize (fnat K (Z.to_nat level_size - 1)) (fnat K (Z.to_nat level_size)) (fnat K (length x)) (fnat K 2). intros a b c d Z2.
      pose proof (F_1_neq_0 (flaw K)) as U. split; field; repeat split; assumption.
    - replace (i <? 1) with false by lia. replace (length x) with (length x - i + i) by lia. replace (length x - i + i - i) with (length x - i) by lia. rewrite fnat_add, fnat_mul, N1.
      replace (fnat K (Z.to_nat level_size)) with (fadd K (fnat K (Z.to_nat level_size - 1)) (f1 K)) by (rewrite <- N1, <- fnat_add; f_equal; lia).
      revert Z2. generalize (fnat K (Z.to_nat level_size - 1)) (fnat K (length x - i)) (fnat K i) (fnat K 2). intros a b c d Z2. pose proof (F_1_neq_0 (flaw K)) as U. split; field; repeat split; assumption.
  Qed.
  (** So no entry of either is the number of pairs. *)
  Theorem C75_linear_counts_refuted A (x y : list A) level_size binning fast slow fast' slow' i : length x = length y -> 0 < length x -> (2 <= level_size)%Z ->
    i < Z.to_nat level_size -> i <= length x ->
    ccorr_multi_count K (length x) 1 level_size binning = Ok (fast, slow) -> acorr_multi_count K (length x) 1 level_size binning = Ok (fast', slow') ->
    nth i fast (f0 K) <> fnat K (length (pairs_at i (regular x) (regular y))) /\ nth i fast' (f0 K) <> fnat K (length (upairs_at i (regular x))).
  Proof.
    intros HL Hc Hs Hi Hi' E1 E2. destruct (@C75_linear_counts A x y level_size binning fast slow fast' slow' i HL Hc Hs Hi Hi' E1 E2) as [F G]. cbv zeta in F, G.
    rewrite F, G. destruct (C75_true_counts x y i HL) as [T1 T2]. rewrite T1, T2. clear - Hs Hi Hi' Hc.
    pose proof (@fnat_neq0 K (Z.to_nat level_size - 1) ltac:(lia)) as Z2. assert (N2 : fnat K 2 = fadd K (f1 K) (f1 K)) by (unfold fnat; simpl; ring). pose proof (@fnat_neq0 K 2 ltac:(lia)) as Z3.
    destruct (Nat.eqb_spec i 0) as [->|Ni].
    - rewrite Nat.mul_1_l, Nat.sub_0_r. pose proof (@fnat_neq0 K (length x) ltac:(lia)) as Z1. split; intros C; apply Z1.
      + rewrite N2 in C. transitivity (fsub K (fmul K (fadd K (f1 K) (f1 K)) (fnat K (length x))) (fnat K (length x))); [ring|]. rewrite C. ring.
      + symmetry. exact C.
    - pose proof (@fnat_neq0 K i ltac:(lia)) as Z1. revert Z1 Z2 Z3. generalize (fnat K (Z.to_nat level_size - 1)) (fnat K (length x - i)) (fnat K i) (fnat K 2) (fnat K (2 * (length x - i))). intros a b c d e Z1 Z2 Z3. split; intros C; apply Z1.
      + transitivity (fdiv K (fmul K a (fsub K e (fsub K e (fmul K d (fdiv K c a))))) d); [field; split; assumption|]. rewrite C. field. exact Z3.
      + transitivity (fmul K a (fsub K b (fsub K b (fdiv K c a)))); [field; exact Z2|]. rewrite C. ring.
  Qed.
End Compare.
Print Assumptions C75_linear_counts.
Print Assumptions C75_linear_counts_refuted.

(** Concrete cases: 8 frames, counts 8, 7, ..., 1 of the delays. *)
Definition show_counts (r : res (list QcO * list (list (option QcO)))) := match r with Ok (f, s) => Ok (map show f, map show_row s) | Raise e => Raise e end.
Definition falling8 : list QcO := map q [8;7;6;5;4;3;2;1]%Z.
Example C75_example :
  show_rows (multilevel_count QcO falling8 4 1) = (Ok [[Some (8, 1); Some (7, 1); Some (6, 1); Some (5, 1)]; [Some (12167, 1220); Some (1728, 109); Some (512, 49); Some (64, 13)]])%Z /\
  show_rows (multilevel_count QcO falling8 4 0) = (Ok [[Some (8, 1); Some (7, 1); Some (6, 1); Some (5, 1)]; [Some (8, 1); Some (6, 1); Some (4, 1); Some (2, 1)]])%Z /\
  show_counts (ccorr_multi_count QcO 8 1 4 1) = (Ok ([(16, 1); (40, 3); (32, 3); (8, 1)], [[Some (12167, 610); Some (3456, 109); Some (1024, 49); Some (128, 13)]]))%Z /\
  show_counts (ccorr_multi_count QcO 8 2 2 0) = (Ok ([(8, 1); (22, 3); (20, 3); (6, 1)], [[Some (8, 1); Some (6, 1)]; [Some (4, 1); Some (2, 1)]]))%Z /\
  show_counts (acorr_multi_count QcO 8 2 4 1) = (Ok ([(0, 1); (12, 7); (24, 7); (22, 7); (20, 7); (18, 7); (16, 7); (2, 1)], [[Some (12167, 1220); Some (1728, 109); Some (512, 49); Some (64, 13)]]))%Z /\
  show_counts (acorr_multi_count QcO 8 2 4 0) = (Ok ([(0, 1); (12, 7); (24, 7); (22, 7); (20, 7); (18, 7); (16, 7); (2, 1)], [[Some (4, 1); Some (3, 1); Some (2, 1); Some (1, 1)]]))%Z /\
  show_merged (log_average_count QcO falling8 2) = (Ok [(0%nat, Some (8, 1)); (1%nat, Some (7, 1)); (2%nat, Some (6, 1)); (3%nat, Some (5, 1)); (4%nat, Some (512, 49)); (6%nat, Some (64, 13))])%Z /\
  acorr_multi_count QcO 8 1 1 0 = (Raise IndexError)%Z /\
  ccorr_multi_count QcO 8 1 1 0 = (Raise ValueError)%Z /\
  show_merged (log_merge_count QcO (map q [16;14;12;10]%Z) 4 [map (fun z => Some (q z)) [20;32;21;10]%Z] 0) = (Ok [(0%nat, Some (16, 1)); (1%nat, Some (14, 1)); (2%nat, Some (12, 1)); (3%nat, Some (10, 1)); (4%nat, Some (21, 1)); (6%nat, Some (10, 1))])%Z.
Proof. vm_compute. repeat split; reflexivity. Qed.
