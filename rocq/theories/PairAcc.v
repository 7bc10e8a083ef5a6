(** Data tuples as accumulators of lists of pairs: adding the pairs of several data sets
    one after the other. *)
From Verif Require Import Base Kernels PairSpec KernelProofs PairLemmas RegularProofs CoreModel CoreProofs CoreProofs2
  NormModel CorrModel CorrProofs CorrProofs2.
From Coq Require Import String ZifyBool ZifyNat.
Open Scope string_scope.
Open Scope nat_scope.
Open Scope list_scope.
Local Notation length := List.length.
Set Implicit Arguments.

(** All pairs whose delay satisfies [q]. *)
Definition sel {A B} (q : Z -> bool) (X : list (sample A)) (Y : list (sample B)) : list (sample A * sample B) :=
  filter (fun p => q (delay p)) (list_prod X Y).
Definition usel {A} (q : Z -> bool) (X : list (sample A)) : list (sample A * sample A) :=
  filter (fun p => q (delay p)) (upairs X).

(** Two lists of pairs with the same sums of all functions that do not depend on the
    origin of time and, if [sym], not on the order of the two samples. *)
Definition invariant {A} {M : Type} (sym : bool) (g : sample A * sample A -> M) : Prop :=
  (forall c p, g (map_pair (shift_time c) (shift_time c) p) = g p) /\ (sym = true -> forall p, g (swap p) = g p).
Definition same {A} (sym : bool) (P Q : list (sample A * sample A)) : Prop :=
  forall (M : CMon) (g : sample A * sample A -> M), invariant sym g -> Sum M P g = Sum M Q g.

Section Same.
  Variable A : Type.
  Variable sym : bool.
  Implicit Types P Q : list (sample A * sample A).
  Lemma same_refl P : same sym P P.
  Proof. intros M g _. reflexivity. Qed.
  Lemma same_sym P Q : same sym P Q -> same sym Q P.
  Proof. intros H M g Hg. symmetry. apply H, Hg. Qed.
  Lemma same_trans P Q R : same sym P Q -> same sym Q R -> same sym P R.
  Proof. intros H1 H2 M g Hg. rewrite H1 by exact Hg. apply H2, Hg. Qed.
  Lemma same_app P P' Q Q' : same sym P P' -> same sym Q Q' -> same sym (P ++ Q) (P' ++ Q').
  Proof. intros H1 H2 M g Hg. rewrite !Sum_app, H1, H2 by exact Hg. reflexivity. Qed.
  Lemma same_app_comm P Q : same sym (P ++ Q) (Q ++ P).
  Proof. intros M g _. rewrite !Sum_app. apply madd_comm. Qed.
  Lemma same_length P Q : same sym P Q -> length P = length Q.
  Proof.
    intros H. specialize (H natmon (fun _ => 1)). rewrite <- !Sum_nat_1. apply H. split; reflexivity.
  Qed.
End Same.

Section Select.
  Variables A B : Type.
  Implicit Types (X : list (sample A)) (Y : list (sample B)).
  Lemma sel_app_sum (M : CMon) q X X' Y Y' (g : sample A * sample B -> M) :
    Sum M (sel q (X ++ X') (Y ++ Y')) g =
    madd M (madd M (Sum M (sel q X Y) g) (Sum M (sel q X' Y') g)) (madd M (Sum M (sel q X Y') g) (Sum M (sel q X' Y) g)).
  Proof.
    unfold sel. rewrite !Sum_filter, !Sum_list_prod, Sum_app.
    rewrite (Sum_ext M X _ (fun x => madd M
       (Sum M Y (fun y => if q (delay (x, y)) then g (x, y) else m0 M))
       (Sum M Y' (fun y => if q (delay (x, y)) then g (x, y) else m0 M))))
      by (intros; apply Sum_app).
    rewrite (Sum_ext M X' _ (fun x => madd M
       (Sum M Y (fun y => if q (delay (x, y)) then g (x, y) else m0 M))
       (Sum M Y' (fun y => if q (delay (x, y)) then g (x, y) else m0 M))))
      by (intros; apply Sum_app).
    rewrite !Sum_madd.
    set (p := Sum M X _); set (s := Sum M X _); set (r := Sum M X' _); set (u := Sum M X' _).
    rewrite (madd_comm M r u). rewrite madd_swap4. reflexivity.
  Qed.
  Lemma sel_app_l (M : CMon) q X X' Y (g : sample A * sample B -> M) :
    Sum M (sel q (X ++ X') Y) g = madd M (Sum M (sel q X Y) g) (Sum M (sel q X' Y) g).
  Proof. unfold sel. rewrite !Sum_filter, !Sum_list_prod. apply Sum_app. Qed.
  Lemma sel_app_r (M : CMon) q X Y Y' (g : sample A * sample B -> M) :
    Sum M (sel q X (Y ++ Y')) g = madd M (Sum M (sel q X Y) g) (Sum M (sel q X Y') g).
  Proof.
    unfold sel. rewrite !Sum_filter, !Sum_list_prod, <- Sum_madd. apply Sum_ext. intros x _. apply Sum_app.
  Qed.
  Lemma sel_none q X Y : (forall x y, In x X -> In y Y -> q (delay (x, y)) = false) -> sel q X Y = [].
  Proof.
    intros H. unfold sel.
    assert (E : forall p, In p (list_prod X Y) -> q (delay p) = false)
      by (intros [x y] Hp; apply in_prod_iff in Hp; apply H; tauto).
    revert E. generalize (list_prod X Y). induction l as [|p l IH]; intros E; [reflexivity|].
    cbn [filter]. rewrite (E p (or_introl eq_refl)). apply IH. intros; apply E; now right.
  Qed.
End Select.

Lemma sel_map A B A' B' q (f : sample A -> sample A') (g : sample B -> sample B') X Y :
  (forall x y, delay (f x, g y) = delay (x, y)) -> sel q (map f X) (map g Y) = map (map_pair f g) (sel q X Y).
Proof.
  intros H. unfold sel. rewrite list_prod_map, filter_map. f_equal. apply filter_ext.
  intros [x y]. unfold map_pair. cbn [fst snd]. rewrite H. reflexivity.
Qed.
Lemma usel_map A A' q (f : sample A -> sample A') X :
  (forall x y, delay (f x, f y) = delay (x, y)) -> usel q (map f X) = map (map_pair f f) (usel q X).
Proof.
  intros H. unfold usel. rewrite upairs_map, filter_map. f_equal. apply filter_ext.
  intros [x y]. unfold map_pair. cbn [fst snd]. rewrite H. reflexivity.
Qed.
Lemma same_shift A sym (P : list (sample A * sample A)) c : same sym (map (map_pair (shift_time c) (shift_time c)) P) P.
Proof. intros M g [H _]. rewrite Sum_map. apply Sum_ext. intros p _. apply H. Qed.
Lemma same_swap A (P : list (sample A * sample A)) : same true (map swap P) P.
Proof. intros M g [_ H]. rewrite Sum_map. apply Sum_ext. intros p _. apply H. reflexivity. Qed.

Lemma sel_swap A B q (X : list (sample A)) (Y : list (sample B)) : (forall d, q (- d)%Z = q d) ->
  Permutation (sel q Y X) (map swap (sel q X Y)).
Proof.
  intros H. unfold sel.
  assert (P : Permutation (list_prod Y X) (map swap (list_prod X Y))).
  { induction X as [|x X IH]; cbn [list_prod].
    - induction Y as [|y Y IH]; [constructor|exact IH].
    - rewrite map_app, map_map. unfold swap at 1. cbn [fst snd].
      transitivity (map (fun y => (y, x)) Y ++ list_prod Y X).
      + clear IH. induction Y as [|y Y IH]; [constructor|]. cbn [list_prod map app].
        constructor. rewrite IH. rewrite !app_assoc. apply Permutation_app_tail. apply Permutation_app_comm.
      + apply Permutation_app_head. exact IH. }
  apply (Permutation_filter (fun p => q (delay p))) in P. rewrite P, filter_map.
  erewrite filter_ext; [reflexivity|]. intros [x y]. unfold swap, delay. cbn [fst snd].
  rewrite <- H. f_equal. lia.
Qed.

(** A signal with values [s] and times [tau], from sample [a] on. *)
Definition ser {A} (s : nat -> A) (tau : nat -> Z) (a n : nat) : list (sample A) := map (fun k => (s k, tau k)) (seq a n).
Lemma ser_app A (s : nat -> A) tau a n m : ser s tau a (n + m) = ser s tau a n ++ ser s tau (a + n) m.
Proof. unfold ser. rewrite seq_app, map_app. reflexivity. Qed.
Lemma in_ser A (s : nat -> A) tau a n x : In x (ser s tau a n) -> exists k, a <= k < a + n /\ x = (s k, tau k).
Proof. unfold ser. intros H. apply in_map_iff in H. destruct H as (k & <- & H). apply in_seq in H. exists k. auto. Qed.
Lemma ser_samples A (s : nat -> A) tau a n : samples (map s (seq a n)) (Some (map tau (seq a n))) = ser s tau a n.
Proof. cbn [samples]. unfold ser. induction (seq a n) as [|k l IH]; [reflexivity|]. cbn. rewrite IH. reflexivity. Qed.
Lemma ser_regular A (s : nat -> A) a n :
  samples (map s (seq a n)) None = map (shift_time (Z.of_nat a)) (ser s Z.of_nat a n).
Proof.
  cbn [samples]. unfold regular. rewrite map_length, seq_length. unfold ser, arange. rewrite map_map. unfold shift_time. cbn [fst snd].
  replace (seq 0 n) with (map (fun k => k - a) (seq a n)).
  - rewrite map_map. assert (H : forall k, In k (seq a n) -> a <= k) by (intros k Hk; apply in_seq in Hk; lia).
    revert H. induction (seq a n) as [|k l IH]; intros H; [reflexivity|]. cbn. rewrite IH by (intros; apply H; now right).
    specialize (H k (or_introl eq_refl)). do 2 f_equal. lia.
  - apply list_nth_ext with (d := 0); rewrite map_length, ?seq_length; [reflexivity|]. intros k Hk.
    rewrite nth_indep with (d' := 0 - a) by (rewrite map_length, seq_length; exact Hk).
    rewrite (map_nth (fun k => k - a)), !seq_nth by exact Hk. lia.
Qed.

(** ** Splitting into chunks *)
Section Chunks.
  Variable A : Type.
  Variable q : Z -> bool.
  Variables s1 s2 : nat -> A.
  Variables tau1 tau2 : nat -> Z.
  Variable h : nat.
  Notation X c := (ser s1 tau1 (c * h) h).
  Notation Y c := (ser s2 tau2 (c * h) h).

  (** The pairs counted while the chunks 0..n-1 are processed one after the other, each
      of them also with its predecessor if [full]. *)
  Definition cross_step (full : bool) (c : nat) : list (sample A * sample A) :=
    sel q (X c) (Y c) ++ if ((0 <? c) && full)%bool then sel q (X c) (Y (c - 1)) ++ sel q (X (c - 1)) (Y c) else [].
  Fixpoint cross_acc (full : bool) (n : nat) : list (sample A * sample A) :=
    match n with O => [] | S c => cross_acc full c ++ cross_step full c end.

  (** No pair of samples from chunks that are not neighbours is counted. *)
  Definition separated (n : nat) : Prop :=
    forall a b, a < n * h -> b < n * h -> a / h + 1 < b / h \/ b / h + 1 < a / h -> q (tau2 b - tau1 a)%Z = false.

  Lemma far_none n c (H : separated n) : c < n -> 0 < c ->
    sel q (ser s1 tau1 0 ((c - 1) * h)) (Y c) = [] /\ sel q (X c) (ser s2 tau2 0 ((c - 1) * h)) = [].
  Proof.
    intros Hc H0. split; apply sel_none; intros x y Hx Hy; apply in_ser in Hx, Hy;
      destruct Hx as (a & Ha & ->), Hy as (b & Hb & ->); unfold delay; cbn [fst snd]; apply H; try nia.
    - left. assert (h <> 0) by nia. assert (a / h < c - 1) by (apply Nat.div_lt_upper_bound; nia).
      assert (c <= b / h) by (apply Nat.div_le_lower_bound; nia). lia.
    - right. assert (h <> 0) by nia. assert (b / h < c - 1) by (apply Nat.div_lt_upper_bound; nia).
      assert (c <= a / h) by (apply Nat.div_le_lower_bound; nia). lia.
  Qed.

  Lemma cross_acc_full sym n : separated n -> same sym (cross_acc true n) (sel q (ser s1 tau1 0 (n * h)) (ser s2 tau2 0 (n * h))).
  Proof.
    intros HS.
    assert (H : forall m, m <= n -> same sym (cross_acc true m) (sel q (ser s1 tau1 0 (m * h)) (ser s2 tau2 0 (m * h)))); [|apply H; lia].
    induction m as [|m IH]; intros Hm; [apply same_refl|].
    cbn [cross_acc]. replace (S m * h) with (m * h + h) by lia. rewrite !ser_app, !Nat.add_0_l.
    intros M g Hg. rewrite sel_app_sum, Sum_app, (IH ltac:(lia) M g Hg). unfold cross_step. rewrite Sum_app, andb_true_r.
    rewrite madd_assoc. f_equal.
    destruct (Nat.ltb_spec 0 m) as [H0|H0].
    - assert (ES1 : ser s1 tau1 0 (m * h) = ser s1 tau1 0 ((m - 1) * h) ++ X (m - 1))
        by (replace (m * h) with ((m - 1) * h + h) by nia; rewrite ser_app; reflexivity).
      assert (ES2 : ser s2 tau2 0 (m * h) = ser s2 tau2 0 ((m - 1) * h) ++ Y (m - 1))
        by (replace (m * h) with ((m - 1) * h + h) by nia; rewrite ser_app; reflexivity).
      rewrite ES1, ES2.
      destruct (far_none (c := m) HS) as [E1 E2]; [lia|exact H0|].
      rewrite sel_app_l, sel_app_r, E1, E2, !Sum_app, !Sum_nil, !madd_0_l. apply madd_comm.
    - assert (m = 0) by lia. subst m. cbn [Nat.mul].
      assert (N2 : forall Z0, sel q Z0 [] = @nil (sample A * sample A)) by (intros Z0; apply sel_none; intros x y _ []).
      replace (ser s1 tau1 0 0) with (@nil (sample A)) by reflexivity. replace (ser s2 tau2 0 0) with (@nil (sample A)) by reflexivity.
      assert (N1 : forall Z0, sel q [] Z0 = @nil (sample A * sample A)) by (intros; reflexivity).
      rewrite N1, N2, !Sum_nil, madd_0_r. reflexivity.
  Qed.

  (** Without pairs across chunks: the pairs of samples of the same chunk. *)
  Lemma cross_acc_chunk sym n : same sym (cross_acc false n) (flat_map (fun c => sel q (X c) (Y c)) (seq 0 n)).
  Proof.
    induction n as [|n IH]; [apply same_refl|]. cbn [cross_acc]. rewrite seq_S, flat_map_app. cbn [flat_map Nat.add].
    apply same_app; [exact IH|]. unfold cross_step. rewrite andb_false_r. apply same_refl.
  Qed.

  (** One signal. *)
  Definition auto_step (full : bool) (c : nat) : list (sample A * sample A) :=
    usel q (X c) ++ if ((0 <? c) && full)%bool then sel q (X c) (X (c - 1)) else [].
  Fixpoint auto_acc (full : bool) (n : nat) : list (sample A * sample A) :=
    match n with O => [] | S c => auto_acc full c ++ auto_step full c end.
  Lemma auto_acc_chunk sym n : same sym (auto_acc false n) (flat_map (fun c => usel q (X c)) (seq 0 n)).
  Proof.
    induction n as [|n IH]; [apply same_refl|]. cbn [auto_acc]. rewrite seq_S, flat_map_app. cbn [flat_map Nat.add].
    apply same_app; [exact IH|]. unfold auto_step. rewrite andb_false_r. apply same_refl.
  Qed.
End Chunks.

Lemma usel_app_sum (M : CMon) A q (X Y : list (sample A)) (g : sample A * sample A -> M) :
  Sum M (usel q (X ++ Y)) g = madd M (madd M (Sum M (usel q X) g) (Sum M (usel q Y) g)) (Sum M (sel q X Y) g).
Proof. unfold usel, sel. rewrite !Sum_filter. apply Sum_upairs_app. Qed.

Lemma auto_acc_full A q (s : nat -> A) tau h n : (forall d, q (- d)%Z = q d) -> separated q tau tau h n ->
  same true (auto_acc q s tau h true n) (usel q (ser s tau 0 (n * h))).
Proof.
  intros HQ HS.
  assert (H : forall m, m <= n -> same true (auto_acc q s tau h true m) (usel q (ser s tau 0 (m * h)))); [|apply H; lia].
  induction m as [|m IH]; intros Hm; [apply same_refl|].
  cbn [auto_acc]. replace (S m * h) with (m * h + h) by lia. rewrite !ser_app, !Nat.add_0_l.
  intros M g Hg. rewrite usel_app_sum, Sum_app, (IH ltac:(lia) M g Hg). unfold auto_step. rewrite Sum_app, andb_true_r.
  rewrite madd_assoc. f_equal.
  destruct (Nat.ltb_spec 0 m) as [H0|H0].
  - assert (ES : ser s tau 0 (m * h) = ser s tau 0 ((m - 1) * h) ++ ser s tau ((m - 1) * h) h)
      by (replace (m * h) with ((m - 1) * h + h) by nia; rewrite ser_app; reflexivity).
    rewrite ES.
    destruct (@far_none A q s s tau tau h n m HS) as [E1 _]; [lia|exact H0|].
    rewrite sel_app_l, E1, Sum_nil, madd_0_l.
    rewrite (Sum_Permutation M g (sel_swap q (ser s tau ((m - 1) * h) h) (ser s tau (m * h) h) HQ)).
    apply same_swap. exact Hg.
  - assert (m = 0) by lia. subst m. reflexivity.
Qed.
