(** Proofs about the model of multilevel averaging (LevelModel.v). *)
From Coq Require Import ZifyBool ZifyNat.
From Verif Require Import Base Ordered AvgModel Kernels KernelProofs NormModel MultiModel MultiProofs RegularProofs CoreProofs3 AvgProofs AvgProofs2 MultiLevels LevelModel.
Set Implicit Arguments.
Ltac Zify.zify_post_hook ::= Z.div_mod_to_equations.

(** * The number of levels *)
Lemma pow2_pos n : 0 < 2 ^ n. Proof. induction n; cbn; lia. Qed.
Lemma pow2_S n : 2 ^ S n = 2 * 2 ^ n. Proof. reflexivity. Qed.
Lemma pow2_gt n : n < 2 ^ n.
Proof. induction n as [|n IH]; [cbn; lia|]. rewrite pow2_S. pose proof (pow2_pos n). lia. Qed.
Lemma count_levels_spec fuel size n level : 0 < size -> n <= size * 2 ^ (level + fuel) -> (forall l, l < level -> size * 2 ^ l < n) ->
  n <= size * 2 ^ count_levels fuel size n level /\ (forall l, l < count_levels fuel size n level -> size * 2 ^ l < n).
Proof.
  intros Hs. revert level. induction fuel as [|fuel IH]; intros level H1 H2; cbn [count_levels].
  - rewrite Nat.add_0_r in H1. split; assumption.
  - destruct (Nat.ltb_spec (size * 2 ^ level) n) as [C|C]; [|split; assumption].
    apply IH; [replace (S level + fuel) with (level + S fuel) by lia; exact H1|]. intros l Hl. destruct (Nat.eq_dec l level) as [->|]; [exact C|apply H2; lia].
Qed.
Lemma levels_of_spec size n : 0 < size -> n <= size * 2 ^ levels_of size n /\ (forall l, l < levels_of size n -> size * 2 ^ l < n).
Proof.
  intros Hs. unfold levels_of. apply count_levels_spec; [exact Hs| |lia]. cbn [Nat.add]. pose proof (pow2_gt n). nia.
Qed.
Lemma levels_of_least size n L : 0 < size -> n <= size * 2 ^ L -> (forall l, l < L -> size * 2 ^ l < n) -> levels_of size n = L.
Proof.
  intros Hs H1 H2. destruct (levels_of_spec n Hs) as [A B]. destruct (Nat.lt_trichotomy (levels_of size n) L) as [C|[C|C]]; [|exact C|].
  - specialize (H2 _ C). lia.
  - specialize (B _ C). lia.
Qed.

(** * The data of each level *)
Section Chain.
  Variable V : Type.
  Variable v0 : V.
  Variable conv : list V -> res (list V).
  Lemma level_row_nth size (data : list V) k : k < size -> nth k (level_row size data) None = if k <? length data then Some (nth k data v0) else None.
  Proof.
    clear conv. intros Hk. unfold level_row. rewrite firstn_length. destruct (Nat.ltb_spec k (length data)) as [C|C].
    - rewrite app_nth1 by (rewrite map_length, firstn_length; lia). rewrite nth_indep with (d' := Some v0) by (rewrite map_length, firstn_length; lia).
      rewrite map_nth. rewrite nth_firstn by exact Hk. reflexivity.
    - rewrite app_nth2 by (rewrite map_length, firstn_length; lia). apply nth_repeat.
  Qed.
  Lemma level_row_length size (data : list V) : length (level_row size data) = size.
  Proof. clear conv. unfold level_row. rewrite app_length, map_length, repeat_length, firstn_length. lia. Qed.
  Lemma level_rows_ok size binning r (D : nat -> list V) more : forall l, (forall i, l <= i < l + more -> next_level v0 conv binning (r i) (D i) = Ok (D (S i))) ->
    level_rows v0 conv size binning r l more (D l) = Ok (map (fun i => level_row size (D i)) (seq l (S more))).
  Proof.
    induction more as [|more IH]; intros l H; [reflexivity|]. cbn [level_rows]. rewrite H by lia. cbn [bind]. rewrite IH by (intros; apply H; lia). reflexivity.
  Qed.
  (** multilevel succeeds with rows cut from the successive arrays D *)
  Lemma multilevel_ok data size binning r (D : nat -> list V) : _inspect_binning binning = Ok binning -> (2 <= size)%Z -> D 0 = data ->
    (forall i, i < levels_of (Z.to_nat size) (length data) -> next_level v0 conv binning (r i) (D i) = Ok (D (S i))) ->
    multilevel v0 conv data size binning r = Ok (map (fun i => level_row (Z.to_nat size) (D i)) (seq 0 (S (levels_of (Z.to_nat size) (length data))))).
  Proof.
    intros Hb Hs H0 H. unfold multilevel. rewrite Hb. cbn [bind]. replace (size <? 2)%Z with false by lia. rewrite <- H0 at 2. apply level_rows_ok. intros; apply H; lia.
  Qed.
  (** The arrays of BINNING_FIRST *)
  Definition every (h : nat) (data : list V) : list V := map (fun k => nth (k * h) data v0) (seq 0 ((length data + h - 1) / h)).
  Lemma div_up_twice n h : 0 < h -> ((n + h - 1) / h + 1) / 2 = (n + 2 * h - 1) / (2 * h).
  Proof.
    intros H. replace (2 * h) with (h * 2) at 2 by lia. rewrite <- Nat.div_div by lia. replace (n + 2 * h - 1) with (n + h - 1 + 1 * h) by lia. rewrite Nat.div_add by lia. reflexivity.
  Qed.
  Lemma div_up_lt n h k : 0 < h -> (k < (n + h - 1) / h <-> k * h < n).
  Proof.
    intros H. split; intros C.
    - assert (h * (k + 1) <= h * ((n + h - 1) / h)) by (apply Nat.mul_le_mono_l; lia). pose proof (Nat.mul_div_le (n + h - 1) h ltac:(lia)). lia.
    - apply Nat.div_le_lower_bound; lia.
  Qed.
  Lemma strided_every h data : 0 < h -> strided v0 0 (length (every h data)) (every h data) = every (2 * h) data.
  Proof.
    clear conv. intros H. unfold strided. assert (EL : length (every h data) = (length data + h - 1) / h) by (unfold every; rewrite map_length, seq_length; reflexivity).
    rewrite EL, Nat.sub_0_r, div_up_twice by exact H. unfold every at 2. apply map_ext_in. intros k Hk. apply in_seq in Hk.
    unfold every. cbn [Nat.add]. rewrite nth_map_seq; [f_equal; lia|]. apply div_up_lt; [exact H|]. destruct Hk as [_ Hk]. cbn [Nat.add] in Hk. rewrite div_up_lt in Hk by lia. lia.
  Qed.
  (** The arrays of BINNING_CHOOSE *)
  Fixpoint chosen (r : nat -> bool) (data : list V) (l : nat) : list V := match l with O => data | S l => choose_level v0 (r l) (chosen r data l) end.
  Lemma chosen_spec r data l : length (chosen r data l) = length data / 2 ^ l /\
    forall k, k < length data / 2 ^ l -> exists j, k * 2 ^ l <= j < (k + 1) * 2 ^ l /\ nth k (chosen r data l) v0 = nth j data v0.
  Proof.
    clear conv. induction l as [|l [IH1 IH2]].
    - cbn [chosen Nat.pow]. rewrite Nat.div_1_r. split; [reflexivity|]. intros k Hk. exists k. split; [lia|reflexivity].
    - assert (E : length data / 2 ^ S l = length data / 2 ^ l / 2) by (rewrite pow2_S, Nat.mul_comm, Nat.div_div by (pose proof (pow2_pos l); lia); reflexivity).
      rewrite E. rewrite pow2_S. cbn [chosen]. unfold choose_level. rewrite IH1. generalize dependent (2 ^ l). intros h IH1 IH2 E. generalize dependent (length data / h). intros n IH1 IH2 E.
      destruct (r l); rewrite strided_length; (split; [lia|]); intros k Hk; rewrite nth_strided by lia.
      + destruct (IH2 (1 + 2 * k) ltac:(lia)) as (j & Hj & Ej). exists j. split; [lia|exact Ej].
      + destruct (IH2 (0 + 2 * k) ltac:(lia)) as (j & Hj & Ej). exists j. split; [lia|exact Ej].
  Qed.
End Chain.

(** * Averaging *)
Section Mean.
  Variable K : OFld.
  Add Field Klv : (flaw K).
  Lemma fnat_mul m n : fnat K (m * n) = fmul K (fnat K m) (fnat K n).
  Proof.
    induction m as [|m IH]; [cbn [Nat.mul]; change (fnat K 0) with (f0 K); ring|]. cbn [Nat.mul]. rewrite fnat_add, IH, fnat_S. ring.
  Qed.
  Local Notation at_ l i := (nth i%nat l (f0 K)).
  Fixpoint averaged (data : list K) (l : nat) : list K :=
    match l with O => data | S l => let d := averaged data l in map (fun k => smooth K d (2 * k)) (seq 0 ((length d + 1) / 2)) end.
  Lemma averaged_length data l : length (averaged data l) = (length data + 2 ^ l - 1) / 2 ^ l.
  Proof.
    induction l as [|l IH]; [cbn [averaged Nat.pow]; rewrite Nat.div_1_r; lia|]. cbn [averaged]. rewrite map_length, seq_length, IH. apply div_up_twice. apply pow2_pos.
  Qed.
  Lemma averaged_lt data l k : k < length (averaged data l) <-> k * 2 ^ l < length data.
  Proof. rewrite averaged_length. apply div_up_lt. apply pow2_pos. Qed.
  Lemma averaged_next junk size data r i : 2 <= size -> i < levels_of size (length data) ->
    next_level (f0 K) (real_conv K junk) BINNING_MEAN r (averaged data i) = Ok (averaged data (S i)).
  Proof.
    intros Hs Hi. unfold next_level. cbn [BINNING_MEAN Z.eqb Pos.eqb]. destruct (@levels_of_spec size (length data) ltac:(lia)) as [_ H]. specialize (H i Hi).
    assert (HL : 2 < length (averaged data i)) by (apply averaged_lt; pose proof (pow2_pos i); nia).
    unfold real_conv. rewrite convolve_ok by (rewrite ?fresh_length; first [reflexivity|exact HL]). cbn [bind]. f_equal. cbn [averaged]. unfold strided. rewrite map_length, seq_length, Nat.sub_0_r.
    apply map_ext_in. intros k Hk. apply in_seq in Hk. cbn [Nat.add]. rewrite nth_map_seq by lia. reflexivity.
  Qed.
  (** The weight of sample [p] in a triangle of half width [h] around [c] *)
  Definition tri (h c p : nat) : nat := Nat.min (h + p - c) (h + c - p).
  Lemma tri_split h c p : h <= c -> tri h (c - h) p + 2 * tri h c p + tri h (c + h) p = tri (2 * h) c p.
  Proof. unfold tri. lia. Qed.
  Lemma averaged_sum data l k : 1 <= k -> (k + 1) * 2 ^ l <= length data ->
    fmul K (fnat K (4 ^ l)) (at_ (averaged data l) k) = Sum (fmon K) (seq 0 (length data)) (fun p => fmul K (fnat K (tri (2 ^ l) (k * 2 ^ l) p)) (at_ data p)).
  Proof.
    revert k. induction l as [|l IH]; intros k Hk HN.
    - cbn [averaged Nat.pow] in *. symmetry.
      transitivity (Sum (fmon K) (seq 0 (length data)) (fun p => if p =? k then at_ data k else f0 K)).
      + apply Sum_ext. intros p _. unfold tri. destruct (Nat.eqb_spec p k) as [->|E].
        * replace (Nat.min (1 + k - k * 1) (1 + k * 1 - k)) with 1 by lia. change (fmul K (fadd K (f1 K) (f0 K)) (at_ data k) = at_ data k). ring.
        * replace (Nat.min (1 + p - k * 1) (1 + k * 1 - p)) with 0 by lia. change (fmul K (f0 K) (at_ data p) = f0 K). ring.
      + assert (X : forall n s, s <= k < s + n -> Sum (fmon K) (seq s n) (fun p => if p =? k then at_ data k else f0 K) = at_ data k).
        { induction n as [|n IHn]; intros s Hs; [lia|]. cbn [seq]. rewrite Sum_cons. destruct (Nat.eqb_spec s k) as [->|E].
          - rewrite Sum_zero; [cbn [fmon madd m0]; change (fadd K (at_ data k) (f0 K) = at_ data k); ring|]. intros p Hp. apply in_seq in Hp. replace (p =? k) with false by lia. reflexivity.
          - rewrite IHn by lia. change (fadd K (f0 K) (at_ data k) = at_ data k). ring. }
        rewrite X by lia. change (at_ data k = fmul K (fadd K (f1 K) (f0 K)) (at_ data k)). ring.
    - cbn [averaged]. assert (HL : 2 * k + 1 < length (averaged data l)) by (apply averaged_lt; rewrite pow2_S in HN; pose proof (pow2_pos l); nia).
      rewrite nth_map_seq by lia. unfold smooth. replace (2 * k =? 0) with false by lia. replace (2 * k =? length (averaged data l) - 1) with false by lia.
      rewrite pow2_S in HN.
      pose proof (IH (2 * k - 1) ltac:(lia) ltac:(lia)) as E1. pose proof (IH (2 * k) ltac:(lia) ltac:(lia)) as E2. pose proof (IH (2 * k + 1) ltac:(lia) ltac:(lia)) as E3.
      replace (fmul K (fnat K (4 ^ S l)) (fdiv K (fadd K (fadd K (at_ (averaged data l) (2 * k - 1)) (fmul K (fnat K 2) (at_ (averaged data l) (2 * k)))) (at_ (averaged data l) (2 * k + 1))) (fnat K 4)))
        with (fadd K (fadd K (fmul K (fnat K (4 ^ l)) (at_ (averaged data l) (2 * k - 1))) (fmul K (fnat K 2) (fmul K (fnat K (4 ^ l)) (at_ (averaged data l) (2 * k))))) (fmul K (fnat K (4 ^ l)) (at_ (averaged data l) (2 * k + 1)))).
      2:{ replace (4 ^ S l) with (4 * 4 ^ l) by reflexivity. rewrite fnat_mul. generalize (four_neq0 K) (fnat K 2) (fnat K (4 ^ l)). generalize (fnat K 4). intros c Hc d e. field. exact Hc. }
      rewrite E1, E2, E3. cbn [mcar fmon]. rewrite <- Sum_fmul. 
      match goal with |- @eq _ (fadd _ (fadd _ ?a ?b) ?c) _ => change (madd (fmon K) (madd (fmon K) a b) c = Sum (fmon K) (seq 0 (length data)) (fun p => fmul K (fnat K (tri (2 ^ S l) (k * 2 ^ S l) p)) (at_ data p))) end.
      rewrite <- !Sum_madd. apply Sum_ext. intros p _. cbn [madd fmon mcar].
      rewrite pow2_S. replace (k * (2 * 2 ^ l)) with (2 * k * 2 ^ l) by lia. rewrite <- tri_split by nia.
      replace (2 * k * 2 ^ l - 2 ^ l) with ((2 * k - 1) * 2 ^ l) by nia. replace (2 * k * 2 ^ l + 2 ^ l) with ((2 * k + 1) * 2 ^ l) by nia.
      rewrite !fnat_add, fnat_mul. ring.
  Qed.
  (** ** triangular_kernel *)
  Lemma kernel_size n : for_range 0 n (fun _ size => size * 2 + 1) 1 = 2 * 2 ^ n - 1.
  Proof.
    apply (@for_range_inv _ (fun i s => s = 2 * 2 ^ i - 1)); [lia|reflexivity|]. intros i s _ ->. rewrite pow2_S. pose proof (pow2_pos i). lia.
  Qed.
  Definition kernel_at (n i : nat) : K := fdiv K (fdiv K (fnat K (Nat.min (i + 1) (2 * 2 ^ n - 1 - i))) (fnat K (2 ^ n))) (fnat K (2 ^ n)).
  Lemma kernel_ok n : triangular_kernel K n = map (kernel_at n) (seq 0 (2 * 2 ^ n - 1)).
  Proof.
    unfold triangular_kernel. rewrite kernel_size. assert (E : (2 * 2 ^ n - 1) / 2 = 2 ^ n - 1) by (pose proof (pow2_pos n); generalize dependent (2 ^ n); intros; lia). rewrite E.
    pose proof (pow2_pos n) as Hh. unfold kernel_at. pose proof (@fnat_neq0 K (2 ^ n) ltac:(lia)) as Hc. revert E Hh Hc. generalize (2 ^ n). intros h _ Hh Hc. set (size := 2 * h - 1).
    set (body := fun (i : nat) (out : list K) => _).
    assert (P : length (for_range 0 (h - 1) body (repeat (f0 K) size)) = size /\
      forall k, k < size -> k < h - 1 \/ size - k - 1 < h - 1 -> at_ (for_range 0 (h - 1) body (repeat (f0 K) size)) k = fdiv K (fdiv K (fnat K (Nat.min (k + 1) (2 * h - 1 - k))) (fnat K h)) (fnat K h)).
    { apply (@for_range_inv _ (fun i out => length out = size /\ forall k, k < size -> k < i \/ size - k - 1 < i -> at_ out k = fdiv K (fdiv K (fnat K (Nat.min (k + 1) (2 * h - 1 - k))) (fnat K h)) (fnat K h))).
      - lia.
      - rewrite repeat_length. split; [reflexivity|]. intros k Hk H. lia.
      - intros i out Hi [H1 H2]. unfold body. rewrite !upd_length. split; [exact H1|]. intros k Hk H. rewrite !nth_upd, !upd_length, H1.
        assert (Ei : Nat.min (i + 1) (2 * h - 1 - i) = i + 1) by lia.
        destruct (Nat.eq_dec k (size - i - 1)) as [->|C].
        + replace (i =? i) with true by lia. destruct (size - i - 1 =? size - i - 1) eqn:X; [|lia]. replace (Nat.min (size - i - 1 + 1) (2 * h - 1 - (size - i - 1))) with (i + 1) by (unfold size in *; lia).
          replace (size - i - 1 <? size) with true by (unfold size in *; lia). replace (i <? size) with true by (unfold size in *; lia). reflexivity.
        + replace (size - i - 1 =? k) with false by lia. replace (k =? size - i - 1) with false by lia. cbn [andb]. destruct (Nat.eq_dec k i) as [->|C2].
          * replace (i =? i) with true by lia. replace (i <? size) with true by lia. rewrite Ei. reflexivity.
          * replace (i =? k) with false by lia. replace (k =? i) with false by lia. cbn [andb]. apply H2; [exact Hk|]. unfold size in *. lia. }
    destruct P as [P1 P2]. apply list_nth_ext with (d := f0 K); rewrite upd_length, P1; [rewrite map_length, seq_length; reflexivity|]. intros k Hk. rewrite nth_map_seq by exact Hk. rewrite nth_upd, P1.
    destruct (Nat.eq_dec k (h - 1)) as [->|C].
    - rewrite Nat.eqb_refl. replace (h - 1 <? size) with true by (unfold size; lia). cbn [andb]. unfold size. replace (Nat.min (h - 1 + 1) (2 * h - 1 - (h - 1))) with h by lia. revert Hc. generalize (fnat K h). intros c Hc. field. exact Hc.
    - replace (h - 1 =? k) with false by lia. replace (k =? h - 1) with false by lia. cbn [andb]. apply P2; [exact Hk|]. unfold size in *. lia.
  Qed.
  Lemma fnat_Sum A (l : list A) (f : A -> nat) : fnat K (Sum natmon l f) = Sum (fmon K) l (fun x => fnat K (f x)).
  Proof. induction l as [|x l IH]; [reflexivity|]. rewrite !Sum_cons. cbn [madd natmon fmon]. rewrite fnat_add, IH. reflexivity. Qed.
  Lemma seq_last a n : seq a (S n) = seq a n ++ [a + n].
  Proof. replace (S n) with (n + 1) by lia. rewrite seq_app. reflexivity. Qed.
  Lemma triangle_sum h : 0 < h -> Sum natmon (seq 0 (2 * h - 1)) (fun i => Nat.min (i + 1) (2 * h - 1 - i)) = h * h.
  Proof.
    intros Hh. replace (2 * h - 1) with (h + (h - 1)) at 1 by lia. rewrite seq_app, Sum_app. cbn [Nat.add]. 
    assert (A : forall m, 2 * Sum natmon (seq 0 m) (fun i => i + 1) = m * (m + 1)).
    { induction m as [|m IH]; [reflexivity|]. rewrite seq_last, Sum_app, Sum_cons, Sum_nil. cbn [natmon madd m0 Nat.add mcar] in *. nia. }
    assert (B : forall c m, m <= c -> 2 * Sum natmon (seq h m) (fun i => c + h - i) = m * (2 * c - m + 1)).
    { intros c. induction m as [|m IH]; intros Hm; [reflexivity|]. rewrite seq_last, Sum_app, Sum_cons, Sum_nil. specialize (IH ltac:(lia)). cbn [natmon madd m0 Nat.add mcar] in *. nia. }
    rewrite (@Sum_ext natmon _ (seq 0 h) (fun i => Nat.min (i + 1) (2 * h - 1 - i)) (fun i => i + 1)) by (intros i Hi; apply in_seq in Hi; lia).
    rewrite (@Sum_ext natmon _ (seq h (h - 1)) (fun i => Nat.min (i + 1) (2 * h - 1 - i)) (fun i => h - 1 + h - i)) by (intros i Hi; apply in_seq in Hi; lia).
    specialize (A h). specialize (B (h - 1) (h - 1) ltac:(lia)). cbn [natmon madd m0 mcar] in *. nia.
  Qed.
  Lemma kernel_at_eq n i : kernel_at n i = fmul K (finv K (fnat K (4 ^ n))) (fnat K (Nat.min (i + 1) (2 * 2 ^ n - 1 - i))).
  Proof.
    unfold kernel_at. replace (4 ^ n) with (2 ^ n * 2 ^ n) by (rewrite <- Nat.pow_mul_l; reflexivity). rewrite fnat_mul. pose proof (@fnat_neq0 K (2 ^ n) ltac:(pose proof (pow2_pos n); lia)) as Hc.
    revert Hc. generalize (fnat K (2 ^ n)) (fnat K (Nat.min (i + 1) (2 * 2 ^ n - 1 - i))). intros c d Hc. field. exact Hc.
  Qed.
  Lemma kernel_sum n : Sum (fmon K) (triangular_kernel K n) (fun w => w) = f1 K.
  Proof.
    rewrite kernel_ok, Sum_map. rewrite (@Sum_ext (fmon K) _ _ _ (fun i => fmul K (finv K (fnat K (4 ^ n))) (fnat K (Nat.min (i + 1) (2 * 2 ^ n - 1 - i))))) by (intros; apply kernel_at_eq).
    rewrite Sum_fmul, <- fnat_Sum, triangle_sum by apply pow2_pos. replace (2 ^ n * 2 ^ n) with (4 ^ n) by (rewrite <- Nat.pow_mul_l; reflexivity).
    pose proof (@fnat_neq0 K (4 ^ n) ltac:(apply Nat.pow_nonzero; lia)) as Hc. revert Hc. generalize (fnat K (4 ^ n)). intros c Hc. change (@eq (fcar K) (fmul K (finv K c) c) (f1 K)). field. exact Hc.
  Qed.
  Lemma fle_0_fnat n : fle (f0 K) (fnat K n).
  Proof. destruct n; [apply fle_refl|]. apply flt_le. apply flt_fnat. lia. Qed.
  Lemma kernel_nonneg n w : In w (triangular_kernel K n) -> fle (f0 K) w.
  Proof.
    rewrite kernel_ok. intros H. apply in_map_iff in H. destruct H as (i & <- & _). rewrite kernel_at_eq.
    replace (f0 K) with (fmul K (finv K (fnat K (4 ^ n))) (f0 K)) by ring. apply fle_mul; [apply fle_0_fnat|]. apply flt_le, flt_inv, flt_fnat. pose proof (Nat.pow_nonzero 4 n). lia.
  Qed.
  Lemma kernel_symmetric n : rev (triangular_kernel K n) = triangular_kernel K n.
  Proof.
    rewrite kernel_ok. pose proof (pow2_pos n) as Hh. apply list_nth_ext with (d := f0 K); rewrite rev_length, map_length, seq_length; [reflexivity|]. intros k Hk.
    rewrite rev_nth by (rewrite map_length, seq_length; exact Hk). rewrite map_length, seq_length. rewrite !nth_map_seq by lia. unfold kernel_at.
    do 3 f_equal. lia.
  Qed.
  (** The averaged arrays are convolutions with the kernel. *)
  Lemma averaged_kernel data l k : 1 <= k -> (k + 1) * 2 ^ l <= length data ->
    at_ (averaged data l) k = Sum (fmon K) (seq 0 (2 * 2 ^ l - 1)) (fun i => fmul K (at_ (triangular_kernel K l) i) (at_ data (k * 2 ^ l + i - (2 ^ l - 1)))).
  Proof.
    intros Hk HN. pose proof (averaged_sum data l Hk HN) as E. pose proof (pow2_pos l) as Hh.
    assert (HC : 2 ^ l <= k * 2 ^ l) by nia. assert (HN' : k * 2 ^ l + 2 ^ l <= length data) by nia.
    rewrite (@Sum_ext (fmon K) _ _ _ (fun i => fmul K (finv K (fnat K (4 ^ l))) (fmul K (fnat K (Nat.min (i + 1) (2 * 2 ^ l - 1 - i))) (at_ data (k * 2 ^ l + i - (2 ^ l - 1)))))).
    2:{ intros i Hi. apply in_seq in Hi. rewrite kernel_ok, nth_map_seq by lia. rewrite kernel_at_eq. cbn [mcar fmon]. ring. }
    rewrite Sum_fmul. pose proof (@fnat_neq0 K (4 ^ l) ltac:(apply Nat.pow_nonzero; lia)) as Hc.
    transitivity (fmul K (finv K (fnat K (4 ^ l))) (fmul K (fnat K (4 ^ l)) (at_ (averaged data l) k))); [revert Hc; generalize (fnat K (4 ^ l)); intros c Hc; field; exact Hc|]. rewrite E. f_equal.
    clear E Hc HN. revert Hh HC HN'. generalize (k * 2 ^ l). generalize (2 ^ l). intros h c Hh HC HN.
    replace (length data) with (c - (h - 1) + (2 * h - 1 + (length data - (c + h)))) by lia. rewrite seq_app, Sum_app. rewrite seq_app, Sum_app.
    rewrite Sum_zero. 2:{ intros p Hp. apply in_seq in Hp. unfold tri. replace (Nat.min (h + p - c) (h + c - p)) with 0 by lia. change (fmul K (f0 K) (at_ data p) = f0 K). ring. }
    rewrite (@Sum_zero (fmon K) _ (seq _ (length data - (c + h)))). 2:{ intros p Hp. apply in_seq in Hp. unfold tri. replace (Nat.min (h + p - c) (h + c - p)) with 0 by lia. change (fmul K (f0 K) (at_ data p) = f0 K). ring. }
    match goal with |- @eq _ (madd _ _ (madd _ ?x _)) _ => transitivity x; [change (fadd K (f0 K) (fadd K x (f0 K)) = x); ring|] end.
    cbn [Nat.add]. rewrite (Sum_seq_shift (fmon K) (c - (h - 1))). apply Sum_ext. intros i Hi. apply in_seq in Hi. unfold tri. f_equal; [f_equal; lia|]. f_equal. lia.
  Qed.
End Mean.
