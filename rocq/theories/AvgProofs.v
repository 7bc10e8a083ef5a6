(** Proofs about the filters. *)
From Verif Require Import Base KernelProofs Ordered AvgModel.
From Coq Require Import ZifyBool ZifyNat.
Set Implicit Arguments.

Section Filters.
  Variable K : OFld.
  Add Field Kavg : (flaw K).
  Local Notation "0" := (f0 K).
  Local Infix "+" := (fadd K).
  Local Infix "*" := (fmul K).
  Local Infix "-" := (fsub K).
  Local Infix "/" := (fdiv K).
  Local Notation at_ l i := (nth i%nat l 0).

  (** ** convolve *)
  (** The value at position [i] *)
  Definition smooth (a : list K) (i : nat) : K :=
    if i =? 0 then at_ a 0 else if (i =? length a - 1)%nat then at_ a i
    else fdiv K (at_ a (i - 1) + fnat K 2 * at_ a i + at_ a (i + 1)) (fnat K 4).
  (** The value that the kernel computes when it overwrites its input *)
  Fixpoint smooth_rec (a : list K) (i : nat) : K :=
    match i with
    | O => at_ a 0
    | S j => if (i =? length a - 1)%nat then at_ a i else fdiv K (smooth_rec a j + fnat K 2 * at_ a i + at_ a (i + 1)) (fnat K 4)
    end.

  Lemma convolve_ok (a out : list K) : length out = length a -> 2 < length a ->
    convolve K false a out = Ok (map (smooth a) (seq 0 (length a))).
  Proof.
    intros HL Hn. unfold convolve. rewrite HL. replace (2 <? length a) with true by lia. cbn [negb]. set (n := length a) in *.
    set (body := fun (i : nat) (s : list K * K) => _).
    pose (P := fun i (s : list K * K) => length (fst s) = n /\ (forall k, (k < i - 1)%nat -> at_ (fst s) k = smooth a k) /\ snd s = smooth a (i - 1)).
    assert (HP : P (n - 1)%nat (for_range 1 (n - 1) body (out, rd K false a out 0))).
    { apply for_range_inv; [lia| |].
      - split; [exact HL|]. split; [intros; lia|]. reflexivity.
      - intros i [o r] Hi (H1 & H2 & H3). cbn [fst snd] in *. unfold body. split; [cbn; rewrite upd_length; exact H1|]. split.
        + intros k Hk. cbn [fst]. rewrite nth_upd. destruct (Nat.eqb_spec k (i - 1)) as [->|].
          * replace (i - 1 <? length o) with true by lia. exact H3.
          * apply H2. lia.
        + cbn [snd]. unfold rd, smooth. replace (S i - 1)%nat with i by lia. replace (i =? 0) with false by lia. replace (i =? length a - 1) with false by (fold n; lia). reflexivity. }
    destruct (for_range 1 (n - 1) body (out, rd K false a out 0)) as [o r]. destruct HP as (H1 & H2 & H3). cbn [fst snd] in *. f_equal.
    apply list_nth_ext with (d := f0 K); rewrite !upd_length, ?map_length, ?seq_length; [exact H1|]. intros k Hk. rewrite (nth_map_seq (smooth a)) by lia. rewrite !nth_upd, !upd_length.
    destruct (Nat.eqb_spec k (n - 1)) as [->|].
    - replace (n - 1 <? length o) with true by lia. cbn [andb]. unfold rd, smooth. replace (n - 1 =? 0) with false by lia. unfold n. rewrite Nat.eqb_refl. reflexivity.
    - cbn [andb]. destruct (Nat.eqb_spec k (n - 2)) as [->|]; [replace (n - 2 <? length o) with true by lia; cbn [andb]; rewrite H3; f_equal; lia|]. cbn [andb]. apply H2. lia.
  Qed.
  Lemma convolve_short (a out : list K) alias : length out <= 2 -> convolve K alias a out = Raise AssertionError.
  Proof. intros H. unfold convolve. replace (2 <? length out) with false by lia. reflexivity. Qed.
  Lemma smooth_rec_S a i : (S i < length a - 1)%nat -> smooth_rec a (S i) = fdiv K (smooth_rec a i + fnat K 2 * at_ a (S i) + at_ a (S i + 1)) (fnat K 4).
  Proof. intros H. cbn [smooth_rec]. replace (match (length a - 1)%nat with 0%nat => false | S m' => (i =? m')%nat end) with (S i =? length a - 1)%nat by reflexivity. replace (S i =? length a - 1) with false by lia. reflexivity. Qed.

  Lemma smooth_rec_last a : 1 < length a -> smooth_rec a (length a - 1) = at_ a (length a - 1).
  Proof.
    intros H. destruct (length a) as [|[|m]] eqn:E; [lia|lia|]. replace (S (S m) - 1)%nat with (S m) by lia. unfold smooth_rec. rewrite E.
    replace (S (S m) - 1)%nat with (S m) by lia. rewrite Nat.eqb_refl. reflexivity.
  Qed.
  Lemma convolve_in_place (a : list K) : 2 < length a -> convolve K true a a = Ok (map (smooth_rec a) (seq 0 (length a))).
  Proof.
    intros Hn. unfold convolve. replace (2 <? length a) with true by lia. cbn [negb]. set (n := length a) in *.
    set (body := fun (i : nat) (s : list K * K) => _).
    pose (P := fun i (s : list K * K) => length (fst s) = n /\ (forall k, (k < i - 1)%nat -> at_ (fst s) k = smooth_rec a k) /\ (forall k, (i - 1 <= k)%nat -> at_ (fst s) k = at_ a k) /\ snd s = smooth_rec a (i - 1)).
    assert (HP : P (n - 1)%nat (for_range 1 (n - 1) body (a, rd K true a a 0))).
    { apply for_range_inv; [lia| |].
      - split; [reflexivity|]. split; [intros; lia|]. split; [reflexivity|reflexivity].
      - intros i [o r] Hi (H1 & H2 & H3 & H4). cbn [fst snd] in *. unfold body. split; [cbn; rewrite upd_length; exact H1|]. repeat split.
        + intros k Hk. cbn [fst]. rewrite nth_upd. destruct (Nat.eqb_spec k (i - 1)) as [->|].
          * replace (i - 1 <? length o) with true by lia. exact H4.
          * apply H2. lia.
        + intros k Hk. cbn [fst]. rewrite nth_upd. replace (k =? i - 1) with false by lia. apply H3. lia.
        + cbn [snd]. unfold rd. rewrite !nth_upd. rewrite Nat.eqb_refl. replace (i - 1 <? length o) with true by lia. cbn [andb].
          replace (i =? i - 1) with false by lia. replace (i + 1 =? i - 1) with false by lia. cbn [andb]. rewrite !H3 by lia. rewrite H4.
          destruct i as [|i]; [lia|]. replace (S (S i) - 1)%nat with (S i) by lia. replace (S i - 1)%nat with i by lia. rewrite smooth_rec_S by (fold n; lia). reflexivity. }
    destruct (for_range 1 (n - 1) body (a, rd K true a a 0)) as [o r]. destruct HP as (H1 & H2 & H3 & H4). cbn [fst snd] in *. f_equal.
    apply list_nth_ext with (d := f0 K); rewrite !upd_length, ?map_length, ?seq_length; [exact H1|]. intros k Hk. rewrite (nth_map_seq (smooth_rec a)) by lia. rewrite !nth_upd, !upd_length.
    destruct (Nat.eqb_spec k (n - 1)) as [->|].
    - replace (n - 1 <? length o) with true by lia. cbn [andb]. unfold rd. rewrite nth_upd. replace (n - 1 =? n - 2) with false by lia. cbn [andb]. rewrite H3 by lia.
      symmetry. apply smooth_rec_last. lia.
    - cbn [andb]. destruct (Nat.eqb_spec k (n - 2)) as [->|]; [replace (n - 2 <? length o) with true by lia; cbn [andb]; rewrite H4; f_equal; lia|]. cbn [andb]. apply H2. lia.
  Qed.

  Lemma two_pos : flt K 0 (fnat K 2) = true.
  Proof. apply flt_fnat. discriminate. Qed.
  Lemma four_pos : flt K 0 (fnat K 4) = true.
  Proof. apply flt_fnat. discriminate. Qed.
  Lemma four_neq0 : fnat K 4 <> 0.
  Proof. apply fnat_neq0. discriminate. Qed.
  Lemma fnat_4 : fnat K 4 = f1 K + f1 K + f1 K + f1 K.
  Proof. unfold fnat. cbn [Nat.iter nat_rect]. ring. Qed.
  Lemma fnat_2 : fnat K 2 = f1 K + f1 K.
  Proof. unfold fnat. cbn [Nat.iter nat_rect]. ring. Qed.
  Lemma div_four x y : x = fnat K 4 * y -> fdiv K x (fnat K 4) = y.
  Proof. intros ->. generalize four_neq0. generalize (fnat K 4). intros c Hc. field. exact Hc. Qed.
  (** Linear data are kept *)
  Lemma smooth_linear (a : list K) c d i : (forall k, (k < length a)%nat -> at_ a k = c * fnat K k + d) -> (i < length a)%nat -> smooth a i = at_ a i.
  Proof.
    intros H Hi. unfold smooth. destruct (Nat.eqb_spec i 0) as [->|]; [reflexivity|]. destruct (Nat.eqb_spec i (length a - 1)) as [E|E]; [reflexivity|].
    rewrite !H by lia. destruct i as [|i]; [lia|]. replace (S i - 1)%nat with i by lia. replace (S i + 1)%nat with (S (S i)) by lia. apply div_four. rewrite fnat_4, fnat_2. rewrite !fnat_S. ring.
  Qed.
  Lemma smooth_between (a : list K) lo hi i : (forall k, (k < length a)%nat -> fle lo (at_ a k) /\ fle (at_ a k) hi) -> (i < length a)%nat -> fle lo (smooth a i) /\ fle (smooth a i) hi.
  Proof.
    intros H Hi. unfold smooth. destruct (Nat.eqb_spec i 0) as [->|]; [apply H; lia|]. destruct (Nat.eqb_spec i (length a - 1)) as [E|E]; [apply H; lia|].
    destruct (H (i - 1)%nat ltac:(lia)) as [A1 A2]. destruct (H i Hi) as [B1 B2]. destruct (H (i + 1)%nat ltac:(lia)) as [C1 C2].
    assert (T : fle 0 (fnat K 2)) by (apply flt_le; exact two_pos).
    assert (E4 : forall x, x = fdiv K (x + fnat K 2 * x + x) (fnat K 4)) by (intros x; symmetry; apply div_four; rewrite fnat_4, fnat_2; ring).
    split; [rewrite (E4 lo)|rewrite (E4 hi)]; apply fle_div; try exact four_pos; repeat apply fle_add2; try assumption; apply fle_mul; assumption.
  Qed.

  (** ** median *)
  (** [m] is the middle of the three values *)
  Definition middle (a b c m : K) : Prop := exists lo hi, Permutation [a; b; c] [lo; m; hi] /\ fle lo m /\ fle m hi.
  Lemma median1_middle l c r : middle l c r (median1 K l c r).
  Proof.
    unfold median1, middle, fmin, fmax. destruct (flt K c r) eqn:E1; destruct (flt K c l) eqn:E2.
    - destruct (flt K l r) eqn:E3.
      + exists c, r. split; [apply perm_swap|]. split; apply flt_le; assumption.
      + exists c, l. split; [|split; [apply flt_le; assumption|exact E3]]. rewrite (perm_swap c l [r]). apply perm_skip. apply perm_swap.
    - exists l, r. split; [reflexivity|]. split; [exact E2|apply flt_le; exact E1].
    - exists r, l. split; [|split; [exact E1|apply flt_le; exact E2]]. change [l; c; r] with ([l; c] ++ [r]). rewrite (Permutation_app_comm [l; c] [r]). cbn. apply perm_skip. apply perm_swap.
    - destruct (flt K r l) eqn:E3.
      + exists r, c. split; [|split; [apply flt_le; exact E3|exact E2]]. rewrite (perm_swap c l [r]). change [c; l; r] with ([c] ++ [l; r]). rewrite (Permutation_app_comm [c] [l; r]). cbn. apply perm_swap.
      + exists l, c. split; [|split; [exact E3|exact E1]]. apply perm_skip. apply perm_swap.
  Qed.
  Lemma middle_unique a b c m m' : middle a b c m -> middle a b c m' -> m = m'.
  Proof.
    intros (lo & hi & P & H1 & H2) (lo' & hi' & P' & H1' & H2').
    assert (Q : Permutation [lo; m; hi] [lo'; m'; hi']) by (rewrite <- P; exact P'). clear P P' a b c.
    assert (I : forall x, In x [lo; m; hi] <-> In x [lo'; m'; hi']) by (intros x; split; apply Permutation_in; [exact Q|symmetry; exact Q]).
    (* if m < m' then both m' and hi' are above m, hence equal hi, so lo and m share a place *)
    assert (G : forall lo m hi lo' m' hi', fle lo m -> fle m hi -> fle lo' m' -> fle m' hi' -> Permutation [lo; m; hi] [lo'; m'; hi'] -> flt K m m' = false).
    { clear. intros lo m hi lo' m' hi' H1 H2 H1' H2' Q. destruct (flt K m m') eqn:E; [|reflexivity]. exfalso.
      pose (f := fun x => flt K m x).
      assert (L : forall l l', Permutation l l' -> length (filter f l) = length (filter f l')).
      { clear. intros l l' P. induction P as [|x l l' P IH|x y l|l1 l2 l3 P1 IH1 P2 IH2]; cbn [filter]; [reflexivity| | |congruence].
        - destruct (f x); cbn [length]; congruence.
        - destruct (f x), (f y); reflexivity. }
      specialize (L _ _ Q). unfold f in L. cbn [filter] in L. rewrite flt_irrefl, E in L. rewrite (@flt_le_trans K _ _ _ E H2') in L.
      assert (flt K m lo = false) as E1 by exact H1. rewrite E1 in L. destruct (flt K m hi), (flt K m lo'); discriminate. }
    apply flt_total; [exact (G _ _ _ _ _ _ H1 H2 H1' H2' Q)|]. apply (G lo' m' hi' lo m hi); try assumption. symmetry. exact Q.
  Qed.
  Definition med (a : list K) (i : nat) : K :=
    if i =? 0 then at_ a 0 else if (i =? length a - 1)%nat then at_ a i else median1 K (at_ a (i - 1)) (at_ a i) (at_ a (i + 1)).

  Lemma median_ok (alias : bool) (a out : list K) : length out = length a -> 2 < length a -> (alias = true -> out = a) ->
    _median K alias a out = Ok (map (med a) (seq 0 (length a))).
  Proof.
    intros HL Hn HA. unfold _median. replace (2 <? length a) with true by lia. cbn [negb]. set (n := length a) in *.
    set (o0 := upd out _ _). set (body := fun (i : nat) (s : list K * K) => _).
    pose (P := fun i (s : list K * K) => length (fst s) = n /\ (forall k, (k < i - 1)%nat -> at_ (fst s) k = med a k) /\ at_ (fst s) (n - 1) = at_ a (n - 1) /\
      (alias = true -> forall k, (i - 1 <= k)%nat -> at_ (fst s) k = at_ a k) /\ snd s = med a (i - 1)).
    assert (R0 : forall k, rd K alias a out k = at_ a k) by (intros k; unfold rd; destruct alias; [rewrite HA by reflexivity|]; reflexivity).
    assert (HP : P (n - 1)%nat (for_range 1 (n - 1) body (o0, rd K alias a out 0))).
    { apply for_range_inv; [lia| |].
      - split; [unfold o0; cbn [fst]; rewrite upd_length; exact HL|]. split; [intros; lia|]. cbn [fst snd]. unfold o0. repeat split.
        + rewrite nth_upd_same by lia. apply R0.
        + intros A k Hk. rewrite nth_upd. rewrite R0. destruct (Nat.eqb_spec k (n - 1)) as [->|]; [replace (n - 1 <? length out) with true by lia; reflexivity|]. cbn [andb]. rewrite HA by exact A. reflexivity.
        + rewrite R0. reflexivity.
      - intros i [o r] Hi (H1 & H2 & H3 & H4 & H5). cbn [fst snd] in *. unfold body. split; [cbn; rewrite upd_length; exact H1|]. cbn [fst snd]. repeat split.
        + intros k Hk. rewrite nth_upd. destruct (Nat.eqb_spec k (i - 1)) as [->|].
          * replace (i - 1 <? length o) with true by lia. exact H5.
          * apply H2. lia.
        + rewrite nth_upd_other by lia. exact H3.
        + intros A k Hk. rewrite nth_upd_other by lia. apply H4; [exact A|lia].
        + replace (S i - 1)%nat with i by lia. unfold med. replace (i =? 0) with false by lia. replace (i =? length a - 1) with false by (fold n; lia).
          unfold rd. destruct alias; [rewrite !H4 by (try reflexivity; lia)|]; reflexivity. }
    destruct (for_range 1 (n - 1) body (o0, rd K alias a out 0)) as [o r]. destruct HP as (H1 & H2 & H3 & H4 & H5). cbn [fst snd] in *. f_equal.
    apply list_nth_ext with (d := f0 K); rewrite !upd_length, ?map_length, ?seq_length; [exact H1|]. intros k Hk. rewrite (nth_map_seq (med a)) by lia. rewrite nth_upd.
    destruct (Nat.eqb_spec k (n - 2)) as [->|].
    - replace (n - 2 <? length o) with true by lia. cbn [andb]. rewrite H5. f_equal. lia.
    - cbn [andb]. destruct (Nat.eq_dec k (n - 1)) as [->|]; [|apply H2; lia]. rewrite H3. unfold med. replace (n - 1 =? 0) with false by lia. unfold n. rewrite Nat.eqb_refl. reflexivity.
  Qed.
  Lemma median_short (a out : list K) alias : length a <= 2 -> _median K alias a out = Raise AssertionError.
  Proof. intros H. unfold _median. replace (2 <? length a) with false by lia. reflexivity. Qed.

  Lemma sorted_middle a b c : middle a b c (nth 1 (sorted K [a; b; c]) 0).
  Proof.
    unfold sorted, middle. cbn [fold_right insert_sorted]. destruct (flt K c b) eqn:E1; cbn [insert_sorted].
    - destruct (flt K c a) eqn:E2; cbn [nth].
      + destruct (flt K b a) eqn:E3; cbn [nth].
        * exists c, a. split; [|split; [apply flt_le; exact E1|apply flt_le; exact E3]]. change [a; b; c] with ([a] ++ [b; c]). rewrite (Permutation_app_comm [a] [b; c]). cbn. apply perm_swap.
        * exists c, b. split; [|split; [apply flt_le; exact E2|exact E3]]. change [a; b; c] with ([a; b] ++ [c]). rewrite (Permutation_app_comm [a; b] [c]). reflexivity.
      + exists a, b. split; [|split; [exact E2|apply flt_le; exact E1]]. apply perm_skip. apply perm_swap.
    - destruct (flt K b a) eqn:E2; cbn [insert_sorted].
      + destruct (flt K c a) eqn:E3; cbn [nth].
        * exists b, a. split; [|split; [exact E1|apply flt_le; exact E3]]. rewrite (perm_swap b a [c]). apply perm_skip. apply perm_swap.
        * exists b, c. split; [|split; [apply flt_le; exact E2|exact E3]]. apply perm_swap.
      + cbn [nth]. exists a, c. split; [reflexivity|]. split; assumption.
  Qed.
  Lemma median_slow_ok (a out : list K) : length out = length a -> 2 < length a -> _median_slow K a out = Ok (map (med a) (seq 0 (length a))).
  Proof.
    intros HL Hn. unfold _median_slow. replace (2 <? length a) with true by lia. cbn [negb]. set (n := length a) in *. set (body := fun (i : nat) (out : list K) => _). f_equal.
    pose (P := fun i (s : list K) => length s = n /\ forall k, (1 <= k < i)%nat -> at_ s k = med a k).
    assert (HP : P (n - 1)%nat (for_range 1 (n - 1) body out)).
    { apply for_range_inv; [lia| |].
      - split; [exact HL|intros; lia].
      - intros i o Hi (H1 & H2). unfold body. split; [rewrite upd_length; exact H1|]. intros k Hk. rewrite nth_upd. destruct (Nat.eqb_spec k i) as [->|]; [|apply H2; lia].
        replace (i <? length o) with true by lia. cbn [andb]. unfold med. replace (i =? 0) with false by lia. replace (i =? length a - 1) with false by (fold n; lia).
        eapply middle_unique; [|apply median1_middle].
        assert (EF : firstn 3 (skipn (i - 1) a) = [at_ a (i - 1); at_ a i; at_ a (i + 1)]).
        { apply list_nth_ext with (d := f0 K); rewrite firstn_length, skipn_length; [cbn [length]; unfold n in *; lia|]. intros q Hq.
          assert (q < 3)%nat by lia. rewrite <- (firstn_skipn (i - 1) a) at 2 3 4. clear H2.
          assert (N : forall j, nth j (skipn (i - 1) a) 0 = at_ a (i - 1 + j)).
          { intros j. rewrite <- (firstn_skipn (i - 1) a) at 2. rewrite app_nth2; rewrite firstn_length, Nat.min_l by (unfold n in *; lia); [|lia]. f_equal. lia. }
          rewrite !firstn_skipn.
          assert (N2 : nth q (firstn 3 (skipn (i - 1) a)) 0 = nth q (skipn (i - 1) a) 0).
          { rewrite <- (firstn_skipn 3 (skipn (i - 1) a)) at 2. rewrite app_nth1; [reflexivity|]. rewrite firstn_length, skipn_length. unfold n in *. lia. }
          rewrite N2, N. destruct q as [|[|[|q]]]; [| | |lia]; cbn [nth]; f_equal; lia. }
        rewrite EF. apply sorted_middle. }
    destruct HP as [H1 H2]. apply list_nth_ext with (d := f0 K); rewrite !upd_length, ?map_length, ?seq_length; [exact H1|]. intros k Hk. rewrite (nth_map_seq (med a)) by lia. rewrite !nth_upd, !upd_length.
    destruct (Nat.eqb_spec k (n - 1)) as [->|].
    - replace (n - 1 <? length (for_range 1 (n - 1) body out)) with true by lia. cbn [andb]. unfold med. replace (n - 1 =? 0) with false by lia. unfold n. rewrite Nat.eqb_refl. reflexivity.
    - cbn [andb]. destruct (Nat.eqb_spec k 0) as [->|]; [replace (0 <? length (for_range 1 (n - 1) body out)) with true by lia; reflexivity|]. cbn [andb]. apply H2. lia.
  Qed.
  Lemma med_between (a : list K) lo hi i : (forall k, (k < length a)%nat -> fle lo (at_ a k) /\ fle (at_ a k) hi) -> (i < length a)%nat -> fle lo (med a i) /\ fle (med a i) hi.
  Proof.
    intros H Hi. unfold med. destruct (Nat.eqb_spec i 0) as [->|]; [apply H; lia|]. destruct (Nat.eqb_spec i (length a - 1)) as [E|E]; [apply H; lia|].
    destruct (median1_middle (at_ a (i - 1)) (at_ a i) (at_ a (i + 1))) as (x & y & P & _). set (m := median1 _ _ _ _) in *.
    assert (I : In m [at_ a (i - 1); at_ a i; at_ a (i + 1)]) by (eapply Permutation_in; [symmetry; exact P|right; left; reflexivity]).
    destruct I as [<-|[<-|[<-|[]]]]; apply H; lia.
  Qed.
End Filters.
