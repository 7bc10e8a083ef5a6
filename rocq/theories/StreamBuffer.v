(** The ring buffers of the streaming functions. *)
From Verif Require Import Base Kernels PairSpec KernelProofs MultiModel MultiSpec MultiProofs StreamModel.
From Coq Require Import ZifyBool ZifyNat.
Ltac Zify.zify_post_hook ::= Z.div_mod_to_equations.
Open Scope nat_scope.
Set Implicit Arguments.

Lemma pow_pos j : 0 < 2 ^ j.
Proof. apply Nat.neq_0_lt_0, Nat.pow_nonzero. lia. Qed.

Section Buffer.
  Variable G : QGrp.
  Variable binning : Z.
  (** outcomes of r > 0.5, for every frame *)
  Variable r : nat -> bool.
  Variable x : nat -> G.

  (** Block [k] of level [j]: two blocks of the level above, combined when the last of
      their frames arrives. *)
  Definition combine_blocks (r : bool) (new old : G) : G :=
    if (binning =? BINNING_MEAN)%Z then _mean G new old
    else if (binning =? BINNING_CHOOSE)%Z then (if r then new else old)
    else new.
  Fixpoint binned (j k : nat) : G :=
    match j with
    | O => x k
    | S j => combine_blocks (r ((k + 1) * 2 ^ S j - 1)) (binned j (2 * k + 1)) (binned j (2 * k))
    end.

  (** After [n] frames, slot [k mod chunk] of level [j] holds block [k], for all complete
      blocks that have not been overwritten. *)
  Definition holds_level (chunk n j : nat) (row : list G) : Prop :=
    length row = chunk /\
    forall k, (k + 1) * 2 ^ j <= n -> n / 2 ^ j <= k + chunk -> nth (k mod chunk) row (m0 G) = binned j k.
  Definition holds (levels chunk n : nat) (buf : list (list G)) : Prop :=
    length buf = levels /\ forall j, j < levels -> holds_level chunk n j (nth j buf []).


  (** One more frame does not complete a block of level [j]. *)
  Lemma no_block n j : (n + 1) mod 2 ^ j <> 0 -> (n + 1) / 2 ^ j = n / 2 ^ j.
  Proof.
    intros H. pose proof (pow_pos j) as P. generalize dependent (2 ^ j). intros p H P.
    pose proof (Nat.div_mod (n + 1) p ltac:(lia)) as D. pose proof (Nat.mod_upper_bound (n + 1) p ltac:(lia)) as U.
    apply (Nat.div_unique n p _ ((n + 1) mod p - 1)); lia.
  Qed.
  Lemma holds_idle chunk n j row : (n + 1) mod 2 ^ j <> 0 -> holds_level chunk n j row -> holds_level chunk (n + 1) j row.
  Proof.
    intros HB [HL H]. split; [exact HL|]. intros k H1 H2. pose proof (no_block n j HB) as E. apply H; [|lia].
    destruct (Nat.eq_dec ((k + 1) * 2 ^ j) (n + 1)) as [E'|]; [|lia].
    exfalso. apply HB. rewrite <- E'. apply Nat.mod_mul. pose proof (pow_pos j). lia.
  Qed.
  (** Storing the block that is completed by frame [n]. *)
  Lemma holds_store chunk n j k row : 0 < chunk -> n + 1 = (k + 1) * 2 ^ j -> holds_level chunk n j row ->
    holds_level chunk (n + 1) j (upd row (k mod chunk) (binned j k)).
  Proof.
    intros HC E [HL H]. pose proof (pow_pos j) as P.
    assert (ED : (n + 1) / 2 ^ j = k + 1) by (rewrite E; apply Nat.div_mul; lia).
    assert (ED' : n / 2 ^ j = k). { symmetry. apply (Nat.div_unique n (2 ^ j) k (2 ^ j - 1)); [lia|]. rewrite Nat.mul_comm in E. lia. }
    split; [rewrite upd_length; exact HL|]. intros k' H1 H2. rewrite ED in H2.
    pose proof (Nat.mod_upper_bound k chunk ltac:(lia)) as U.
    destruct (Nat.eq_dec k' k) as [->|N].
    - apply nth_upd_same. lia.
    - assert (k' < k) by (rewrite E in H1; apply Nat.mul_le_mono_pos_r in H1; lia).
      rewrite nth_upd_other.
      + apply H; [|lia]. assert ((k' + 1) * 2 ^ j <= k * 2 ^ j) by (apply Nat.mul_le_mono_r; lia). lia.
      + intros EM. assert (HM := EM). clear - H0 H2 HC HM.
        pose proof (Nat.div_mod k chunk ltac:(lia)). pose proof (Nat.div_mod k' chunk ltac:(lia)).
        assert (k / chunk = k' / chunk \/ k' / chunk + 1 <= k / chunk) by (assert (k' / chunk <= k / chunk) by (apply Nat.div_le_mono; lia); lia).
        destruct H3; nia.
  Qed.

  Section Levels.
    Variables levels chunk : nat.
    Hypothesis Hlev : 0 < levels.
    Hypothesis Hchunk : 0 < chunk.
    Hypothesis Heven : 1 < levels -> chunk mod 2 = 0.

    (** In the middle of adding frame [i]: levels below [j] are up to date. *)
    Definition half_way (i j : nat) (buf : list (list G)) : Prop :=
      length buf = levels /\ (forall l, l < j -> l < levels -> holds_level chunk (i + 1) l (nth l buf [])) /\
      (forall l, j <= l -> l < levels -> holds_level chunk i l (nth l buf [])).

    Lemma nth_put A (d : list A) j l k v (buf : list (list A)) : j < length buf ->
      nth l (put j k v buf) [] = if l =? j then upd (nth j buf []) k v else nth l buf [].
    Proof.
      intros H. unfold put. destruct (Nat.eqb_spec l j) as [->|N]; [apply nth_upd_same; exact H|apply nth_upd_other; auto].
    Qed.

    Lemma odd_slot k : 1 < levels -> (2 * k + 1) mod chunk = (2 * k) mod chunk + 1.
    Proof.
      intros HL. specialize (Heven HL).
      assert (EC : chunk = 2 * (chunk / 2)) by lia. assert (HP : 0 < chunk / 2) by lia. rewrite EC. generalize dependent (chunk / 2). intros h EC HP.
      rewrite Nat.mul_mod_distr_l by lia. pose proof (Nat.mod_upper_bound k h ltac:(lia)) as U.
      symmetry. apply (Nat.mod_unique _ _ (k / h)); [lia|]. rewrite (Nat.div_mod k h) at 1 by lia. ring.
    Qed.

    Lemma add_levels_holds i todo : forall j v top buf, j + todo = levels -> 0 < j ->
      (i + 1) mod 2 ^ (j - 1) = 0 -> top = (i / 2 ^ (j - 1)) mod chunk -> v = binned (j - 1) (i / 2 ^ (j - 1)) ->
      half_way i j buf ->
      half_way i levels (add_levels G binning (r i) chunk i todo j top v buf).
    Proof.
      induction todo as [|todo IH]; intros j v top buf HJ H0 HB HT HX HH; cbn [add_levels].
      - replace levels with j by lia. exact HH.
      - destruct (Nat.eqb_spec ((i + 1) mod 2 ^ j) 0) as [E|N].
        + destruct HH as (HL & Hlow & Hhigh).
          set (k := i / 2 ^ j). pose proof (pow_pos j) as P. pose proof (pow_pos (j - 1)) as P1.
          assert (EP : 2 ^ j = 2 * 2 ^ (j - 1)) by (replace j with (S (j - 1)) at 1 by lia; reflexivity).
          assert (EK : i + 1 = (k + 1) * 2 ^ j).
          { pose proof (Nat.div_mod (i + 1) (2 ^ j) ltac:(lia)) as D. rewrite E, Nat.add_0_r in D.
            set (c := (i + 1) / 2 ^ j) in *. assert (0 < c) by (destruct c; [rewrite Nat.mul_0_r in D; lia|lia]).
            assert (k = c - 1). { unfold k. symmetry. apply (Nat.div_unique i (2 ^ j) (c - 1) (2 ^ j - 1)); [lia|]. rewrite Nat.mul_sub_distr_l. nia. }
            replace (k + 1) with c by lia. rewrite Nat.mul_comm. exact D. }
          assert (EK1 : i / 2 ^ (j - 1) = 2 * k + 1).
          { symmetry. apply (Nat.div_unique i (2 ^ (j - 1)) _ (2 ^ (j - 1) - 1)); [lia|]. rewrite EP in EK. nia. }
          assert (EV : (if (binning =? BINNING_MEAN)%Z then _mean G v (nth (if top =? 0 then length (nth (j - 1) buf []) - 1 else top - 1) (nth (j - 1) buf []) (m0 G))
                   else if (binning =? BINNING_CHOOSE)%Z then (if r i then v else nth (if top =? 0 then length (nth (j - 1) buf []) - 1 else top - 1) (nth (j - 1) buf []) (m0 G))
                   else v) = binned j k).
          { assert (EB : binned j k = combine_blocks (r i) (binned (j - 1) (2 * k + 1)) (binned (j - 1) (2 * k))).
            { replace i with ((k + 1) * 2 ^ j - 1) by lia. clear - H0. destruct j as [|j']; [lia|]. cbn [Nat.sub]. rewrite Nat.sub_0_r. reflexivity. }
            rewrite EK1 in HT, HX. rewrite (odd_slot k) in HT by lia.
            replace (top =? 0) with false by lia. replace (top - 1) with ((2 * k) mod chunk) by lia.
            destruct (Hlow (j - 1) ltac:(lia) ltac:(lia)) as [HL1 HR].
            assert (2 <= chunk) by (specialize (Heven ltac:(lia)); lia).
            rewrite HR; [|rewrite EK, EP; nia|].
            - rewrite EB. unfold combine_blocks. rewrite HX. reflexivity.
            - rewrite EK, EP. replace ((k + 1) * (2 * 2 ^ (j - 1))) with ((2 * k + 2) * 2 ^ (j - 1)) by ring. rewrite Nat.div_mul by lia. lia. }
          rewrite EV. apply IH; [lia|lia| | | |].
          * replace (S j - 1) with j by lia. exact E.
          * replace (S j - 1) with j by lia. reflexivity.
          * replace (S j - 1) with j by lia. reflexivity.
          * split; [unfold put; rewrite upd_length; exact HL|]. split; intros l Hl Hll; rewrite (@nth_put G []) by lia.
            -- destruct (Nat.eqb_spec l j) as [->|]; [|apply Hlow; lia].
               apply holds_store; [exact Hchunk|exact EK|]. apply Hhigh; lia.
            -- destruct (Nat.eqb_spec l j); [lia|]. apply Hhigh; lia.
        + destruct HH as (HL & Hlow & Hhigh). split; [exact HL|]. split; [|lia]. intros l Hl _.
          destruct (Nat.lt_ge_cases l j) as [|G0]; [apply Hlow; lia|].
          apply holds_idle; [|apply Hhigh; lia].
          intros E. apply N. pose proof (pow_pos j). pose proof (pow_pos (l - j)).
          assert (EP : 2 ^ l = 2 ^ j * 2 ^ (l - j)) by (rewrite <- Nat.pow_add_r; f_equal; lia).
          apply Nat.mod_divide in E; [|lia]. apply Nat.mod_divide; [lia|]. destruct E as [c Ec]. exists (c * 2 ^ (l - j)). rewrite Ec, EP. ring.
    Qed.

    Lemma add_data_holds i buf : holds levels chunk i buf -> holds levels chunk (i + 1) (add_data G binning (r i) i (x i) buf).
    Proof.
      intros [HL H]. unfold add_data.
      assert (EC : length (nth 0 buf []) = chunk) by (apply (H 0); lia). rewrite EC, HL.
      destruct (@add_levels_holds i (levels - 1) 1 (x i) (i mod chunk) (put 0 (i mod chunk) (x i) buf)) as (A & B & _).
      - lia.
      - lia.
      - cbn. reflexivity.
      - cbn [Nat.sub Nat.pow]. rewrite Nat.div_1_r. reflexivity.
      - cbn [Nat.sub Nat.pow binned]. rewrite Nat.div_1_r. reflexivity.
      - split; [unfold put; rewrite upd_length; exact HL|]. split; intros l Hl Hll; rewrite (@nth_put G []) by lia.
        + destruct (Nat.eqb_spec l 0) as [->|]; [|lia]. apply (@holds_store chunk i 0 i); [exact Hchunk|cbn; lia|]. apply H; lia.
        + destruct (Nat.eqb_spec l 0); [lia|]. apply H; lia.
      - split; [exact A|]. intros j Hj. apply B; lia.
    Qed.
    (** Only one slot of level 0 changes. *)
    Lemma add_levels_level0 i v todo : forall j top w buf, 0 < j -> nth 0 (add_levels G binning v chunk i todo j top w buf) [] = nth 0 buf [].
    Proof.
      clear Heven Hlev Hchunk levels. induction todo as [|todo IH]; intros j top w buf H; cbn [add_levels]; [reflexivity|].
      destruct (_ =? 0); [|reflexivity]. rewrite IH by lia. unfold put. apply nth_upd_other. lia.
    Qed.
  End Levels.

  Lemma add_data_level0 v i w buf : 0 < length buf ->
    nth 0 (add_data G binning v i w buf) [] = upd (nth 0 buf []) (i mod length (nth 0 buf [])) w.
  Proof.
    intros H. unfold add_data. rewrite add_levels_level0 by lia. unfold put. apply nth_upd_same. exact H.
  Qed.

  (** Chunk number [c] of level [j], when it has just been completed. *)
  Lemma holds_chunk levels chunk half j c buf : 0 < half -> j < levels -> chunk = 2 * half \/ (chunk = half /\ c = 0) ->
    holds levels chunk ((c + 1) * half * 2 ^ j) buf ->
    slice (half * (c mod 2)) half (nth j buf []) = map (binned j) (seq (c * half) half) /\
    (0 < c -> slice (half * ((c + 1) mod 2)) half (nth j buf []) = map (binned j) (seq ((c - 1) * half) half)).
  Proof.
    intros HH HJ HC [HL H]. destruct (H j HJ) as [HR HK]. pose proof (pow_pos j) as P.
    rewrite Nat.div_mul in HK by lia.
    assert (EN : forall a, half * a + half <= chunk -> forall k, (forall m, m < half -> (k + m) mod chunk = half * a + m /\ k + m < (c + 1) * half <= k + m + chunk) ->
      slice (half * a) half (nth j buf []) = map (binned j) (seq k half)).
    { intros a Ha k Hm. unfold slice.
      assert (LS : length (firstn half (skipn (half * a) (nth j buf []))) = half) by (rewrite firstn_length, skipn_length, HR; lia).
      apply list_nth_ext with (d := m0 G); [rewrite LS, map_length, seq_length; reflexivity|]. rewrite LS. intros m Hlt.
      rewrite nth_indep with (l := map _ _) (d' := binned j 0) by (rewrite map_length, seq_length; exact Hlt).
      rewrite map_nth, seq_nth by exact Hlt. destruct (Hm m Hlt) as (E1 & E2 & E3).
      rewrite <- HK.
      - rewrite E1. clear - Hlt. generalize (nth j buf []). intros l. generalize (half * a). intros b.
        revert b l. induction half as [|h IH]; [lia|]. intros b l. 
        assert (forall (l : list G) n m, m < n -> nth m (firstn n l) (m0 G) = nth m l (m0 G)).
        { clear. induction l as [|a l IHl]; intros [|n] [|m] Hm; cbn; auto; try lia. apply IHl. lia. }
        rewrite H by exact Hlt. clear. revert l. induction b as [|b IHb]; intros l; [reflexivity|].
        destruct l as [|a l]; [destruct m; reflexivity|]. apply IHb.
      - apply Nat.mul_le_mono_r. lia.
      - exact E3. }
    destruct HC as [->|[-> ->]].
    - split; [|intros Hc]; apply EN.
      + pose proof (Nat.mod_upper_bound c 2). nia.
      + intros m Hm. split; [|nia]. symmetry. apply (Nat.mod_unique _ _ (c / 2)); [pose proof (Nat.mod_upper_bound c 2); nia|].
        pose proof (Nat.div_mod c 2). nia.
      + pose proof (Nat.mod_upper_bound (c + 1) 2). nia.
      + intros m Hm. split; [|nia]. symmetry.
        assert (EM : (c + 1) mod 2 = (c - 1) mod 2) by lia. rewrite EM.
        apply (Nat.mod_unique _ _ ((c - 1) / 2)); [pose proof (Nat.mod_upper_bound (c - 1) 2); nia|].
        pose proof (Nat.div_mod (c - 1) 2). nia.
    - split; [|lia]. apply EN; [cbn; lia|]. intros m Hm. cbn [Nat.mul Nat.add]. cbn. split; [rewrite Nat.mul_0_r; apply Nat.mod_small; exact Hm|lia].
  Qed.
  (** The whole row, once it has been filled for the first time. *)
  Lemma holds_full levels chunk j buf : j < levels -> holds levels chunk (chunk * 2 ^ j) buf -> nth j buf [] = map (binned j) (seq 0 chunk).
  Proof.
    intros HJ [HL H]. destruct (H j HJ) as [HR HK]. pose proof (pow_pos j) as P. rewrite Nat.div_mul in HK by lia.
    apply list_nth_ext with (d := m0 G); rewrite HR, ?map_length, ?seq_length; [reflexivity|]. intros k Hk.
    rewrite nth_indep with (l := map _ _) (d' := binned j 0) by (rewrite map_length, seq_length; exact Hk).
    rewrite map_nth, seq_nth by exact Hk. rewrite <- HK; [f_equal; symmetry; apply Nat.mod_small, Hk|apply Nat.mul_le_mono_r; lia|lia].
  Qed.
End Buffer.

(** With BINNING_MEAN the blocks are block means; with BINNING_FIRST, the last frame of
    each block. *)
Lemma binned_mean (G : QGrp) r x j k : binned G BINNING_MEAN r x j k = block_mean G j x k.
Proof.
  revert k. induction j as [|j IH]; intros k; cbn [binned]; [symmetry; apply block_mean_0|].
  rewrite block_mean_S, !IH. unfold combine_blocks. cbn [Z.eqb Pos.eqb BINNING_MEAN]. unfold _mean. f_equal. apply madd_comm.
Qed.
Lemma binned_first (G : QGrp) r x j k : binned G BINNING_FIRST r x j k = x ((k + 1) * 2 ^ j - 1).
Proof.
  revert k. induction j as [|j IH]; intros k; cbn [binned]; [f_equal; cbn; lia|].
  unfold combine_blocks. cbn [Z.eqb Pos.eqb BINNING_MEAN BINNING_FIRST BINNING_CHOOSE]. rewrite IH. f_equal. cbn [Nat.pow]. nia.
Qed.
Lemma binned_ext (G : QGrp) b r r' x x' j : forall k, (forall i, i < (k + 1) * 2 ^ j -> x i = x' i) -> (forall i, i < (k + 1) * 2 ^ j -> r i = r' i) ->
  binned G b r x j k = binned G b r' x' j k.
Proof.
  induction j as [|j IH]; intros k HX HR; cbn [binned]; [apply HX; cbn; lia|].
  pose proof (pow_pos j). rewrite (HR _) by (cbn [Nat.pow]; nia). f_equal; apply IH; intros i Hi; (apply HX || apply HR); cbn [Nat.pow]; nia.
Qed.
