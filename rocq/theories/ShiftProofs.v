(** Lemmas about shift_data and equalize_data *)
From Coq Require Import Reals Lra ZifyBool ZifyNat.
From Verif Require Import Base FftReals KernelProofs RegularProofs NormModel NormMode3 ShiftModel.
Set Implicit Arguments.
Ltac Zify.zify_post_hook ::= Z.div_mod_to_equations.
Notation C := (Cx RF).

Lemma set_slice_length out k vals : k + length vals <= length out -> length (set_slice out k vals) = length out.
Proof. intros H. unfold set_slice. rewrite !app_length, firstn_length, skipn_length. lia. Qed.
Lemma set_slice_nth out k vals i d : k + length vals <= length out ->
  nth i (set_slice out k vals) d = if (i <? k) then nth i out d else if (i <? k + length vals) then nth (i - k) vals d else nth i out d.
Proof.
  intros H. unfold set_slice. destruct (Nat.ltb_spec i k) as [L|L].
  - rewrite app_nth1 by (rewrite firstn_length; lia). apply nth_firstn. exact L.
  - rewrite app_nth2 by (rewrite firstn_length; lia). rewrite firstn_length, Nat.min_l by lia. destruct (Nat.ltb_spec i (k + length vals)).
    + rewrite app_nth1 by lia. reflexivity.
    + rewrite app_nth2 by lia. rewrite nth_skipn. f_equal. lia.
Qed.
Lemma set_back_length out vals : length vals <= length out -> length (set_back out vals) = length out.
Proof. intros H. unfold set_back. rewrite rev_length, set_slice_length, rev_length; rewrite ?rev_length; lia. Qed.
Lemma set_back_nth out vals i d : length vals <= length out -> i < length out ->
  nth i (set_back out vals) d = if (length out - 1 - i <? length vals) then nth (length out - 1 - i) vals d else nth i out d.
Proof.
  intros H Hi. unfold set_back. rewrite rev_nth by (rewrite set_slice_length; rewrite rev_length; lia).
  rewrite set_slice_length by (rewrite rev_length; lia). rewrite set_slice_nth by (rewrite rev_length; lia). rewrite rev_length. cbn [Nat.add]. replace (length out - S i) with (length out - 1 - i) by lia.
  replace (length out - 1 - i <? 0) with false by lia. destruct (Nat.ltb_spec (length out - 1 - i) (length vals)).
  - rewrite Nat.sub_0_r. reflexivity.
  - rewrite rev_nth by lia. f_equal. lia.
Qed.

(** Where the results are stored *)
Lemma stored empty (v v' : list C) (x0 : C) L : length empty = L -> 0 < L -> length v = (L + 1) / 2 - 1 -> length v' = (L + 1) / 2 - 1 ->
  let out := upd (set_back (set_slice empty 1 v) v') 0 x0 in
  length out = L /\ nth 0 out (c0 RF) = x0 /\
  (forall i, 0 < i < (L + 1) / 2 -> nth i out (c0 RF) = nth (i - 1) v (c0 RF) /\ nth (L - i) out (c0 RF) = nth (i - 1) v' (c0 RF)) /\
  (L mod 2 = 0 -> nth (L / 2) out (c0 RF) = nth (L / 2) empty (c0 RF)).
Proof.
  intros HE HL Hv Hv' out. assert (L1 : length (set_slice empty 1 v) = L) by (rewrite set_slice_length; lia). assert (L2 : length (set_back (set_slice empty 1 v) v') = L) by (rewrite set_back_length; lia).
  assert (N : forall i, 0 < i < L -> nth i out (c0 RF) = if (L - 1 - i <? length v') then nth (L - 1 - i) v' (c0 RF) else if (i <? 1 + length v) then nth (i - 1) v (c0 RF) else nth i empty (c0 RF)).
  { intros i Hi. unfold out. rewrite nth_upd by lia. replace (0 =? i) with false by lia. replace (i =? 0) with false by lia. cbn [andb]. rewrite set_back_nth by lia. rewrite L1. destruct (L - 1 - i <? length v'); [reflexivity|]. rewrite set_slice_nth by lia.
    replace (i <? 1) with false by lia. reflexivity. }
  split; [unfold out; rewrite upd_length; exact L2|]. split; [unfold out; apply nth_upd_same; rewrite L2; exact HL|]. split.
  - intros i Hi. split.
    + rewrite N by lia. replace (L - 1 - i <? length v') with false by lia. replace (i <? 1 + length v) with true by lia. reflexivity.
    + rewrite N by lia. replace (L - 1 - (L - i) <? length v') with true by lia. f_equal. lia.
  - intros HM. rewrite N by lia. replace (L - 1 - L / 2 <? length v') with false by lia. replace (L / 2 <? 1 + length v) with false by lia. reflexivity.
Qed.

Lemma pos_length (data : list C) n : n <= length data -> length (pos_of data n) = n - 1.
Proof. intros H. unfold pos_of. rewrite firstn_length, skipn_length. lia. Qed.
Lemma pos_nth (data : list C) n i d : i < n - 1 -> nth i (pos_of data n) d = nth (i + 1) data d.
Proof. intros H. unfold pos_of. rewrite nth_firstn by exact H. rewrite nth_skipn. reflexivity. Qed.
Lemma neg_length (data : list C) n : n - 1 <= length data -> length (neg_of data n) = n - 1.
Proof. intros H. unfold neg_of. rewrite map_length. apply length_rev_slice. exact H. Qed.
Lemma neg_nth (data : list C) n i : i < n - 1 -> n - 1 <= length data -> nth i (neg_of data n) (c0 RF) = conj (nth (length data - (i + 1)) data (c0 RF)).
Proof. intros H1 H2. unfold neg_of. rewrite nth_map_in with (d' := c0 RF) by (rewrite length_rev_slice; lia). rewrite nth_rev_slice by lia. do 2 f_equal. lia. Qed.
Lemma angles_length arctan2 k z : length (angles arctan2 k z) = length z.
Proof. unfold angles. rewrite map_length, combine_length, seq_length. lia. Qed.
Lemma angles_nth arctan2 k z i d : i < length z -> nth i (angles arctan2 k z) d = arctan2 (k + i) (@cim RF (nth i z (c0 RF))) (@cre RF (nth i z (c0 RF))).
Proof.
  intros H. unfold angles. rewrite nth_map_in with (d' := (0, c0 RF)) by (rewrite combine_length, seq_length; lia). rewrite combine_nth by (rewrite seq_length; reflexivity). cbn [fst snd]. rewrite seq_nth by exact H. reflexivity.
Qed.
Lemma nth_zip A B (f : A * B -> C) (x : list A) (y : list B) i a b : length x = length y -> i < length x -> nth i (map f (combine x y)) (c0 RF) = f (nth i x a, nth i y b).
Proof. intros H1 H2. rewrite nth_map_in with (d' := (a, b)) by (rewrite combine_length; lia). rewrite combine_nth by exact H1. reflexivity. Qed.

Local Open Scope R_scope.
(** The angle that shift_data gives to the positive delay i *)
Definition shifted_angle arctan2 (data : list C) (i : nat) : R :=
  let d := nth i data (c0 RF) in let e := conj (nth (length data - i) data (c0 RF)) in
  (arctan2 i (@cim RF d) (@cre RF d) - arctan2 (length data + i)%nat (@cim RF e) (@cre RF e)) / 2.

Theorem shift_data_spec arctan2 empty data : length empty = length data -> data <> [] ->
  exists out, shift_data arctan2 true empty data = Ok out /\ length out = length data /\ nth 0 out (c0 RF) = (cabs (nth 0 data (c0 RF)), 0) /\
    (forall i, (0 < i < (length data + 1) / 2)%nat ->
       nth i out (c0 RF) = @cscal RF (cabs (nth i data (c0 RF))) (cexp (shifted_angle arctan2 data i)) /\
       nth (length data - i) out (c0 RF) = @cscal RF (cabs (nth (length data - i) data (c0 RF))) (conj (cexp (shifted_angle arctan2 data i)))) /\
    ((length data) mod 2 = 0 -> nth (length data / 2) out (c0 RF) = nth (length data / 2) empty (c0 RF))%nat.
Proof.
  intros HE HD. assert (HL : (0 < length data)%nat) by (destruct data; [congruence|cbn; lia]). unfold shift_data. cbn [negb].
  set (n := ((length data + 1) / 2)%nat) in *. assert (Hn : (n <= length data)%nat) by (unfold n; lia).
  set (phase := map _ (combine (angles arctan2 1 _) _)).
  assert (LP : length phase = (n - 1)%nat) by (unfold phase; rewrite map_length, combine_length, !angles_length, pos_length, neg_length; lia).
  assert (NP : forall i, (0 < i < n)%nat -> nth (i - 1) phase 0 = shifted_angle arctan2 data i).
  { intros i Hi. unfold phase. rewrite nth_map_in with (d' := (0, 0)) by (rewrite combine_length, !angles_length, pos_length, neg_length; lia).
    rewrite combine_nth by (rewrite !angles_length, pos_length, neg_length; lia). cbn [fst snd]. rewrite !angles_nth by (rewrite ?pos_length, ?neg_length; lia). rewrite pos_nth, neg_nth by lia.
    unfold shifted_angle. replace (1 + (i - 1))%nat with i by lia. replace (1 + length data + (i - 1))%nat with (length data + i)%nat by lia. replace (i - 1 + 1)%nat with i by lia. reflexivity. }
  destruct data as [|x data']; [congruence|]. set (data := x :: data') in *. clearbody phase.
  destruct (stored empty (map (fun p => @cscal RF (cabs (fst p)) (cexp (snd p))) (combine (pos_of data n) phase)) (map (fun p => @cscal RF (cabs (fst p)) (conj (cexp (snd p)))) (combine (neg_of data n) phase)) (cabs x, 0) HE HL) as (S1 & S2 & S3 & S4);
    [rewrite map_length, combine_length, pos_length; fold n; lia|rewrite map_length, combine_length, neg_length; fold n; lia|].
  eexists. split; [reflexivity|]. split; [exact S1|]. split; [exact S2|]. split; [|exact S4]. intros i Hi. destruct (S3 i Hi) as [T1 T2]. split.
  - rewrite T1. erewrite nth_zip with (b := 0) (a := c0 RF); [|rewrite pos_length; lia|rewrite pos_length; lia]. cbn [fst snd]. rewrite NP, pos_nth by lia. replace (i - 1 + 1)%nat with i by lia. reflexivity.
  - rewrite T2. erewrite nth_zip with (b := 0) (a := c0 RF); [|rewrite neg_length; lia|rewrite neg_length; lia]. cbn [fst snd]. rewrite NP, neg_nth by lia. replace (i - 1 + 1)%nat with i by lia. f_equal.
    unfold cabs, conj, cre, cim. cbn [fst snd fopp RF]. f_equal. ring.
Qed.

Theorem equalize_data_spec csqrt empty data : length empty = length data -> data <> [] ->
  exists out, equalize_data csqrt true empty data = Ok out /\ length out = length data /\ nth 0 out (c0 RF) = (cabs (nth 0 data (c0 RF)), 0) /\
    (forall i, (0 < i < (length data + 1) / 2)%nat ->
       nth i out (c0 RF) = csqrt i (cmul (nth i data (c0 RF)) (conj (nth (length data - i) data (c0 RF)))) /\ nth (length data - i) out (c0 RF) = conj (nth i out (c0 RF))) /\
    ((length data) mod 2 = 0 -> nth (length data / 2) out (c0 RF) = nth (length data / 2) empty (c0 RF))%nat.
Proof.
  intros HE HD. assert (HL : (0 < length data)%nat) by (destruct data; [congruence|cbn; lia]). unfold equalize_data. cbn [negb].
  set (n := ((length data + 1) / 2)%nat) in *. assert (Hn : (n <= length data)%nat) by (unfold n; lia). rewrite pos_length by exact Hn.
  set (tmp := map _ (combine (seq 1 _) _)).
  assert (LP : length tmp = (n - 1)%nat) by (unfold tmp; rewrite map_length, !combine_length, seq_length, pos_length, neg_length; lia).
  assert (NP : forall i, (0 < i < n)%nat -> nth (i - 1) tmp (c0 RF) = csqrt i (cmul (nth i data (c0 RF)) (conj (nth (length data - i) data (c0 RF))))).
  { intros i Hi. unfold tmp. erewrite nth_zip with (a := 0%nat) (b := (c0 RF, c0 RF)); [|rewrite combine_length, seq_length, pos_length, neg_length; lia|rewrite seq_length; lia].
    cbn [fst snd]. rewrite seq_nth by lia. rewrite combine_nth by (rewrite pos_length, neg_length; lia). cbn [fst snd]. rewrite pos_nth, neg_nth by lia. replace (i - 1 + 1)%nat with i by lia. replace (1 + (i - 1))%nat with i by lia. reflexivity. }
  destruct data as [|x data']; [congruence|]. set (data := x :: data') in *. clearbody tmp.
  destruct (stored empty tmp (map (@conj RF) tmp) (cabs x, 0) HE HL) as (S1 & S2 & S3 & S4); [fold n; lia|rewrite map_length; fold n; lia|].
  eexists. split; [reflexivity|]. split; [exact S1|]. split; [exact S2|]. split; [|exact S4]. intros i Hi. destruct (S3 i Hi) as [T1 T2]. split.
  - rewrite T1. apply NP. exact Hi.
  - rewrite T2, T1. rewrite nth_map_in with (d' := c0 RF) by lia. reflexivity.
Qed.
