(** C74: tables of pair times and counts of pairs of pairs. *)
From Coq Require Import ZifyBool ZifyNat.
From Verif Require Import Base Kernels PairSpec KernelProofs TauModel TauProofs.
Set Implicit Arguments.

(* ------------------------------------------------------------------ *)
(** * cross_tau_times, auto_tau_times *)

(** Row [m] of tpos starts with the times t1[i] of the pairs with t1[i] - t2[j] = m,
    in the order of the loops and as far as there is room; row [m] of tneg, m > 0,
    with those of the pairs with t1[i] - t2[j] = -m.  Nothing else is changed. *)
Theorem C74_cross_tau t1 t2 w tpos w' tneg :
  length t1 = length t2 -> rows_of_width w tpos -> rows_of_width w' tneg -> (length tpos <= length tneg)%nat ->
  exists pos neg, cross_tau_times t1 t2 w tpos w' tneg = Ok (pos, neg) /\
    length pos = length tpos /\ length neg = length tneg /\
    (forall m, (m < length tpos)%nat ->
       let l := firstn w (map fst (filter (fun p => fst p - snd p =? Z.of_nat m)%Z (list_prod t1 t2))) in
       nth m pos [] = l ++ skipn (length l) (nth m tpos [])) /\
    (forall m, (0 < m < length tpos)%nat ->
       let l := firstn w' (map fst (filter (fun p => fst p - snd p =? - Z.of_nat m)%Z (list_prod t1 t2))) in
       nth m neg [] = l ++ skipn (length l) (nth m tneg [])) /\
    (forall m, (m = 0 \/ length tpos <= m)%nat -> nth m neg [] = nth m tneg []).
Proof.
  intros HL H1 H2 H3. rewrite cross_tau_times_spec by assumption. eexists. eexists. split; [reflexivity|]. unfold filled. cbn [fst].
  rewrite !map_length, !seq_length. split; [reflexivity|]. split; [reflexivity|]. split; [|split].
  - intros m Hm. cbv zeta. rewrite nth_map_seq by exact Hm. reflexivity.
  - intros m Hm. cbv zeta. rewrite nth_map_seq by lia. replace (m <? length tpos)%nat with true by lia. unfold firsts_neg. replace (m =? 0)%nat with false by lia. reflexivity.
  - intros m Hm. destruct (Nat.ltb_spec m (length tneg)) as [L|L].
    + rewrite nth_map_seq by lia. unfold firsts_neg. destruct (Nat.ltb_spec m (length tpos)); [replace (m =? 0)%nat with true by lia|]; unfold overwritten; rewrite firstn_nil; reflexivity.
    + rewrite !nth_overflow by (rewrite ?map_length, ?seq_length; exact L). reflexivity.
Qed.
Print Assumptions C74_cross_tau.
Theorem C74_lengths t1 t2 w tpos w' tneg : length t1 <> length t2 -> cross_tau_times t1 t2 w tpos w' tneg = Raise AssertionError.
Proof. intros H. unfold cross_tau_times. replace (length t1 =? length t2)%nat with false by lia. reflexivity. Qed.
Print Assumptions C74_lengths.
(** The shapes of the two tables are not compared (the assertion of line 743 is
    about tpos twice): with fewer rows for the negative delays the compiled
    loop writes outside the table. *)
Theorem C74_shapes_refuted : exists t1 t2 w tpos w' tneg, length t1 = length t2 /\ rows_of_width w tpos /\ rows_of_width w' tneg /\
  cross_tau_times t1 t2 w tpos w' tneg = Raise OutOfBounds.
Proof.
  exists [1%Z], [3%Z], 1%nat, [[0%Z]; [0%Z]; [0%Z]], 1%nat, [[0%Z]]. repeat split; intros row H; cbn in H; intuition (subst; reflexivity).
Qed.
Print Assumptions C74_shapes_refuted.

Lemma in_upairs_at A (l : list A) d x y : In (x, y) (upairs l) <-> exists i j, (i <= j < length l)%nat /\ x = nth i l d /\ y = nth j l d.
Proof.
  induction l as [|a l IH].
  - split; [intros []|intros (i & j & H & _); cbn in H; lia].
  - cbn [upairs]. rewrite in_app_iff, IH. split.
    + intros [H|(i & j & H & Hx & Hy)].
      * apply in_map_iff in H. destruct H as (z & E & Hz). injection E as <- <-.
        destruct (In_nth _ _ d Hz) as (j & Hj & <-). exists 0%nat, j. repeat split; lia.
      * exists (S i), (S j). cbn [length nth]. repeat split; try lia; assumption.
    + intros (i & j & H & -> & ->). destruct i as [|i].
      * left. apply (in_map (pair a)). apply nth_In. lia.
      * right. destruct j as [|j]; [lia|]. exists i, j. cbn [length] in H. repeat split; lia.
Qed.

(** Row [m] starts with the times t[i] of the pairs i <= j with t[j] - t[i] = m. *)
Theorem C74_auto_tau t w tpos :
  rows_of_width w tpos -> (forall i j, (i <= j < length t)%nat -> (nth i t 0 <= nth j t 0)%Z) ->
  exists pos, auto_tau_times t w tpos = Ok pos /\ length pos = length tpos /\
    forall m, (m < length tpos)%nat ->
      let l := firstn w (map fst (filter (fun p => snd p - fst p =? Z.of_nat m)%Z (upairs t))) in
      nth m pos [] = l ++ skipn (length l) (nth m tpos []).
Proof.
  intros HW HS. rewrite auto_tau_times_fold, auto_fold; [|exact HW|].
  - cbn [bind]. eexists. split; [reflexivity|]. unfold filled. cbn [fst]. rewrite map_length, seq_length. split; [reflexivity|].
    intros m Hm. cbv zeta. rewrite nth_map_seq by exact Hm. reflexivity.
  - intros [x y] H. apply (in_upairs_at _ 0%Z) in H. destruct H as (i & j & H & -> & ->). apply HS, H.
Qed.
Print Assumptions C74_auto_tau.
(** Times that are not in order are refused. *)
Theorem C74_unsorted t w tpos i j :
  rows_of_width w tpos -> (i <= j < length t)%nat -> (nth j t 0 < nth i t 0)%Z -> auto_tau_times t w tpos = Raise AssertionError.
Proof.
  intros HW H HL. rewrite auto_tau_times_fold, auto_fold_unsorted; [reflexivity|exact HW|].
  exists (nth i t 0%Z, nth j t 0%Z). split; [|exact HL]. apply (in_upairs_at _ 0%Z). exists i, j. repeat split; lia.
Qed.
Print Assumptions C74_unsorted.

Example C74_tau_example :
  cross_tau_times [1; 2; 4]%Z [1; 3; 4]%Z 2 (minus_ones 3 2) 2 (minus_ones 3 2) =
  Ok ([[1; 4]; [2; 4]; [-1; -1]], [[-1; -1]; [2; -1]; [1; 2]])%Z /\
  cross_tau_times [1; 2; 4]%Z [1; 3; 4]%Z 1 (minus_ones 3 1) 1 (minus_ones 3 1) = Ok ([[1]; [2]; [-1]], [[-1]; [2]; [1]])%Z /\
  auto_tau_times [1; 2; 4]%Z 3 (minus_ones 4 3) = Ok [[1; 2; 4]; [1; -1; -1]; [2; -1; -1]; [1; -1; -1]]%Z /\
  auto_tau_times [2; 1]%Z 3 (minus_ones 4 3) = Raise AssertionError.
Proof. repeat split; reflexivity. Qed.

(* ------------------------------------------------------------------ *)
(** * cross_count_mixed, auto_count_mixed *)

Lemma list_prod_filter A B (f : A -> bool) (g : B -> bool) la lb :
  list_prod (filter f la) (filter g lb) = filter (fun p => f (fst p) && g (snd p))%bool (list_prod la lb).
Proof.
  induction la as [|a la IH]; [reflexivity|]. cbn [filter list_prod]. rewrite filter_app, <- IH.
  assert (E : filter (fun p => f (fst p) && g (snd p))%bool (map (fun y => (a, y)) lb) = if f a then map (fun y => (a, y)) (filter g lb) else []).
  { clear. induction lb as [|b lb IH]; cbn [map filter]; [destruct (f a); reflexivity|]. cbn [fst snd]. rewrite IH. destruct (f a); cbn [andb]; [destruct (g b); reflexivity|reflexivity]. }
  rewrite E. destruct (f a); reflexivity.
Qed.
Lemma list_prod_map A B A' B' (f : A -> A') (g : B -> B') la lb :
  list_prod (map f la) (map g lb) = map (fun p => (f (fst p), g (snd p))) (list_prod la lb).
Proof. induction la as [|a la IH]; [reflexivity|]. cbn [map list_prod]. rewrite IH, map_app, !map_map. reflexivity. Qed.
Lemma filter_map_comm A B (f : A -> B) (g : B -> bool) l : filter g (map f l) = map f (filter (fun x => g (f x)) l).
Proof. induction l as [|x l IH]; [reflexivity|]. cbn [map filter]. destruct (g (f x)); cbn [map]; rewrite IH; reflexivity. Qed.
Lemma filter_filter A (f g : A -> bool) l : filter f (filter g l) = filter (fun x => g x && f x)%bool l.
Proof. induction l as [|x l IH]; [reflexivity|]. cbn [filter]. destruct (g x); cbn [filter andb]; rewrite IH; reflexivity. Qed.

(** Counting the pairs of two lists of times of pairs is counting pairs of pairs. *)
Lemma count_firsts (P Q : Z * Z -> bool) L L' k :
  length (pairs_at k (times (map fst (filter P L))) (times (map fst (filter Q L')))) =
  length (filter (fun q => P (fst q) && Q (snd q) && (Z.abs (fst (snd q) - fst (fst q)) =? Z.of_nat k)%Z)%bool (list_prod L L')).
Proof.
  unfold pairs_at, times. rewrite !map_map, list_prod_map, filter_map_comm, map_length, list_prod_filter, filter_filter. reflexivity.
Qed.

Lemma all_positive l : (forall x, In x l -> (0 < x)%Z) -> positive l = l.
Proof. induction l as [|x l IH]; intros H; [reflexivity|]. unfold positive. cbn [filter]. replace (0 <? x)%Z with true by (specialize (H x (or_introl eq_refl)); lia). f_equal. apply IH. intros; apply H; right; assumption. Qed.

Lemma firsts_positive d t1 t2 : (forall x, In x t1 -> (0 < x)%Z) -> forall x, In x (firsts d (list_prod t1 t2)) -> (0 < x)%Z.
Proof. intros H x Hx. apply in_map_iff in Hx. destruct Hx as ([a b] & <- & Hp). apply filter_In in Hp. destruct Hp as [Hp _]. apply in_prod_iff in Hp. apply H, Hp. Qed.

Lemma plus_zeros n f : plus_cells natmon (repeat 0%nat n) f = map f (seq 0 n).
Proof.
  unfold plus_cells. rewrite repeat_length. apply map_ext_in. intros k Hk. apply in_seq in Hk.
  rewrite nth_repeat. reflexivity.
Qed.

Lemma list_prod_nothing A B (l : list A) : list_prod l (@nil B) = [].
Proof. induction l as [|x l IH]; [reflexivity|exact IH]. Qed.

(** [quads i j k]: pairs (a, b), (c, d) with a - b = i, c - d = j and |c - a| = k. *)
Definition quads (L : list (Z * Z)) (i j : Z) (k : nat) : nat :=
  length (filter (fun q => (fst (fst q) - snd (fst q) =? i)%Z && (fst (snd q) - snd (snd q) =? j)%Z &&
                           (Z.abs (fst (snd q) - fst (fst q)) =? Z.of_nat k)%Z)%bool (list_prod L L)).

(** With positive times and tables wide enough for the pairs of each delay, entry
    (i, k) of the three results counts the pairs of pairs of delays (i, i),
    (-i, -i) and (i, -i) whose first times differ by k. *)
Theorem C74_cross_count t1 t2 n period :
  length t1 = length t2 -> (0 < period)%Z -> (forall x, In x t1 -> (0 < x)%Z) ->
  (forall d, (Z.abs d < Z.of_nat n)%Z ->
     (Z.of_nat (length (filter (fun p => fst p - snd p =? d)%Z (list_prod t1 t2))) <= Z.of_nat (length t1) / period * 2)%Z) ->
  let L := list_prod t1 t2 in
  let neg i j k := if (i =? 0)%nat then 0%nat else quads L j (- Z.of_nat i) k in
  cross_count_mixed t1 t2 n period =
  Ok (map (fun i => map (fun k => quads L (Z.of_nat i) (Z.of_nat i) k) (seq 0 (2 * n))) (seq 0 n),
      map (fun i => map (fun k => neg i (- Z.of_nat i)%Z k) (seq 0 (2 * n))) (seq 0 n),
      map (fun i => map (fun k => neg i (Z.of_nat i) k) (seq 0 (2 * n))) (seq 0 n)).
Proof.
  intros HL HP Hpos Hcap L neg. unfold cross_count_mixed, table_width.
  replace (period =? 0)%Z with false by lia. set (w := (Z.of_nat (length t1) / period * 2)%Z) in *.
  assert (Hw : (0 <= w)%Z) by (pose proof (Z.div_pos (Z.of_nat (length t1)) period); unfold w; lia).
  replace (w <? 0)%Z with false by lia. cbn [bind].
  rewrite cross_tau_times_spec; [|exact HL|apply rows_minus_ones|apply rows_minus_ones|lia]. cbn [bind].
  assert (Fp : forall i, (i < n)%nat -> positive (nth i (fst (filled (Z.to_nat w) (minus_ones n (Z.to_nat w)) (fun m => firsts (Z.of_nat m) L))) []) = firsts (Z.of_nat i) L).
  { intros i Hi. rewrite positive_filled by exact Hi. rewrite firstn_all2.
    - apply all_positive, firsts_positive. exact Hpos.
    - unfold firsts. rewrite map_length. specialize (Hcap (Z.of_nat i)). unfold L. lia. }
  assert (Fn : forall i, (i < n)%nat -> positive (nth i (fst (filled (Z.to_nat w) (minus_ones n (Z.to_nat w)) (fun m => if (m <? length (minus_ones n (Z.to_nat w)))%nat then firsts_neg m L else []))) []) = firsts_neg i L).
  { intros i Hi. rewrite positive_filled by exact Hi. rewrite length_minus_ones. replace (i <? n)%nat with true by lia. rewrite firstn_all2.
    - unfold firsts_neg. destruct (i =? 0)%nat; [reflexivity|]. apply all_positive, firsts_positive. exact Hpos.
    - unfold firsts_neg. destruct (i =? 0)%nat; [cbn [length]; lia|]. unfold firsts. rewrite map_length. specialize (Hcap (- Z.of_nat i)%Z). unfold L. lia. }
  apply f_equal, f_equal2; [apply f_equal2|]; apply map_ext_in; intros i Hi; apply in_seq in Hi; rewrite ?Fp, ?Fn by lia; rewrite _add_count_cross_spec, plus_zeros; apply map_ext; intros k; unfold firsts_neg, neg, quads;
    destruct (i =? 0)%nat; unfold firsts; try reflexivity; try apply count_firsts.
  unfold pairs_at. cbn [times map]. rewrite list_prod_nothing. reflexivity.
Qed.
Print Assumptions C74_cross_count.

(** Two signals with distinct times have at most one pair of each delay per
    sample, so that period 1 leaves room for all of them. *)
Theorem C74_room t1 t2 d : NoDup t2 -> (length (filter (fun p => fst p - snd p =? d)%Z (list_prod t1 t2)) <= length t1)%nat.
Proof.
  intros HN. induction t1 as [|a t1 IH]; [cbn; lia|]. cbn [list_prod length]. rewrite filter_app, app_length, filter_map_comm, map_length.
  enough (E : (length (filter (fun x => fst (a, x) - snd (a, x) =? d)%Z t2) <= 1)%nat) by lia. clear IH. cbn [fst snd].
  induction HN as [|b t2 Hb HN IH]; [cbn; lia|]. cbn [filter]. destruct (Z.eqb_spec (a - b) d) as [E|E]; [|exact IH]. cbn [length].
  enough (G : filter (fun x => a - x =? d)%Z t2 = []) by (rewrite G; reflexivity).
  assert (N : forall x, In x t2 -> (a - x =? d)%Z = false).
  { intros x Hx. destruct (Z.eqb_spec (a - x) d); [|reflexivity]. exfalso. apply Hb. replace b with x by lia. exact Hx. }
  revert N. clear. induction t2 as [|x t2 IH]; intros N; [reflexivity|]. cbn [filter]. rewrite N by (left; reflexivity). apply IH. intros; apply N; right; assumption.
Qed.
Print Assumptions C74_room.
Theorem C74_cross_count_one t1 t2 n i k :
  length t1 = length t2 -> NoDup t2 -> (forall x, In x t1 -> (0 < x)%Z) -> (i < n)%nat -> (k < 2 * n)%nat ->
  exists pp nn pn, cross_count_mixed t1 t2 n 1 = Ok (pp, nn, pn) /\
    nth k (nth i pp []) 0%nat = quads (list_prod t1 t2) (Z.of_nat i) (Z.of_nat i) k /\
    (0 < i -> nth k (nth i nn []) 0 = quads (list_prod t1 t2) (- Z.of_nat i) (- Z.of_nat i) k)%nat /\
    (0 < i -> nth k (nth i pn []) 0 = quads (list_prod t1 t2) (Z.of_nat i) (- Z.of_nat i) k)%nat.
Proof.
  intros HL HN HP Hi Hk. rewrite C74_cross_count; [|exact HL|lia|exact HP|].
  - do 3 eexists. split; [reflexivity|]. split; [|split; intros H0]; rewrite nth_map_seq by exact Hi; rewrite nth_map_seq by exact Hk; try reflexivity;
    replace (i =? 0)%nat with false by lia; reflexivity.
  - intros d _. pose proof (C74_room t1 d HN). rewrite Z.div_1_r. lia.
Qed.
Print Assumptions C74_cross_count_one.

(** The same for one signal with times in order. *)
Theorem C74_auto_count t n period :
  (0 < period)%Z -> (forall x, In x t -> (0 < x)%Z) -> (forall i j, (i <= j < length t)%nat -> (nth i t 0 <= nth j t 0)%Z) ->
  (forall d, (0 <= d < Z.of_nat n)%Z ->
     (Z.of_nat (length (filter (fun p => snd p - fst p =? d)%Z (upairs t))) <= Z.of_nat (length t) / period * 2)%Z) ->
  auto_count_mixed t n period =
  Ok (map (fun i => map (fun k =>
        length (filter (fun q => (snd (fst q) - fst (fst q) =? Z.of_nat i)%Z && (snd (snd q) - fst (snd q) =? Z.of_nat i)%Z &&
                                 (Z.abs (fst (snd q) - fst (fst q)) =? Z.of_nat k)%Z)%bool (list_prod (upairs t) (upairs t)))) (seq 0 (2 * n))) (seq 0 n)).
Proof.
  intros HP Hpos HS Hcap. unfold auto_count_mixed, table_width.
  replace (period =? 0)%Z with false by lia. set (w := (Z.of_nat (length t) / period * 2)%Z) in *.
  assert (Hw : (0 <= w)%Z) by (pose proof (Z.div_pos (Z.of_nat (length t)) period); unfold w; lia).
  replace (w <? 0)%Z with false by lia. cbn [bind].
  rewrite auto_tau_times_fold, auto_fold; [|apply rows_minus_ones|].
  - cbn [bind]. apply f_equal, map_ext_in. intros i Hi. apply in_seq in Hi. rewrite positive_filled by lia. rewrite firstn_all2.
    + rewrite all_positive.
      * rewrite _add_count_cross_spec, plus_zeros. apply map_ext. intros k. unfold earlier. apply count_firsts.
      * intros x Hx. apply in_map_iff in Hx. destruct Hx as ([a b] & <- & H). apply filter_In in H. destruct H as [H _].
        apply (in_upairs_at _ 0%Z) in H. destruct H as (p & q & H & -> & _). apply Hpos, nth_In. lia.
    + unfold earlier. rewrite map_length. specialize (Hcap (Z.of_nat i)). lia.
  - intros [x y] H. apply (in_upairs_at _ 0%Z) in H. destruct H as (i & j & H & -> & ->). apply HS, H.
Qed.
Print Assumptions C74_auto_count.

(** A sample at time zero is dropped with all its pairs ([pos[i] > 0] is meant to
    drop the unused entries, which are -1): the times 0, 1, 2 of a regular
    record give other counts than the same times one later. *)
Theorem C74_time_zero_refuted : exists t n,
  (forall x, In x t -> (0 <= x)%Z) /\ auto_count_mixed t n 1 <> auto_count_mixed (map (Z.add 1) t) n 1.
Proof.
  exists [0; 1; 2]%Z, 2%nat. split; [intros x H; cbn in H; lia|]. intros H. vm_compute in H. discriminate H.
Qed.
Print Assumptions C74_time_zero_refuted.
(** A period that is too long for the times leaves no room: counts are lost silently. *)
Theorem C74_narrow_refuted : exists t n period,
  (0 < period)%Z /\ (forall x, In x t -> (0 < x)%Z) /\ auto_count_mixed t n period <> auto_count_mixed t n 1.
Proof.
  exists [1; 2; 3]%Z, 2%nat, 3%Z. split; [lia|]. split; [intros x H; cbn in H; lia|]. intros H. vm_compute in H. discriminate H.
Qed.
Print Assumptions C74_narrow_refuted.
Theorem C74_period_zero t1 t2 t n : cross_count_mixed t1 t2 n 0 = Raise ZeroDivisionError /\ auto_count_mixed t n 0 = Raise ZeroDivisionError.
Proof. split; reflexivity. Qed.
Print Assumptions C74_period_zero.

Example C74_count_example :
  auto_count_mixed [1; 2; 3]%Z 2 1 = Ok [[3; 4; 2; 0]; [2; 2; 0; 0]]%nat /\
  auto_count_mixed [0; 1; 2]%Z 2 1 = Ok [[2; 2; 0; 0]; [1; 0; 0; 0]]%nat /\
  cross_count_mixed [1; 2; 4]%Z [1; 3; 4]%Z 2 1 = Ok ([[2; 0; 0; 2]; [2; 0; 2; 0]], [[0; 0; 0; 0]; [1; 0; 0; 0]], [[0; 0; 0; 0]; [1; 0; 1; 0]])%nat.
Proof. repeat split; reflexivity. Qed.
