(** The loops that fill the tables of pair times. *)
From Coq Require Import ZifyBool ZifyNat.
From Verif Require Import Base Kernels PairSpec KernelProofs TauModel.
Set Implicit Arguments.

(** The first [w] of the values [l] written over the beginning of [row]. *)
Definition overwritten (w : nat) (l row : list Z) : list Z := firstn w l ++ skipn (length (firstn w l)) row.

(** The table [tab] after the values [s m] were put in row [m]. *)
Definition filled (w : nat) (tab : list (list Z)) (s : nat -> list Z) : filling :=
  (map (fun m => overwritten w (s m) (nth m tab [])) (seq 0 (length tab)),
   map (fun m => Nat.min w (length (s m))) (seq 0 (length tab))).

Definition rows_of_width (w : nat) (tab : list (list Z)) : Prop := forall row, In row tab -> length row = w.

Lemma filled_ext w tab s s' : (forall m, (m < length tab)%nat -> s m = s' m) -> filled w tab s = filled w tab s'.
Proof. intros H. unfold filled. f_equal; apply map_ext_in; intros m Hm; rewrite H; try reflexivity; apply in_seq in Hm; lia. Qed.

Lemma filled_nil w tab : filled w tab (fun _ => []) = (tab, repeat 0%nat (length tab)).
Proof.
  unfold filled, overwritten. f_equal.
  - transitivity (map (fun m => nth m tab []) (seq 0 (length tab))); [apply map_ext; intros; rewrite firstn_nil; reflexivity|].
    apply list_nth_ext with (d := []); [rewrite map_length, seq_length; reflexivity|]. intros i Hi. rewrite map_length, seq_length in Hi. apply nth_map_seq. exact Hi.
  - transitivity (map (fun _ : nat => 0%nat) (seq 0 (length tab))); [apply map_ext; intros; cbn [length]; lia|].
    generalize 0%nat at 2. induction (length tab) as [|n IH]; intros k; [reflexivity|]. cbn [seq map repeat]. rewrite IH. reflexivity.
Qed.

Lemma upd_app_here A (l l' : list A) v : upd (l ++ l') (length l) v = l ++ upd l' 0 v.
Proof. induction l as [|x l IH]; [reflexivity|]. cbn [app length upd]. rewrite IH. reflexivity. Qed.

Lemma upd_map_seq A (f : nat -> A) n m v : (m < n)%nat ->
  upd (map f (seq 0 n)) m v = map (fun k => if (k =? m)%nat then v else f k) (seq 0 n).
Proof.
  intros H. apply list_nth_ext with (d := v); [rewrite upd_length, !map_length; reflexivity|].
  intros k Hk. rewrite upd_length, map_length, seq_length in Hk. rewrite nth_upd, map_length, seq_length, !nth_map_seq by assumption.
  replace (m <? n)%nat with true by lia. rewrite andb_true_r. reflexivity.
Qed.

Lemma overwritten_more w l row v : (length l < w)%nat -> length row = w ->
  upd (overwritten w l row) (length l) v = overwritten w (l ++ [v]) row.
Proof.
  intros H1 H2. unfold overwritten. rewrite !firstn_all2 by (rewrite ?app_length; cbn [length]; lia).
  rewrite upd_app_here, <- app_assoc. f_equal. rewrite app_length. cbn [length].
  assert (E : exists y, skipn (length l) row = y :: skipn (length l + 1) row).
  { assert (G : (length l < length row)%nat) by lia. revert G. generalize (length l). clear. induction row as [|x row IH]; intros [|k] H; cbn in *; try lia.
    - exists x. reflexivity.
    - apply IH. lia. }
  destruct E as [y E]. rewrite E. reflexivity.
Qed.

Lemma overwritten_full w l row v : (w <= length l)%nat -> overwritten w (l ++ [v]) row = overwritten w l row.
Proof. intros H. unfold overwritten. rewrite firstn_app. replace (w - length l)%nat with 0%nat by lia. cbn [firstn]. rewrite app_nil_r. reflexivity. Qed.

Lemma put_filled w tab s m v : rows_of_width w tab -> (m < length tab)%nat ->
  put w (filled w tab s) m v = Ok (filled w tab (fun k => if (k =? m)%nat then s k ++ [v] else s k)).
Proof.
  intros HW Hm. unfold put.
  assert (E1 : nth_error (fst (filled w tab s)) m = Some (overwritten w (s m) (nth m tab []))).
  { unfold filled. cbn [fst]. rewrite nth_error_map. rewrite (nth_error_nth' _ 0%nat) by (rewrite seq_length; exact Hm). rewrite seq_nth by exact Hm. reflexivity. }
  assert (E2 : nth_error (snd (filled w tab s)) m = Some (Nat.min w (length (s m)))).
  { unfold filled. cbn [snd]. rewrite nth_error_map. rewrite (nth_error_nth' _ 0%nat) by (rewrite seq_length; exact Hm). rewrite seq_nth by exact Hm. reflexivity. }
  rewrite E1, E2. assert (HR : length (nth m tab []) = w) by (apply HW, nth_In; exact Hm).
  destruct (Nat.ltb_spec (Nat.min w (length (s m))) w) as [L|L]; unfold filled; cbn [fst snd].
  - rewrite !upd_map_seq by exact Hm. apply f_equal, f_equal2; apply map_ext; intros k; destruct (Nat.eqb_spec k m) as [->|]; try reflexivity.
    + replace (Nat.min w (length (s m))) with (length (s m)) by lia. apply overwritten_more; [lia|exact HR].
    + rewrite app_length. cbn [length]. lia.
  - apply f_equal, f_equal2; apply map_ext; intros k; destruct (Nat.eqb_spec k m) as [->|]; try reflexivity.
    + symmetry. apply overwritten_full. lia.
    + rewrite app_length. cbn [length]. lia.
Qed.

(** The first times of the pairs of [L] with difference [d]. *)
Definition firsts (d : Z) (L : list (Z * Z)) : list Z := map fst (filter (fun p => fst p - snd p =? d)%Z L).
(** The same, without the pairs of difference zero. *)
Definition firsts_neg (m : nat) (L : list (Z * Z)) : list Z := if (m =? 0)%nat then [] else firsts (- Z.of_nat m) L.

Lemma firsts_app d L p : firsts d (L ++ [p]) = firsts d L ++ (if fst p - snd p =? d then [fst p] else [])%Z.
Proof. unfold firsts. rewrite filter_app, map_app. cbn [filter]. destruct (fst p - snd p =? d)%Z; reflexivity. Qed.

Definition cross_step (w w' rows : nat) (p : Z * Z) (r : res (filling * filling)) : res (filling * filling) :=
  let* (x, y) := r in
  let m := (fst p - snd p)%Z in
  if (Z.abs m <? Z.of_nat rows)%Z then
    (if (0 <=? m)%Z then let* x := put w x (Z.to_nat m) (fst p) in Ok (x, y)
     else let* y := put w' y (Z.to_nat (- m)) (fst p) in Ok (x, y))
  else Ok (x, y).

Lemma cross_fold w w' tpos tneg L : rows_of_width w tpos -> rows_of_width w' tneg -> (length tpos <= length tneg)%nat ->
  fold_left (fun r p => cross_step w w' (length tpos) p r) L (Ok ((tpos, repeat 0%nat (length tpos)), (tneg, repeat 0%nat (length tneg)))) =
  Ok (filled w tpos (fun m => firsts (Z.of_nat m) L), filled w' tneg (fun m => if (m <? length tpos)%nat then firsts_neg m L else [])).
Proof.
  intros H1 H2 H3. induction L as [|p L IH] using rev_ind.
  - cbn [fold_left]. rewrite <- (filled_nil w tpos), <- (filled_nil w' tneg). apply f_equal, f_equal2; apply filled_ext; intros m _; [reflexivity|].
    unfold firsts_neg. destruct (m <? length tpos)%nat, (m =? 0)%nat; reflexivity.
  - rewrite fold_left_app, IH. cbn [fold_left]. unfold cross_step. cbn [bind].
    destruct (Z.ltb_spec (Z.abs (fst p - snd p)) (Z.of_nat (length tpos))) as [L1|L1].
    + destruct (Z.leb_spec 0 (fst p - snd p)) as [L2|L2].
      * rewrite put_filled by (assumption || lia). cbn [bind]. apply f_equal, f_equal2; apply filled_ext; intros m Hm.
        -- rewrite firsts_app. destruct (Nat.eqb_spec m (Z.to_nat (fst p - snd p))) as [E|E].
           ++ replace (fst p - snd p =? Z.of_nat m)%Z with true by lia. reflexivity.
           ++ replace (fst p - snd p =? Z.of_nat m)%Z with false by lia. rewrite app_nil_r. reflexivity.
        -- unfold firsts_neg. destruct (Nat.ltb_spec m (length tpos)); [|reflexivity]. destruct (Nat.eqb_spec m 0) as [E|E]; [reflexivity|].
           rewrite firsts_app. replace (fst p - snd p =? - Z.of_nat m)%Z with false by lia. rewrite app_nil_r. reflexivity.
      * rewrite put_filled by (assumption || lia). cbn [bind]. apply f_equal, f_equal2; apply filled_ext; intros m Hm.
        -- rewrite firsts_app. replace (fst p - snd p =? Z.of_nat m)%Z with false by lia. rewrite app_nil_r. reflexivity.
        -- unfold firsts_neg. destruct (Nat.eqb_spec m (Z.to_nat (- (fst p - snd p)))) as [E|E].
           ++ replace (m <? length tpos)%nat with true by lia. replace (m =? 0)%nat with false by lia. rewrite firsts_app.
              replace (fst p - snd p =? - Z.of_nat m)%Z with true by lia. reflexivity.
           ++ destruct (Nat.ltb_spec m (length tpos)); [|reflexivity]. destruct (Nat.eqb_spec m 0) as [E0|E0]; [reflexivity|].
              rewrite firsts_app. replace (fst p - snd p =? - Z.of_nat m)%Z with false by lia. rewrite app_nil_r. reflexivity.
    + apply f_equal, f_equal2; apply filled_ext; intros m Hm.
      * rewrite firsts_app. replace (fst p - snd p =? Z.of_nat m)%Z with false by lia. rewrite app_nil_r. reflexivity.
      * unfold firsts_neg. destruct (Nat.ltb_spec m (length tpos)); [|reflexivity]. destruct (Nat.eqb_spec m 0) as [E|E]; [reflexivity|].
        rewrite firsts_app. replace (fst p - snd p =? - Z.of_nat m)%Z with false by lia. rewrite app_nil_r. reflexivity.
Qed.

Lemma cross_tau_times_spec t1 t2 w tpos w' tneg :
  length t1 = length t2 -> rows_of_width w tpos -> rows_of_width w' tneg -> (length tpos <= length tneg)%nat ->
  cross_tau_times t1 t2 w tpos w' tneg =
  Ok (fst (filled w tpos (fun m => firsts (Z.of_nat m) (list_prod t1 t2))),
      fst (filled w' tneg (fun m => if (m <? length tpos)%nat then firsts_neg m (list_prod t1 t2) else []))).
Proof.
  intros HL H1 H2 H3. unfold cross_tau_times. rewrite HL, Nat.eqb_refl. cbn [negb]. rewrite <- HL at 1.
  pose proof (nested_cross t1 t2 0%Z 0%Z (fun a b => cross_step w w' (length tpos) (a, b)) (Ok ((tpos, repeat 0%nat (length tpos)), (tneg, repeat 0%nat (length tneg))))) as N.
  unfold cross_step at 1 in N. cbn [fst snd] in N. rewrite N. clear N.
  rewrite (fold_left_ext _ (fun r p => cross_step w w' (length tpos) p r)) by (intros ? [? ?]; reflexivity).
  rewrite cross_fold by assumption. reflexivity.
Qed.

(** The first times of the pairs of [L] whose second time is [d] later. *)
Definition earlier (d : Z) (L : list (Z * Z)) : list Z := map fst (filter (fun p => snd p - fst p =? d)%Z L).
Lemma earlier_app d L p : earlier d (L ++ [p]) = earlier d L ++ (if snd p - fst p =? d then [fst p] else [])%Z.
Proof. unfold earlier. rewrite filter_app, map_app. cbn [filter]. destruct (snd p - fst p =? d)%Z; reflexivity. Qed.

Definition auto_step (w rows : nat) (p : Z * Z) (r : res filling) : res filling :=
  let* x := r in
  let m := (snd p - fst p)%Z in
  if negb (0 <=? m)%Z then Raise AssertionError else
  if (m <? Z.of_nat rows)%Z then put w x (Z.to_nat m) (fst p) else Ok x.

Lemma auto_fold w tpos L : rows_of_width w tpos -> (forall p, In p L -> (fst p <= snd p)%Z) ->
  fold_left (fun r p => auto_step w (length tpos) p r) L (Ok (tpos, repeat 0%nat (length tpos))) =
  Ok (filled w tpos (fun m => earlier (Z.of_nat m) L)).
Proof.
  intros H1. induction L as [|p L IH] using rev_ind; intros HL.
  - cbn [fold_left]. rewrite <- (filled_nil w). reflexivity.
  - rewrite fold_left_app, IH by (intros q Hq; apply HL, in_or_app; left; exact Hq). cbn [fold_left]. unfold auto_step. cbn [bind].
    assert (HP : (fst p <= snd p)%Z) by (apply HL, in_or_app; right; left; reflexivity).
    replace (0 <=? snd p - fst p)%Z with true by lia. cbn [negb].
    destruct (Z.ltb_spec (snd p - fst p) (Z.of_nat (length tpos))) as [L1|L1].
    + rewrite put_filled by (assumption || lia). apply f_equal, filled_ext. intros m Hm. rewrite earlier_app.
      destruct (Nat.eqb_spec m (Z.to_nat (snd p - fst p))) as [E|E].
      * replace (snd p - fst p =? Z.of_nat m)%Z with true by lia. reflexivity.
      * replace (snd p - fst p =? Z.of_nat m)%Z with false by lia. rewrite app_nil_r. reflexivity.
    + apply f_equal, filled_ext. intros m Hm. rewrite earlier_app. replace (snd p - fst p =? Z.of_nat m)%Z with false by lia. rewrite app_nil_r. reflexivity.
Qed.

Lemma auto_fold_raise w rows L e : fold_left (fun r p => auto_step w rows p r) L (Raise e) = Raise e.
Proof. induction L as [|p L IH]; [reflexivity|exact IH]. Qed.

Lemma auto_fold_unsorted w tpos L : rows_of_width w tpos -> (exists p, In p L /\ (snd p < fst p)%Z) ->
  fold_left (fun r p => auto_step w (length tpos) p r) L (Ok (tpos, repeat 0%nat (length tpos))) = Raise AssertionError.
Proof.
  intros H1. induction L as [|p L IH] using rev_ind; intros (q & Hq & Hlt); [destruct Hq|].
  rewrite fold_left_app. cbn [fold_left].
  destruct (existsb (fun p => snd p <? fst p)%Z L) eqn:E.
  - rewrite IH; [reflexivity|]. apply existsb_exists in E. destruct E as (x & Hx & Lx). exists x. split; [exact Hx|lia].
  - assert (HL : forall p, In p L -> (fst p <= snd p)%Z).
    { intros x Hx. destruct (Z.ltb_spec (snd x) (fst x)) as [X|X]; [|exact X]. assert (T : existsb (fun p => snd p <? fst p)%Z L = true) by (apply existsb_exists; exists x; split; [exact Hx|lia]). congruence. }
    rewrite auto_fold by assumption. unfold auto_step. cbn [bind].
    apply in_app_or in Hq. destruct Hq as [Hq|[->|[]]]; [apply HL in Hq; lia|]. replace (0 <=? snd q - fst q)%Z with false by lia. reflexivity.
Qed.

Lemma auto_tau_times_fold t w tpos :
  auto_tau_times t w tpos = (let* p := fold_left (fun r p => auto_step w (length tpos) p r) (upairs t) (Ok (tpos, repeat 0%nat (length tpos))) in Ok (fst p)).
Proof.
  unfold auto_tau_times.
  pose proof (nested_auto t 0%Z (fun a b => auto_step w (length tpos) (a, b)) (Ok (tpos, repeat 0%nat (length tpos)))) as N.
  unfold auto_step at 1 in N. cbn [fst snd] in N. rewrite N. clear N.
  rewrite (fold_left_ext _ (fun r p => auto_step w (length tpos) p r)) by (intros ? [? ?]; reflexivity). reflexivity.
Qed.

Lemma rows_minus_ones n w : rows_of_width w (minus_ones n w).
Proof. intros row H. apply repeat_spec in H. subst. apply repeat_length. Qed.
Lemma length_minus_ones n w : length (minus_ones n w) = n.
Proof. apply repeat_length. Qed.
Lemma nth_minus_ones n w i : (i < n)%nat -> nth i (minus_ones n w) [] = repeat (-1)%Z w.
Proof.
  intros H. unfold minus_ones. rewrite (nth_indep _ [] (repeat (-1)%Z w)) by (rewrite repeat_length; exact H). apply nth_repeat.
Qed.

Lemma positive_app l l' : positive (l ++ l') = positive l ++ positive l'.
Proof. apply filter_app. Qed.
Lemma positive_rest k w : positive (skipn k (repeat (-1)%Z w)) = [].
Proof. revert k. induction w as [|w IH]; intros [|k]; cbn [repeat skipn]; try reflexivity; [|apply IH]. cbn [positive filter]. exact (IH 0%nat). Qed.

(** The entries of a filled row of -1 that are kept. *)
Lemma positive_filled n w s i : (i < n)%nat -> positive (nth i (fst (filled w (minus_ones n w) s)) []) = positive (firstn w (s i)).
Proof.
  intros H. unfold filled. cbn [fst]. rewrite length_minus_ones.
  rewrite nth_map_seq by exact H. rewrite nth_minus_ones by exact H.
  unfold overwritten. rewrite positive_app, positive_rest. apply app_nil_r.
Qed.
