(** Algebra of the pair lists of PairSpec.v. *)
From Verif Require Import Base PairSpec.
From Coq Require Import ZifyBool ZifyNat.
Set Implicit Arguments.

Definition map_pair {A B A' B'} (f : A -> A') (g : B -> B') (p : A * B) : A' * B' :=
  (f (fst p), g (snd p)).
Definition swap {A B} (p : A * B) : B * A := (snd p, fst p).

Lemma filter_map A B (f : A -> B) (p : B -> bool) l :
  filter p (map f l) = map f (filter (fun x => p (f x)) l).
Proof.
  induction l as [|x l IH]; [reflexivity|]; simpl. destruct (p (f x)); simpl; rewrite IH; reflexivity.
Qed.

Lemma list_prod_map A B A' B' (f : A -> A') (g : B -> B') la lb :
  list_prod (map f la) (map g lb) = map (map_pair f g) (list_prod la lb).
Proof.
  induction la as [|a la IH]; [reflexivity|]; simpl.
  rewrite map_app, IH, !map_map. reflexivity.
Qed.

Lemma upairs_map A B (f : A -> B) l : upairs (map f l) = map (map_pair f f) (upairs l).
Proof.
  induction l as [|x l IH]; [reflexivity|]; cbn [map upairs].
  rewrite !map_app, IH. cbn [map]. rewrite !map_map. reflexivity.
Qed.

Section MapPairs.
  Variables (A B A' B' : Type) (f : sample A -> sample A') (g : sample B -> sample B').
  Hypothesis Hd : forall a b, delay (f a, g b) = delay (a, b).

  Lemma pairs_at_map k d1 d2 :
    pairs_at k (map f d1) (map g d2) = map (map_pair f g) (pairs_at k d1 d2).
  Proof.
    unfold pairs_at. rewrite list_prod_map, filter_map. f_equal. apply filter_ext.
    intros [a b]. unfold map_pair; simpl. rewrite Hd. reflexivity.
  Qed.

  Lemma pairs_signed_map m d1 d2 :
    pairs_signed m (map f d1) (map g d2) = map (map_pair f g) (pairs_signed m d1 d2).
  Proof.
    unfold pairs_signed. rewrite list_prod_map, filter_map. f_equal. apply filter_ext.
    intros [a b]. unfold map_pair; simpl. rewrite Hd. reflexivity.
  Qed.
End MapPairs.

Lemma upairs_at_map A A' (f : sample A -> sample A') :
  (forall a b, delay (f a, f b) = delay (a, b)) ->
  forall k d, upairs_at k (map f d) = map (map_pair f f) (upairs_at k d).
Proof.
  intros Hd k d. unfold upairs_at. rewrite upairs_map, filter_map. f_equal. apply filter_ext.
  intros [a b]. unfold map_pair; simpl. rewrite Hd. reflexivity.
Qed.

(** Changing the values but not the times of a data set. *)
Definition map_val {A B} (h : A -> B) (s : sample A) : sample B := (h (fst s), snd s).

Lemma combine_map_val A B (h : A -> B) f t : combine (map h f) t = map (map_val h) (combine f t).
Proof.
  revert t; induction f as [|x f IH]; intros [|y t]; simpl; try reflexivity. rewrite IH. reflexivity.
Qed.

(** Shifting all times. *)
Definition shift_time {A} (m : Z) (s : sample A) : sample A := (fst s, snd s - m)%Z.

Lemma combine_shift A m (f : list A) t :
  combine f (map (fun t => t - m)%Z t) = map (shift_time m) (combine f t).
Proof.
  revert t; induction f as [|x f IH]; intros [|y t]; simpl; try reflexivity. rewrite IH. reflexivity.
Qed.

Lemma times_shift m t : times (map (fun t => t - m)%Z t) = map (shift_time m) (times t).
Proof. unfold times. rewrite !map_map. reflexivity. Qed.

Lemma delay_shift A B m (a : sample A) (b : sample B) :
  delay (shift_time m a, shift_time m b) = delay (a, b).
Proof. unfold delay, shift_time; simpl. lia. Qed.

(** Reversing time. *)
Definition neg_time {A} (s : sample A) : sample A := (fst s, - snd s)%Z.

Lemma combine_neg A (f : list A) t : combine f (map Z.opp t) = map neg_time (combine f t).
Proof.
  revert t; induction f as [|x f IH]; intros [|y t]; simpl; try reflexivity. rewrite IH. reflexivity.
Qed.

Lemma times_neg t : times (map Z.opp t) = map neg_time (times t).
Proof. unfold times. rewrite !map_map. reflexivity. Qed.

Lemma delay_neg A B (a : sample A) (b : sample B) :
  delay (neg_time a, neg_time b) = (- delay (a, b))%Z.
Proof. unfold delay, neg_time; simpl. lia. Qed.

Lemma pairs_at_neg A B k (d1 : list (sample A)) (d2 : list (sample B)) :
  pairs_at k (map neg_time d1) (map neg_time d2) = map (map_pair neg_time neg_time) (pairs_at k d1 d2).
Proof.
  unfold pairs_at. rewrite list_prod_map, filter_map. f_equal. apply filter_ext.
  intros [a b]. unfold map_pair; simpl. rewrite delay_neg. f_equal. lia.
Qed.

Lemma pairs_signed_neg A B m (d1 : list (sample A)) (d2 : list (sample B)) :
  pairs_signed m (map neg_time d1) (map neg_time d2) =
  map (map_pair neg_time neg_time) (pairs_signed (- m) d1 d2).
Proof.
  unfold pairs_signed. rewrite list_prod_map, filter_map. f_equal. apply filter_ext.
  intros [a b]. unfold map_pair; simpl. rewrite delay_neg. lia.
Qed.

(** Forgetting the values of the second data set. *)
Lemma pairs_at_times_r A B k (d1 : list (sample A)) (f : list B) t :
  length f = length t ->
  pairs_at k d1 (times t) = map (map_pair (fun x => x) (map_val (fun _ => tt))) (pairs_at k d1 (combine f t)).
Proof.
  intros H. replace (times t) with (map (map_val (fun _ => tt)) (combine f t)).
  - rewrite <- (map_id d1) at 1. rewrite (@pairs_at_map A B A unit (fun x => x)); [reflexivity|reflexivity].
  - unfold times. revert t H; induction f as [|x f IH]; intros [|y t] H; simpl in *; try lia; [reflexivity|].
    rewrite IH by lia. reflexivity.
Qed.

(** Permutations. *)
Lemma Permutation_filter A (p : A -> bool) l1 l2 :
  Permutation l1 l2 -> Permutation (filter p l1) (filter p l2).
Proof.
  induction 1 as [|x l l' _ IH|x y l|l l' l'' _ IH1 _ IH2]; simpl.
  - constructor.
  - destruct (p x); [constructor|]; exact IH.
  - destruct (p x), (p y); try constructor; reflexivity.
  - etransitivity; eassumption.
Qed.

Lemma Permutation_list_prod A B (la la' : list A) (lb lb' : list B) :
  Permutation la la' -> Permutation lb lb' -> Permutation (list_prod la lb) (list_prod la' lb').
Proof.
  intros Ha Hb. transitivity (list_prod la lb').
  - clear Ha la'. induction la as [|a la IH]; [constructor|]. simpl.
    apply Permutation_app; [apply Permutation_map; exact Hb|exact IH].
  - clear Hb lb. induction Ha as [|x l l' _ IH|x y l|l l' l'' _ IH1 _ IH2]; simpl.
    + constructor.
    + apply Permutation_app_head; exact IH.
    + rewrite !app_assoc. apply Permutation_app_tail. apply Permutation_app_comm.
    + etransitivity; eassumption.
Qed.

Lemma pairs_at_perm A B k (d1 d1' : list (sample A)) (d2 d2' : list (sample B)) :
  Permutation d1 d1' -> Permutation d2 d2' -> Permutation (pairs_at k d1 d2) (pairs_at k d1' d2').
Proof. intros; apply Permutation_filter, Permutation_list_prod; assumption. Qed.

Lemma pairs_signed_perm A B m (d1 d1' : list (sample A)) (d2 d2' : list (sample B)) :
  Permutation d1 d1' -> Permutation d2 d2' -> Permutation (pairs_signed m d1 d2) (pairs_signed m d1' d2').
Proof. intros; apply Permutation_filter, Permutation_list_prod; assumption. Qed.

Lemma Sum_upairs_cons (M : CMon) A x (l : list A) (g : A * A -> M) :
  Sum M (upairs (x :: l)) g = madd M (g (x, x)) (madd M (Sum M l (fun y => g (x, y))) (Sum M (upairs l) g)).
Proof.
  cbn [upairs map]. rewrite Sum_app, Sum_cons, Sum_map, <- madd_assoc. reflexivity.
Qed.

Lemma Sum_upairs_perm (M : CMon) A (l l' : list A) (g : A * A -> M) :
  (forall x y, g (x, y) = g (y, x)) -> Permutation l l' -> Sum M (upairs l) g = Sum M (upairs l') g.
Proof.
  intros Hs. induction 1 as [|x l l' HP IH|x y l|l l' l'' _ IH1 _ IH2]; [reflexivity| | |congruence].
  - rewrite !Sum_upairs_cons, IH. f_equal. f_equal. apply Sum_Permutation. exact HP.
  - rewrite !Sum_upairs_cons, !Sum_cons. rewrite (Hs y x).
    rewrite <- !madd_assoc.
    set (a := g (y, y)); set (b := g (x, y)); set (c := g (x, x)).
    set (u := Sum M l (fun z => g (y, z))); set (v := Sum M l (fun z => g (x, z))).
    set (w := Sum M (upairs l) g).
    rewrite (madd_assoc M a b), (madd_comm M a b), <- (madd_assoc M b a).
    rewrite (madd_assoc M c b), (madd_comm M c b), <- (madd_assoc M b c). f_equal.
    rewrite (madd_assoc M u c), (madd_comm M u c), <- (madd_assoc M c u).
    rewrite (madd_assoc M a c), (madd_comm M a c), <- (madd_assoc M c a). f_equal.
    rewrite (madd_assoc M v a), (madd_comm M v a), <- (madd_assoc M a v). f_equal.
    rewrite !madd_assoc. f_equal. apply madd_comm.
Qed.

(** Exchanging the two data sets. *)
Lemma Sum_pairs_at_swap (M : CMon) A B k (d1 : list (sample A)) (d2 : list (sample B)) g :
  Sum M (pairs_at k d2 d1) g = Sum M (pairs_at k d1 d2) (fun p => g (swap p)).
Proof.
  unfold pairs_at. rewrite !Sum_filter, !Sum_list_prod, Sum_swap.
  apply Sum_ext; intros a _; apply Sum_ext; intros b _. unfold swap, delay; simpl.
  replace (Z.abs (snd a - snd b) =? Z.of_nat k)%Z with (Z.abs (snd b - snd a) =? Z.of_nat k)%Z by lia.
  reflexivity.
Qed.

Lemma Sum_pairs_signed_swap (M : CMon) A B m (d1 : list (sample A)) (d2 : list (sample B)) g :
  Sum M (pairs_signed m d2 d1) g = Sum M (pairs_signed (- m) d1 d2) (fun p => g (swap p)).
Proof.
  unfold pairs_signed. rewrite !Sum_filter, !Sum_list_prod, Sum_swap.
  apply Sum_ext; intros a _; apply Sum_ext; intros b _. unfold swap, delay; simpl.
  replace (snd a - snd b =? m)%Z with (snd b - snd a =? - m)%Z by lia.
  reflexivity.
Qed.

(** Ordered pairs against unordered pairs. *)
Lemma Sum_square (M : CMon) A (l : list A) (g : A * A -> M) :
  madd M (Sum M (list_prod l l) g) (Sum M l (fun x => g (x, x))) =
  Sum M (upairs l) (fun p => madd M (g p) (g (swap p))).
Proof.
  rewrite Sum_list_prod. induction l as [|x l IH]; [apply madd_0_l|].
  rewrite Sum_upairs_cons, <- IH, !Sum_cons, Sum_madd. unfold swap; simpl.
  rewrite (Sum_ext M l (fun a => Sum M (x :: l) (fun b => g (a, b)))
             (fun a => madd M (g (a, x)) (Sum M l (fun b => g (a, b)))))
    by (intros; apply Sum_cons).
  rewrite Sum_madd.
  set (xx := g (x, x)); set (u := Sum M l (fun b => g (x, b))); set (v := Sum M l (fun a => g (a, x))).
  set (w := Sum M l (fun a => Sum M l (fun b => g (a, b)))); set (dd := Sum M l (fun a => g (a, a))).
  rewrite <- !madd_assoc. f_equal.
  transitivity (madd M xx (madd M u (madd M v (madd M w dd)))); [|reflexivity].
  rewrite (madd_assoc M w xx dd), (madd_comm M w xx), <- (madd_assoc M xx w dd).
  rewrite (madd_assoc M v xx), (madd_comm M v xx), <- (madd_assoc M xx v).
  rewrite (madd_assoc M u xx), (madd_comm M u xx), <- (madd_assoc M xx u). reflexivity.
Qed.

(** Concatenated data sets: pairs within and across the parts. *)
Lemma Sum_pairs_at_app (M : CMon) A B k (a b : list (sample A)) (c d : list (sample B)) g :
  Sum M (pairs_at k (a ++ b) (c ++ d)) g =
  madd M (madd M (Sum M (pairs_at k a c) g) (Sum M (pairs_at k b d) g))
         (madd M (Sum M (pairs_at k a d) g) (Sum M (pairs_at k b c) g)).
Proof.
  unfold pairs_at. rewrite !Sum_filter, !Sum_list_prod, Sum_app.
  rewrite (Sum_ext M a _ (fun x => madd M
     (Sum M c (fun y => if (Z.abs (delay (x, y)) =? Z.of_nat k)%Z then g (x, y) else m0 M))
     (Sum M d (fun y => if (Z.abs (delay (x, y)) =? Z.of_nat k)%Z then g (x, y) else m0 M))))
    by (intros; apply Sum_app).
  rewrite (Sum_ext M b _ (fun x => madd M
     (Sum M c (fun y => if (Z.abs (delay (x, y)) =? Z.of_nat k)%Z then g (x, y) else m0 M))
     (Sum M d (fun y => if (Z.abs (delay (x, y)) =? Z.of_nat k)%Z then g (x, y) else m0 M))))
    by (intros; apply Sum_app).
  rewrite !Sum_madd.
  set (p := Sum M a _); set (q := Sum M a _); set (r := Sum M b _); set (s := Sum M b _).
  rewrite (madd_comm M r s). rewrite madd_swap4. reflexivity.
Qed.

Lemma Sum_pairs_signed_app (M : CMon) A B k (a b : list (sample A)) (c d : list (sample B)) g :
  Sum M (pairs_signed k (a ++ b) (c ++ d)) g =
  madd M (madd M (Sum M (pairs_signed k a c) g) (Sum M (pairs_signed k b d) g))
         (madd M (Sum M (pairs_signed k a d) g) (Sum M (pairs_signed k b c) g)).
Proof.
  unfold pairs_signed. rewrite !Sum_filter, !Sum_list_prod, Sum_app.
  rewrite (Sum_ext M a _ (fun x => madd M
     (Sum M c (fun y => if (delay (x, y) =? k)%Z then g (x, y) else m0 M))
     (Sum M d (fun y => if (delay (x, y) =? k)%Z then g (x, y) else m0 M))))
    by (intros; apply Sum_app).
  rewrite (Sum_ext M b _ (fun x => madd M
     (Sum M c (fun y => if (delay (x, y) =? k)%Z then g (x, y) else m0 M))
     (Sum M d (fun y => if (delay (x, y) =? k)%Z then g (x, y) else m0 M))))
    by (intros; apply Sum_app).
  rewrite !Sum_madd.
  set (p := Sum M a _); set (q := Sum M a _); set (r := Sum M b _); set (s := Sum M b _).
  rewrite (madd_comm M r s). rewrite madd_swap4. reflexivity.
Qed.

Lemma Sum_upairs_app (M : CMon) A (a b : list A) (g : A * A -> M) :
  Sum M (upairs (a ++ b)) g =
  madd M (madd M (Sum M (upairs a) g) (Sum M (upairs b) g)) (Sum M (list_prod a b) g).
Proof.
  induction a as [|x a IH]; simpl app.
  - simpl. rewrite !Sum_nil, madd_0_l, madd_0_r. reflexivity.
  - rewrite !Sum_upairs_cons, IH. rewrite Sum_app. cbn [list_prod]. rewrite Sum_app, Sum_map.
    rewrite <- !madd_assoc. f_equal. f_equal.
    set (u := Sum M b (fun y => g (x, y))). set (p := Sum M (upairs a) g). set (q := Sum M (upairs b) g).
    set (r := Sum M (list_prod a b) g).
    rewrite !madd_assoc. f_equal. rewrite (madd_comm M u p), <- !madd_assoc. f_equal. apply madd_comm.
Qed.
