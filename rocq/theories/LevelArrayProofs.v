(** Multilevel arrays: every pixel is computed as if it were alone. *)
From Coq Require Import ZifyBool ZifyNat.
From Verif Require Import Base Ordered AvgModel Kernels KernelProofs VecModel VecProofs CoreProofs3 NormModel NormMode3 NormArrayModel NormArrayProofs MultiModel MultiProofs RegularProofs LevelModel LevelProofs LevelProofs2 LogFoldModel LevelArrayModel.
Set Implicit Arguments.
Arguments row_map {A x s n} p _.
Arguments row_length {A x s n} p _.

(** * Rows *)
Lemma shape_last {A} {x : nd A} {s n} : shape x = s ++ [n] -> last (shape x) 0 = n /\ removelast (shape x) = s.
Proof. intros ->. split; [apply last_last|apply removelast_last]. Qed.
Lemma row_slice A (x : nd A) s n start step m p d : shape x = s ++ [n] -> (forall k, k < m -> start + step * k < n) ->
  shape (slice_last x start step m) = s ++ [m] /\ row (slice_last x start step m) p = map (fun k => nth (start + step * k) (row x p) d) (seq 0 m).
Proof.
  intros E H. destruct (shape_last E) as [E1 E2]. assert (ES : shape (slice_last x start step m) = s ++ [m]) by (cbn [shape slice_last]; rewrite E2; reflexivity). split; [exact ES|].
  rewrite (row_map p ES). apply map_ext_in. intros k Hk. apply in_seq in Hk. cbn [slice_last at_]. rewrite removelast_last, last_last. rewrite (row_nth p d E) by (apply H; lia). reflexivity.
Qed.
Lemma row_by_rows A B (d : B) (f : list A -> list B) m (x : nd A) s n p : shape x = s ++ [n] -> length (f (row x p)) = m ->
  shape (by_rows d f m x) = s ++ [m] /\ row (by_rows d f m x) p = f (row x p).
Proof.
  intros E H. destruct (shape_last E) as [E1 E2]. assert (ES : shape (by_rows d f m x) = s ++ [m]) by (cbn [shape by_rows]; rewrite E2; reflexivity). split; [exact ES|].
  rewrite (row_map p ES). apply nth_ext with (d := d) (d' := d); [rewrite map_length, seq_length; symmetry; exact H|]. intros k Hk. rewrite map_length, seq_length in Hk.
  rewrite (nth_map_seq (fun t => at_ (by_rows d f m x) (p ++ [t]))) by exact Hk. cbn [by_rows at_]. rewrite removelast_last, last_last. reflexivity.
Qed.
Lemma row_level V (data : nd V) s n size p : shape data = s ++ [n] -> shape (level_nd size data) = s ++ [size] /\ row (level_nd size data) p = level_row size (row data p).
Proof.
  intros E. destruct (shape_last E) as [E1 E2]. assert (ES : shape (level_nd size data) = s ++ [size]) by (cbn [shape level_nd]; rewrite E2; reflexivity). split; [exact ES|].
  rewrite (row_map p ES). assert (LR : length (row data p) = n) by (apply (row_length p E)). unfold level_row. apply nth_ext with (d := None) (d' := None).
  - rewrite app_length, !map_length, seq_length, repeat_length, firstn_length. lia.
  - intros k Hk. rewrite map_length, seq_length in Hk. rewrite (nth_map_seq (fun t => at_ (level_nd size data) (p ++ [t]))) by exact Hk. cbn [level_nd at_]. rewrite last_last, E1.
    assert (LF : length (firstn size (row data p)) = Nat.min size n) by (rewrite firstn_length, LR; reflexivity).
    destruct (Nat.ltb_spec k n) as [H|H].
    + rewrite app_nth1 by (rewrite map_length; lia). rewrite (@nth_map_in _ _ _ (firstn size (row data p)) k None (at_ data (p ++ [0]))) by lia. f_equal.
      rewrite <- (row_nth p (at_ data (p ++ [0])) E H). rewrite <- (firstn_skipn size (row data p)) at 1. rewrite app_nth1; [reflexivity|lia].
    + rewrite app_nth2 by (rewrite map_length; lia). symmetry. apply nth_repeat.
Qed.

Lemma ok_same A (x y : A) : Ok x = Ok y -> x = y.
Proof. intros H. injection H as <-. reflexivity. Qed.
Section Levels.
  Variable V : Type.
  Variable v0 : V.
  Variable conv : list V -> res (list V).
  Hypothesis conv_length : forall l l', conv l = Ok l' -> length l' = length l.
  Lemma map_res_ok A B (f : A -> res B) l r : map_res f l = Ok r -> forall x, In x l -> exists y, f x = Ok y.
  Proof.
    revert r. induction l as [|a l IH]; intros r E x H; [destruct H|]. cbn [map_res] in E. destruct (f a) as [y|] eqn:Ea; [|discriminate]. cbn [bind] in E. destruct (map_res f l) as [ys|] eqn:El; [|discriminate].
    destruct H as [<-|H]; [exists y; exact Ea|exact (IH ys eq_refl x H)].
  Qed.
  Lemma map_res_raise A B (f : A -> res B) l e : map_res f l = Raise e -> exists x, In x l /\ f x = Raise e.
  Proof.
    induction l as [|a l IH]; intros E; [discriminate|]. cbn [map_res] in E. destruct (f a) as [y|e'] eqn:Ea; cbn [bind] in E.
    - destruct (map_res f l) as [ys|e'] eqn:El; cbn [bind] in E; [discriminate|]. destruct (IH E) as (x & H & Hx). exists x. split; [right; exact H|exact Hx].
    - injection E as ->. exists a. split; [left; reflexivity|exact Ea].
  Qed.
  Lemma next_nd_ok binning r data s n next : shape data = s ++ [n] -> next_nd v0 conv binning r data = Ok next ->
    exists n', shape next = s ++ [n'] /\ forall p, In p (indices s) -> next_level v0 conv binning r (row data p) = Ok (row next p).
  Proof using conv_length.
    intros E. destruct (shape_last E) as [E1 E2]. unfold next_nd, next_level. rewrite E1. destruct (binning =? BINNING_MEAN)%Z; [|destruct (binning =? BINNING_FIRST)%Z].
    - unfold conv_nd. rewrite E1, E2. destruct (map_res _ _) as [ys|] eqn:EM; cbn [bind]; [|discriminate]. intros X. apply ok_same in X. subst next.
      set (c := by_rows _ _ _ _). assert (EC : shape c = s ++ [n]) by (unfold c; cbn [shape by_rows]; rewrite E2; reflexivity). destruct (shape_last EC) as [C1 C2]. rewrite C1.
      exists ((n + 1) / 2). split; [apply (@row_slice V c s n 0 2 ((n + 1) / 2) [] v0 EC); intros; lia|]. intros p Hp.
      destruct (map_res_ok _ _ EM p Hp) as [y Ey]. rewrite Ey. cbn [bind]. f_equal. pose proof (conv_length Ey) as LY. rewrite (row_length p E) in LY.
      destruct (@row_slice V c s n 0 2 ((n + 1) / 2) p v0 EC ltac:(intros; lia)) as [_ ->].
      destruct (@row_by_rows V V v0 (fun l => match conv l with Ok r => r | Raise _ => [] end) n data s n p E) as [_ ER]; [rewrite Ey; exact LY|]. fold c in ER. rewrite ER, Ey.
      unfold strided. rewrite LY, Nat.sub_0_r. reflexivity.
    - intros X. apply ok_same in X. subst next. exists ((n + 1) / 2). split; [apply (@row_slice V data s n 0 2 ((n + 1) / 2) [] v0 E); intros; lia|]. intros p _. f_equal.
      destruct (@row_slice V data s n 0 2 ((n + 1) / 2) p v0 E ltac:(intros; lia)) as [_ ->]. unfold strided. rewrite (row_length p E), Nat.sub_0_r. reflexivity.
    - intros X. apply ok_same in X. subst next. exists ((n - 1 + 1) / 2). assert (H1 : forall k, k < (n - 1 + 1) / 2 -> 1 + 2 * k < n) by (intros; lia). assert (H0 : forall k, k < (n - 1 + 1) / 2 -> 0 + 2 * k < n) by (intros; lia).
      split; [destruct r; [apply (@row_slice V data s n 1 2 _ [] v0 E H1)|apply (@row_slice V data s n 0 2 _ [] v0 E H0)]|]. intros p _. f_equal. unfold choose_level, strided. destruct r.
      + destruct (@row_slice V data s n 1 2 _ p v0 E H1) as [_ ->]. rewrite (row_length p E). reflexivity.
      + destruct (@row_slice V data s n 0 2 _ p v0 E H0) as [_ ->]. rewrite (row_length p E). replace (n - 1 - 0) with (n - 1) by lia. reflexivity.
  Qed.
  Lemma next_nd_raise binning r data s n e : shape data = s ++ [n] -> next_nd v0 conv binning r data = Raise e ->
    exists p, In p (indices s) /\ next_level v0 conv binning r (row data p) = Raise e.
  Proof using.
    intros E. destruct (shape_last E) as [E1 E2]. unfold next_nd, next_level. destruct (binning =? BINNING_MEAN)%Z; [|destruct (binning =? BINNING_FIRST)%Z; discriminate].
    unfold conv_nd. rewrite E2. destruct (map_res _ _) as [ys|e'] eqn:EM; cbn [bind]; [discriminate|]. intros X. injection X as ->. destruct (map_res_raise _ _ EM) as (p & Hp & Ep). exists p. split; [exact Hp|]. rewrite Ep. reflexivity.
  Qed.
  Lemma level_rows_nd_ok size binning r : forall more l data s n rows, shape data = s ++ [n] -> level_rows_nd v0 conv size binning r l more data = Ok rows ->
    length rows = S more /\ (forall x, In x rows -> shape x = s ++ [size]) /\ forall p, In p (indices s) -> level_rows v0 conv size binning r l more (row data p) = Ok (map (fun x => row x p) rows).
  Proof using conv_length.
    induction more as [|more IH]; intros l data s n rows E; cbn [level_rows_nd level_rows].
    - intros X. injection X as <-. split; [reflexivity|]. split.
      + intros x [<-|[]]. apply (@row_level V data s n size [] E).
      + intros p _. cbn [map]. destruct (@row_level V data s n size p E) as [_ ->]. reflexivity.
    - destruct (next_nd _ _ _ _ _) as [next|] eqn:EN; cbn [bind]; [|discriminate]. destruct (level_rows_nd _ _ _ _ _ _ _ next) as [rest|] eqn:ER; cbn [bind]; [|discriminate]. intros X. injection X as <-.
      destruct (@next_nd_ok _ _ _ _ _ _ E EN) as (n' & E' & HN). destruct (IH _ _ _ _ _ E' ER) as (I1 & I2 & I3). split; [cbn [length]; congruence|]. split.
      + intros x [<-|H]; [apply (@row_level V data s n size [] E)|apply I2; exact H].
      + intros p Hp. rewrite (HN p Hp). cbn [bind]. rewrite (I3 p Hp). cbn [bind map]. destruct (@row_level V data s n size p E) as [_ ->]. reflexivity.
  Qed.
  Lemma level_rows_nd_raise size binning r : forall more l data s n e, shape data = s ++ [n] -> level_rows_nd v0 conv size binning r l more data = Raise e ->
    exists p, In p (indices s) /\ level_rows v0 conv size binning r l more (row data p) = Raise e.
  Proof using conv_length.
    induction more as [|more IH]; intros l data s n e E; cbn [level_rows_nd level_rows]; [discriminate|].
    destruct (next_nd _ _ _ _ _) as [next|e'] eqn:EN; cbn [bind].
    - destruct (level_rows_nd _ _ _ _ _ _ _ next) as [rest|e'] eqn:ER; cbn [bind]; [discriminate|]. intros X. injection X as ->.
      destruct (@next_nd_ok _ _ _ _ _ _ E EN) as (n' & E' & HN). destruct (IH _ _ _ _ _ E' ER) as (p & Hp & Ep). exists p. split; [exact Hp|]. rewrite (HN p Hp). cbn [bind]. rewrite Ep. reflexivity.
    - intros X. injection X as ->. destruct (@next_nd_raise _ _ _ _ _ _ E EN) as (p & Hp & Ep). exists p. split; [exact Hp|]. rewrite Ep. reflexivity.
  Qed.
End Levels.

(** * Memory order *)
Lemma flat_last s d p i : length p = length s -> flat_index (s ++ [d]) (p ++ [i]) = flat_index s p * d + i.
Proof.
  intros H. unfold flat_index. rewrite combine_app' by (symmetry; exact H). rewrite fold_left_app. reflexivity.
Qed.
Lemma of_flat_last s d k : of_flat (s ++ [d]) k = of_flat s (k / d) ++ [k mod d].
Proof. unfold of_flat. rewrite rev_app_distr. cbn [rev app of_flat_rev]. reflexivity. Qed.
Lemma of_flat_index s : forall p, valid p s -> of_flat s (flat_index s p) = p.
Proof.
  induction s as [|d s IH] using rev_ind; intros p H; [inversion H; reflexivity|].
  destruct (@exists_last _ p) as (q & i & ->). { intros ->. inversion H as [X|]. destruct s; discriminate. }
  apply Forall2_app_inv_r in H. destruct H as (q1 & q2 & H1 & H2 & E). inversion H2 as [|a b q3 s3 Hi H3]; subst. inversion H3; subst. apply app_inj_tail in E. destruct E as [<- <-].
  pose proof (valid_length H1) as HL. rewrite flat_last by exact HL. rewrite of_flat_last.
  assert (Hd : d <> 0) by lia. rewrite Nat.div_add_l by exact Hd. rewrite (Nat.div_small i d Hi), Nat.add_0_r, (IH q H1). f_equal. f_equal. rewrite Nat.add_comm, Nat.mod_add by exact Hd. apply Nat.mod_small. exact Hi.
Qed.
Lemma size_app a b : size_of (a ++ b) = size_of a * size_of b.
Proof. unfold size_of. induction a as [|x a IH]; cbn [app fold_right]; [lia|]. rewrite IH. lia. Qed.
Lemma regroup s a b p j : valid p s -> j < b * a -> of_flat (s ++ [a; b]) (flat_index (s ++ [b * a]) (p ++ [j])) = p ++ [j / b; j mod b].
Proof.
  intros Hp Hj. assert (Hb : b <> 0) by nia. assert (Ha : a <> 0) by nia. rewrite flat_last by (exact (valid_length Hp)).
  replace (s ++ [a; b]) with ((s ++ [a]) ++ [b]) by (rewrite <- app_assoc; reflexivity). rewrite !of_flat_last.
  replace (flat_index s p * (b * a) + j) with (flat_index s p * a * b + j) by nia. rewrite Nat.div_add_l by exact Hb.
  assert (Hq : j / b < a) by (apply Nat.div_lt_upper_bound; [exact Hb|lia]).
  rewrite Nat.div_add_l by exact Ha. rewrite (Nat.div_small _ _ Hq), Nat.add_0_r, (of_flat_index Hp). rewrite <- app_assoc. cbn [app]. f_equal. f_equal.
  - rewrite Nat.add_comm, Nat.mod_add by exact Ha. apply Nat.mod_small. exact Hq.
  - f_equal. rewrite Nat.add_comm, Nat.mod_add by exact Hb. reflexivity.
Qed.
(** * Transposed axes *)
Lemma seq_shifted a k : seq a (S k) = a :: seq (S a) k.
Proof. reflexivity. Qed.
Lemma axes_of k : insert_before_last 0 (seq 1 (S k)) = seq 1 k ++ [0; S k].
Proof. unfold insert_before_last. rewrite seq_length. rewrite seq_S. rewrite removelast_last. replace (S k - 1) with (length (seq 1 k)) by (rewrite seq_length; lia). rewrite skipn_app, skipn_all, Nat.sub_diag. reflexivity. Qed.
Lemma place_in a b k r : a <= b -> b < a + k -> place_of b (seq a k ++ r) = b - a.
Proof.
  revert a. induction k as [|k IH]; intros a H1 H2; [lia|]. cbn [seq app place_of]. destruct (Nat.eqb_spec b a) as [->|N]; [lia|]. rewrite IH by lia. lia.
Qed.
Lemma place_after b k r : ~ (1 <= b <= k) -> place_of b (seq 1 k ++ r) = k + place_of b r.
Proof.
  intros H. assert (G : forall k a, ~ (a <= b < a + k) -> place_of b (seq a k ++ r) = k + place_of b r).
  { clear k H. induction k as [|k IH]; intros a H; [reflexivity|]. cbn [seq app place_of]. destruct (Nat.eqb_spec b a) as [->|N]; [lia|]. rewrite IH by lia. lia. }
  apply G. lia.
Qed.
Lemma nth_seq_self (p : list nat) : map (fun a => nth (a - 1) p 0) (seq 1 (length p)) = p.
Proof. rewrite <- seq_shift, map_map. rewrite <- (map_id p) at 2. apply nth_ext with (d := 0) (d' := 0); rewrite !map_length, ?seq_length; [reflexivity|]. intros i Hi. rewrite (nth_map_seq (fun x => nth (S x - 1) p 0)) by exact Hi. rewrite map_id. f_equal. lia. Qed.
Lemma transposed A (x : nd A) L s h p l j : shape x = L :: s ++ [h] -> length p = length s ->
  let axes := insert_before_last (hd 0 (seq 0 (rank x))) (tl (seq 0 (rank x))) in
  shape (transpose_to x axes) = s ++ [L; h] /\ at_ (transpose_to x axes) (p ++ [l; j]) = at_ x (l :: p ++ [j]).
Proof.
  intros E HL axes. set (k := length s) in *. assert (R : rank x = S (S k)) by (unfold rank; rewrite E; cbn [length]; rewrite app_length; cbn [length]; fold k; lia).
  assert (EA : axes = seq 1 k ++ [0; S k]) by (unfold axes; rewrite R; cbn [seq hd tl]; apply axes_of). unfold transpose_to. rewrite EA. cbn [shape at_]. split.
  - rewrite map_app, E. cbn [map]. assert (ES : map (fun a => nth a (L :: s ++ [h]) 0) (seq 1 k) = s).
    { etransitivity; [|apply nth_seq_self]. fold k. apply map_ext_in. intros a Ha. apply in_seq in Ha. destruct a as [|a]; [lia|]. cbn [nth]. rewrite app_nth1 by (fold k; lia). f_equal. lia. }
    rewrite ES. cbn [nth]. do 3 f_equal. rewrite app_nth2 by (fold k; lia). fold k. rewrite Nat.sub_diag. reflexivity.
  - f_equal. rewrite R. rewrite seq_shifted, seq_S. cbn [map]. rewrite map_app. cbn [map Nat.add].
    assert (P0 : place_of 0 (seq 1 k ++ [0; S k]) = k) by (rewrite place_after by lia; cbn [place_of Nat.eqb]; lia).
    assert (PK : place_of (S k) (seq 1 k ++ [0; S k]) = S k) by (rewrite place_after by lia; cbn [place_of Nat.eqb]; rewrite Nat.eqb_refl; lia).
    rewrite P0. replace (1 + k) with (S k) by lia. rewrite PK. f_equal; [rewrite app_nth2 by lia; rewrite HL, Nat.sub_diag; reflexivity|]. f_equal.
    + etransitivity; [|apply nth_seq_self]. rewrite HL. apply map_ext_in. intros a Ha. apply in_seq in Ha. rewrite place_in by lia. rewrite app_nth1 by lia. reflexivity.
    + f_equal. rewrite app_nth2 by lia. rewrite HL. replace (S k - k) with 1 by lia. reflexivity.
Qed.
(** * Merging *)
Lemma seq_blocks A (g : nat -> nat -> A) h L : map (fun j => g (j / h) (j mod h)) (seq 0 (h * L)) = flat_map (fun l => map (g l) (seq 0 h)) (seq 0 L).
Proof.
  destruct (Nat.eq_dec h 0) as [->|Hh]; [cbn [Nat.mul seq map]; induction (seq 0 L) as [|x l IH]; [reflexivity|exact IH]|].
  induction L as [|L IH]; [rewrite Nat.mul_0_r; reflexivity|]. rewrite seq_S, flat_map_app. cbn [flat_map Nat.add]. rewrite app_nil_r. rewrite <- IH. replace (h * S L) with (h * L + h) by lia. rewrite seq_app, map_app. f_equal.
  cbn [Nat.add]. apply nth_ext with (d := g 0 0) (d' := g 0 0); rewrite !map_length, !seq_length; [reflexivity|]. intros i Hi.
  rewrite (@nth_map_in _ _ _ (seq (h * L) h) i (g 0 0) 0) by (rewrite seq_length; exact Hi). rewrite (@nth_map_in _ _ (g L) (seq 0 h) i (g 0 0) 0) by (rewrite seq_length; exact Hi). rewrite !seq_nth by exact Hi.
  cbn [Nat.add]. rewrite (Nat.mul_comm h L). rewrite Nat.div_add_l by exact Hh. rewrite (Nat.div_small i h Hi), Nat.add_0_r. f_equal. rewrite Nat.add_comm, Nat.mod_add by exact Hh. apply Nat.mod_small. exact Hi.
Qed.
(** The levels of one pixel *)
Definition pixel_levels (W : Type) (data : nd W) (p : list nat) : list (list W) := map (fun l => row data (l :: p)) (seq 0 (hd 0 (shape data))).
Lemma flat_map_map' A B C (f : B -> list C) (g : A -> B) l : flat_map f (map g l) = flat_map (fun x => f (g x)) l.
Proof. induction l as [|x l IH]; [reflexivity|]. cbn [map flat_map]. rewrite IH. reflexivity. Qed.
Lemma merge_half_pixel W (data : nd W) L s n : shape data = L :: s ++ [n] -> n mod 2 = 0 ->
  exists x y, merge_half_nd data = Ok (x, y) /\ shape y = s ++ [n / 2 * L] /\ forall p, valid p s -> merge_half n (pixel_levels data p) = Ok (x, row y p).
Proof.
  intros E Hn. assert (E' : shape data = (L :: s) ++ [n]) by exact E. destruct (shape_last E') as [E1 E2]. unfold merge_half_nd, last_of. assert (R : rank data = S (S (length s))) by (unfold rank; rewrite E; cbn [length]; rewrite app_length; cbn [length]; lia).
  rewrite R. cbn [Nat.eqb bind]. rewrite E1, Hn. cbn [Nat.eqb negb]. replace (hd 0 (shape data)) with L by (rewrite E; reflexivity).
  set (h := n / 2). replace (n - h) with h by (unfold h; lia). set (sl := slice_last data h 1 h).
  assert (ES : shape sl = L :: s ++ [h]). { unfold sl. cbn [shape slice_last]. rewrite E2. reflexivity. }
  set (axes := insert_before_last _ _). set (tr := transpose_to sl axes).
  assert (ET : shape tr = s ++ [L; h]) by (apply (@transposed W sl L s h s 0 0 ES eq_refl)). rewrite ET. assert (RT : rank tr = length s + 2) by (unfold rank; rewrite ET, app_length; reflexivity). rewrite RT.
  replace (length s + 2 - 2) with (length s) by lia. replace (firstn (length s) (s ++ [L; h])) with s by (rewrite firstn_app, firstn_all, Nat.sub_diag; cbn [firstn]; rewrite app_nil_r; reflexivity).
  unfold reshape_to. rewrite ET, !size_app. cbn [size_of fold_right]. replace (size_of s * (h * L * 1) =? size_of s * (L * (h * 1))) with true by (symmetry; apply Nat.eqb_eq; nia). cbn [bind].
  do 2 eexists. split; [reflexivity|]. split; [reflexivity|]. intros p Hp. unfold merge_half, pixel_levels. rewrite Hn. cbn [Nat.eqb negb]. rewrite E. cbn [hd]. rewrite map_length, seq_length. fold h. f_equal. f_equal.
  erewrite row_map by (cbn [shape]; reflexivity). cbn [at_].
  rewrite flat_map_map'. transitivity (flat_map (fun l => map (fun k => at_ data (l :: p ++ [h + k])) (seq 0 h)) (seq 0 L)).
  - rewrite !flat_map_concat_map. f_equal. apply map_ext. intros l. assert (LR : length (row data (l :: p)) = n) by (apply (row_length (l :: p) E')).
    apply nth_ext with (d := at_ data []) (d' := at_ data []); [rewrite skipn_length, map_length, seq_length, LR; unfold h; lia|]. rewrite skipn_length, LR. intros i Hi. assert (HI : i < h) by (unfold h in *; lia).
    rewrite (nth_map_seq (fun k => at_ data (l :: p ++ [h + k]))) by exact HI. rewrite nth_skipn, (Nat.add_comm i h). rewrite (row_nth (l :: p) (at_ data []) E') by (unfold h in *; lia). reflexivity.
  - rewrite <- (seq_blocks (fun l k => at_ data (l :: p ++ [h + k])) h L). apply map_ext_in. intros j Hj. apply in_seq in Hj. rewrite (@regroup s L h p j Hp) by lia.
    destruct (@transposed W sl L s h p (j / h) (j mod h) ES (valid_length Hp)) as [_ ET2]. fold axes in ET2. fold tr in ET2. rewrite ET2. unfold sl. cbn [slice_last at_].
    change (j / h :: p ++ [j mod h]) with ((j / h :: p) ++ [j mod h]). rewrite removelast_last, last_last, Nat.mul_1_l. reflexivity.
Qed.
Lemma row_concat W (a b : nd W) s n1 n2 : shape a = s ++ [n1] -> shape b = s ++ [n2] ->
  exists y, concat_last a b = Ok y /\ shape y = s ++ [n1 + n2] /\ forall p, row y p = row a p ++ row b p.
Proof.
  intros Ea Eb. destruct (shape_last Ea) as [A1 A2]. destruct (shape_last Eb) as [B1 B2]. unfold concat_last. rewrite A1, A2, B1, B2.
  assert (R1 : rank a =? 0 = false) by (unfold rank; rewrite Ea, app_length; cbn [length]; lia). assert (R2 : rank b =? 0 = false) by (unfold rank; rewrite Eb, app_length; cbn [length]; lia). rewrite R1, R2. cbn [orb].
  destruct (list_eq_dec Nat.eq_dec s s) as [_|C]; [|destruct (C eq_refl)]. eexists. split; [reflexivity|]. split; [reflexivity|]. intros p. erewrite row_map by (cbn [shape]; reflexivity). rewrite seq_app, map_app. f_equal.
  - rewrite (row_map p Ea). apply map_ext_in. intros k Hk. apply in_seq in Hk. cbn [at_]. rewrite last_last. replace (k <? n1) with true by lia. reflexivity.
  - rewrite (row_map p Eb). cbn [Nat.add]. apply nth_ext with (d := at_ b []) (d' := at_ b []); rewrite !map_length, !seq_length; [reflexivity|]. intros k Hk.
    rewrite (nth_map_seq (fun t => at_ b (p ++ [t]))) by exact Hk. rewrite (@nth_map_in _ _ _ (seq n1 n2) k (at_ b []) 0) by (rewrite seq_length; exact Hk). rewrite seq_nth by exact Hk. cbn [at_]. rewrite last_last, removelast_last.
    replace (n1 + k <? n1) with false by lia. do 3 f_equal. lia.
Qed.
Lemma merge_full_pixel W (data : nd W) L s n : shape data = S L :: s ++ [n] -> n mod 2 = 0 ->
  exists x y, merge_full_nd data = Ok (x, y) /\ shape y = s ++ [n + n / 2 * L] /\ forall p, valid p s -> merge_full n (pixel_levels data p) = Ok (x, row y p).
Proof.
  intros E Hn. assert (E' : shape data = (S L :: s) ++ [n]) by exact E. destruct (shape_last E') as [E1 E2]. unfold merge_full_nd, last_of. assert (R : rank data = S (S (length s))) by (unfold rank; rewrite E; cbn [length]; rewrite app_length; cbn [length]; lia).
  rewrite R. cbn [Nat.eqb bind]. rewrite E1. replace (hd 0 (shape data)) with (S L) by (rewrite E; reflexivity). cbn [Nat.eqb].
  assert (EI : shape (items_from_1 data) = L :: s ++ [n]) by (cbn [shape items_from_1]; rewrite E; cbn [hd tl]; rewrite Nat.sub_succ, Nat.sub_0_r; reflexivity).
  destruct (@merge_half_pixel _ _ _ _ _ EI Hn) as (x & y & EH & SY & HP). rewrite EH. cbn [bind fst snd].
  assert (E0 : shape (item data 0) = s ++ [n]) by (cbn [shape item]; rewrite E; reflexivity).
  destruct (@row_concat _ _ _ _ _ _ E0 SY) as (z & EZ & SZ & HZ). rewrite EZ. cbn [bind]. do 2 eexists. split; [reflexivity|]. split; [exact SZ|]. intros p Hp. specialize (HP p Hp).
  unfold pixel_levels. rewrite E. cbn [hd seq map merge_full]. assert (EP : map (fun l => row data (l :: p)) (seq 1 L) = pixel_levels (items_from_1 data) p).
  { unfold pixel_levels. rewrite EI. cbn [hd]. rewrite <- seq_shift, map_map. apply map_ext. intros l. assert (EI' : shape (items_from_1 data) = (L :: s) ++ [n]) by exact EI. rewrite (row_map (l :: p) EI'), (row_map (S l :: p) E'). reflexivity. }
  rewrite EP, HP. cbn [bind fst snd]. rewrite HZ. f_equal. f_equal. f_equal. rewrite (row_map p E0), (row_map (0 :: p) E'). reflexivity.
Qed.
Lemma stack_levels W (d : W) s n rows p : (forall x, In x rows -> shape x = s ++ [n]) ->
  shape (stack d (s ++ [n]) rows) = length rows :: s ++ [n] /\ pixel_levels (stack d (s ++ [n]) rows) p = map (fun x => row x p) rows.
Proof.
  intros H. split; [reflexivity|]. unfold pixel_levels. cbn [shape stack hd]. assert (ES : shape (stack d (s ++ [n]) rows) = (length rows :: s) ++ [n]) by reflexivity.
  apply nth_ext with (d := []) (d' := []); rewrite !map_length, ?seq_length; [reflexivity|]. intros l Hl. rewrite (nth_map_seq (fun l => row (stack d (s ++ [n]) rows) (l :: p))) by exact Hl.
  rewrite (@nth_map_in _ _ _ rows l [] (Nd [] (fun _ => d))) by exact Hl. rewrite (row_map (l :: p) ES). rewrite (row_map p (H _ (nth_In _ _ Hl))). reflexivity.
Qed.
