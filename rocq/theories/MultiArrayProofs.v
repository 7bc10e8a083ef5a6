(** The multiple-tau algorithm on arrays: every pixel is binned and correlated as if it were alone. *)
From Coq Require Import String ZifyBool ZifyNat.
From Verif Require Import Base Kernels KernelProofs CoreModel CoreProofs CoreApi VecModel VecProofs FftModel NormModel CorrModel NormArrayModel NormArrayProofs AxisModel AxisProofs AxisProofs2 AxisProofs3
  MultiModel LevelArrayModel LevelArrayProofs MultiArrayModel.
Open Scope string_scope.
Open Scope nat_scope.
Local Notation length := List.length.
Set Implicit Arguments.

(** * Inserted axes *)
Lemma ins_length A a (v : A) l : length (ins a v l) = S (length l).
Proof. unfold ins. rewrite app_length. cbn [length]. rewrite firstn_length, skipn_length. lia. Qed.
Lemma nth_ins A a (v : A) l d : a <= length l -> nth a (ins a v l) d = v.
Proof. intros H. unfold ins. rewrite app_nth2; rewrite firstn_length, Nat.min_l by lia; [rewrite Nat.sub_diag; reflexivity|lia]. Qed.
Lemma del_ins A a (v : A) l : a <= length l -> del a (ins a v l) = l.
Proof.
  intros H. unfold del, ins. assert (L : length (firstn a l) = a) by (rewrite firstn_length; lia). rewrite (firstn_end _ (v :: skipn a l) L), (skipn_S _ v (skipn a l) L). apply firstn_skipn.
Qed.
Lemma ins_del A a (l : list A) d : a < length l -> ins a (nth a l d) (del a l) = l.
Proof.
  intros H. unfold del, ins. assert (L : length (firstn a l) = a) by (rewrite firstn_length; lia). rewrite (firstn_end _ _ L), (skipn_end _ _ L). rewrite <- (firstn_skipn a l) at 4. f_equal.
  clear L. revert a H. induction l as [|x l IH]; intros [|a] H; cbn in *; try lia; [reflexivity|]. apply IH. lia.
Qed.
(** Moving the last axis back *)
Lemma move_back A (y : nd A) na a fr m : shape y = (fr ++ [m])%list -> norm_axis (S (length fr)) na = Ok a ->
  exists g, moveaxis y (-1) na = Ok g /\ shape g = ins a m fr /\ forall p, length p = length fr -> series g a p = row y p.
Proof.
  intros Sy Ea. pose proof (axis_lt _ _ Ea) as La. unfold moveaxis, rank. rewrite Sy, app_length. cbn [length]. rewrite axis_last by lia. cbn [bind].
  replace (length fr + 1) with (S (length fr)) by lia. rewrite Ea. cbn [bind]. eexists. split; [reflexivity|]. replace (S (length fr) - 1) with (length fr) by lia. cbn [shape].
  rewrite (nth_end m fr 0 eq_refl), (del_end m fr eq_refl). split; [reflexivity|]. intros p Hp. unfold series. cbn [shape at_]. rewrite nth_ins by lia. rewrite (row_map p Sy). apply map_ext. intros t.
  rewrite nth_ins, del_ins by lia. rewrite ins_end by exact Hp. reflexivity.
Qed.

(** * Binning *)
Lemma combine_same A B (g h : nat -> A) (s : list B) (u : B -> nat) : combine (map (fun k => g (u k)) s) (map (fun k => h (u k)) s) = map (fun k => (g (u k), h (u k))) s.
Proof. induction s as [|x s IH]; [reflexivity|]. cbn [map combine]. f_equal. exact IH. Qed.
Definition bin_length (binning : Z) (n : nat) : nat := if (binning =? BINNING_MEAN)%Z then (n - 1 + 1) / 2 else if (binning =? BINNING_FIRST)%Z then (n + 1) / 2 else (n - 1 + 1) / 2.
Section Bin.
  Variable G : QGrp.
  Lemma halves_pixels (x : nd G) na a : norm_axis (rank x) na = Ok a ->
    let m := (nth a (shape x) 0 - 1 + 1) / 2 in
    exists g1 g2, halves_nd G x na na = Ok (g1, g2) /\ shape g1 = ins a m (del a (shape x)) /\ shape g2 = shape g1 /\
      forall p, length p = length (del a (shape x)) -> series g1 a p = map (fun k => nth (2 * k) (series x a p) (m0 G)) (seq 0 m) /\ series g2 a p = map (fun k => nth (1 + 2 * k) (series x a p) (m0 G)) (seq 0 m).
  Proof.
    intros Ea m. pose proof (axis_lt _ _ Ea) as La. unfold rank in La. pose proof (del_length (shape x) La) as LD. unfold halves_nd. destruct (move_last x na Ea) as (f & -> & Sf & Pf). cbn [bind].
    destruct (shape_last Sf) as (Ln & _). rewrite Ln. fold m.
    assert (B1 : forall k, k < m -> 0 + 2 * k < nth a (shape x) 0) by (unfold m; intros; lia). assert (B2 : forall k, k < m -> 1 + 2 * k < nth a (shape x) 0) by (unfold m; intros; lia).
    assert (Ea' : norm_axis (S (length (del a (shape x)))) na = Ok a) by (rewrite LD; unfold rank in Ea; replace (S (length (shape x) - 1)) with (length (shape x)) by lia; exact Ea).
    destruct (@move_back _ (slice_last f 0 2 m) na a (del a (shape x)) m) as (g1 & E1 & S1 & P1); [apply (@row_slice _ f _ _ 0 2 m [] (m0 G) Sf B1)|exact Ea'|].
    destruct (@move_back _ (slice_last f 1 2 m) na a (del a (shape x)) m) as (g2 & E2 & S2 & P2); [apply (@row_slice _ f _ _ 1 2 m [] (m0 G) Sf B2)|exact Ea'|].
    rewrite E1. cbn [bind]. rewrite E2. cbn [bind]. exists g1, g2. split; [reflexivity|]. split; [exact S1|]. split; [congruence|]. intros p Hp. rewrite (P1 p Hp), (P2 p Hp).
    destruct (@row_slice _ f _ _ 0 2 m p (m0 G) Sf B1) as (_ & R1). destruct (@row_slice _ f _ _ 1 2 m p (m0 G) Sf B2) as (_ & R2). rewrite R1, R2.
    assert (RS : row f p = series x a p). { rewrite (row_map p Sf). unfold series. apply map_ext. intros t. apply Pf. exact Hp. } rewrite RS. split; reflexivity.
  Qed.
  Lemma bin_pixels binning r (x : nd G) na a : norm_axis (rank x) na = Ok a ->
    exists g, bin_nd G binning r x na na = Ok g /\ shape g = ins a (bin_length binning (nth a (shape x) 0)) (del a (shape x)) /\
      forall p, length p = length (del a (shape x)) -> series g a p = bin_data G binning r (series x a p).
  Proof.
    intros Ea. pose proof (axis_lt _ _ Ea) as La. unfold rank in La. pose proof (del_length (shape x) La) as LD. assert (SL : forall p, length (series x a p) = nth a (shape x) 0) by (intros p; unfold series; rewrite map_length, seq_length; reflexivity).
    unfold bin_nd, bin_data, bin_length. destruct (@halves_pixels x na a Ea) as (g1 & g2 & EH & S1 & S2 & P). cbv zeta in P, S1. set (m := (nth a (shape x) 0 - 1 + 1) / 2) in *.
    assert (NM : nth a (ins a m (del a (shape x))) 0 = m) by (apply nth_ins; lia).
    assert (PT : forall p t, length p = length (del a (shape x)) -> t < m -> at_ g1 (ins a t p) = nth (2 * t) (series x a p) (m0 G) /\ at_ g2 (ins a t p) = nth (1 + 2 * t) (series x a p) (m0 G)).
    { intros p t Hp Ht. destruct (P p Hp) as (P1 & P2). unfold series in P1 at 1. unfold series in P2 at 1. rewrite S2 in P2. rewrite S1, NM in P1, P2.
      assert (X : forall u v : nat -> G, map u (seq 0 m) = map v (seq 0 m) -> u t = v t) by (intros u v E; apply (f_equal (fun l => nth t l (m0 G))) in E; rewrite !nth_map_seq in E by exact Ht; exact E).
      split; [apply (X _ _ P1)|apply (X _ _ P2)]. }
    destruct (Z.eqb_spec binning BINNING_MEAN) as [_|_]; [|destruct (Z.eqb_spec binning BINNING_FIRST) as [_|_]].
    - unfold mean_nd. rewrite EH. cbn [bind]. eexists. split; [reflexivity|]. cbn [shape]. split; [exact S1|]. intros p Hp. unfold series at 1. cbn [shape at_]. rewrite S1, NM. unfold mean_data, strided. rewrite SL. replace (nth a (shape x) 0 - 1 - 0 + 1) with (nth a (shape x) 0 - 1 + 1) by lia. fold m.
      rewrite (combine_same (fun k => nth (0 + 2 * k) (series x a p) (m0 G)) (fun k => nth (1 + 2 * k) (series x a p) (m0 G)) (seq 0 m) (fun k => k)), map_map.
      apply map_ext_in. intros t Ht. apply in_seq in Ht. destruct (PT p t Hp) as (-> & ->); [lia|]. reflexivity.
    - unfold slice_nd. destruct (move_last x na Ea) as (f & -> & Sf & Pf). cbn [bind]. destruct (shape_last Sf) as (Ln & _). rewrite Ln. set (k := (nth a (shape x) 0 + 1) / 2).
      assert (B1 : forall j, j < k -> 0 + 2 * j < nth a (shape x) 0) by (unfold k; intros; lia).
      assert (Ea' : norm_axis (S (length (del a (shape x)))) na = Ok a) by (rewrite LD; unfold rank in Ea; replace (S (length (shape x) - 1)) with (length (shape x)) by lia; exact Ea).
      destruct (@move_back _ (slice_last f 0 2 k) na a (del a (shape x)) k) as (g & E1 & SG & PG); [apply (@row_slice _ f _ _ 0 2 k [] (m0 G) Sf B1)|exact Ea'|].
      exists g. split; [exact E1|]. split; [exact SG|]. intros p Hp. rewrite (PG p Hp). destruct (@row_slice _ f _ _ 0 2 k p (m0 G) Sf B1) as (_ & R1). rewrite R1.
      assert (RS : row f p = series x a p). { rewrite (row_map p Sf). unfold series. apply map_ext. intros t. apply Pf. exact Hp. } rewrite RS. unfold slice_data, strided. rewrite SL, Nat.sub_0_r. reflexivity.
    - unfold choose_nd. rewrite EH. cbn [bind]. eexists. split; [reflexivity|]. cbn [shape]. split; [exact S1|]. intros p Hp. unfold series at 1. cbn [shape at_]. rewrite S1, NM. unfold choose_data, strided. rewrite SL. replace (nth a (shape x) 0 - 1 - 0 + 1) with (nth a (shape x) 0 - 1 + 1) by lia. fold m.
      destruct r; apply map_ext_in; intros t Ht; apply in_seq in Ht; (destruct (PT p t Hp) as (Q1 & Q2); [lia|]); [exact Q2|exact Q1].
  Qed.
  Lemma bin_opt_pixels binning r (o : option (nd G)) s na a : (forall x, o = Some x -> shape x = s) -> norm_axis (length s) na = Ok a ->
    exists o', bin_opt G binning r o na na = Ok o' /\ (forall x, o' = Some x -> shape x = ins a (bin_length binning (nth a s 0)) (del a s)) /\
      forall p, length p = length (del a s) -> option_map (fun x => series x a p) o' = option_map (bin_data G binning r) (option_map (fun x => series x a p) o).
  Proof.
    intros Hs Ea. destruct o as [x|]; cbn [bin_opt].
    - specialize (Hs x eq_refl). destruct (@bin_pixels binning r x na a) as (g & -> & Sg & Pg); [unfold rank; rewrite Hs; exact Ea|]. cbn [bind]. rewrite Hs in Sg, Pg. eexists. split; [reflexivity|]. split; [intros y E; injection E as <-; exact Sg|].
      intros p Hp. cbn [option_map]. rewrite (Pg p Hp). reflexivity.
    - eexists. split; [reflexivity|]. split; [discriminate|reflexivity].
  Qed.
End Bin.

(** * Tuples of levels *)
Definition form (A : Type) (s : list nat) (flag : bool) (o : option (nd A)) : Prop := if flag then exists x, o = Some x /\ shape x = s else o = None.
(** The arrays of a tuple have the shape [s], the counts [cs], and those are there that the normalization needs *)
Definition tuple_form (K : Fld) (V : Type) (cross correlate : bool) (norm : Z) (s cs : list nat) (data : ndata K V) : Prop :=
  match data with
  | NCorr d c sq s1 s2 => correlate = true /\ shape d = s /\ shape c = cs /\ form s (has_flag norm NORM_STRUCTURED) sq /\ form s (has_flag norm NORM_SUBTRACTED) s1 /\ form s (has_flag norm NORM_SUBTRACTED && cross) s2
  | NDiff d c s1 s2 => correlate = false /\ shape d = s /\ shape c = cs /\ form s (has_flag norm NORM_SUBTRACTED) s1 /\ form s (has_flag norm NORM_SUBTRACTED && cross) s2
  | NBad _ _ => False
  end.
Lemma form_item A L s flag (o : option (nd A)) i : form (L :: s) flag o -> form s flag (option_map (fun x => item x i) o).
Proof. destruct flag; cbn [form]; [intros (x & -> & E); eexists; split; [reflexivity|]; cbn [item shape]; rewrite E; reflexivity|intros ->; reflexivity]. Qed.
Lemma level_form K V cross cor nm L s L' cs (slow : ndata K V) i : tuple_form cross cor nm (L :: s) (L' :: cs) slow -> tuple_form cross cor nm s cs (level_data slow i).
Proof.
  destruct slow as [d c sq s1 s2|d c s1 s2|]; cbn [tuple_form level_data]; [intros (H0 & H1 & H2 & H3 & H4 & H5)|intros (H0 & H1 & H2 & H4 & H5)|auto];
    (split; [exact H0|]); cbn [item shape]; rewrite H1, H2; cbn [tl]; repeat split; try reflexivity; eapply form_item; eassumption.
Qed.
Lemma kept_form A s flag (o x : option (nd A)) : form s flag o -> kept flag o x -> form s flag x.
Proof. intros H (K1 & K2). destruct flag; cbn [form] in *; [destruct H as (y & -> & E); destruct (K1 y eq_refl) as (z & -> & E'); exists z; split; [reflexivity|congruence]|rewrite (K2 eq_refl); exact H]. Qed.
Arguments kept_form {A s flag o x} _ _.
Lemma alike_cross_form K V cor nm s cs (d r : ndata K V) : tuple_form true cor nm s cs d -> cross_alike nm d r -> tuple_form true cor nm s cs r.
Proof.
  destruct d as [d c sq s1 s2|d c s1 s2|], r as [d' c' sq' s1' s2'|d' c' s1' s2'|]; cbn [tuple_form cross_alike]; try contradiction; rewrite ?andb_true_r.
  - intros (H0 & H1 & H2 & H3 & H4 & H5) (E1 & E2 & K3 & K4 & K5). repeat split; try congruence; [exact (kept_form H3 K3)|exact (kept_form H4 K4)|exact (kept_form H5 K5)].
  - intros (H0 & H1 & H2 & H4 & H5) (E1 & E2 & K4 & K5). repeat split; try congruence; [exact (kept_form H4 K4)|exact (kept_form H5 K5)].
Qed.
Lemma alike_auto_form K V (cor : bool) nm s cs (d r : ndata K V) : (cor = false -> has_flag nm NORM_SUBTRACTED = false) -> tuple_form false cor nm s cs d -> auto_alike nm d r -> tuple_form false cor nm s cs r.
Proof.
  intros HN. destruct d as [d c sq s1 s2|d c s1 s2|], r as [d' c' sq' s1' s2'|d' c' s1' s2'|]; cbn [tuple_form auto_alike]; try contradiction; rewrite ?andb_false_r.
  - intros (H0 & H1 & H2 & H3 & H4 & H5) (E1 & E2 & K3 & K4 & K5). repeat split; try congruence; [exact (kept_form H3 K3)|exact (kept_form H4 K4)].
  - intros (H0 & H1 & H2 & H4 & H5) (E1 & E2 & K4 & K5). rewrite (HN H0) in *. repeat split; try congruence; assumption.
Qed.
(** Writing one level *)
Lemma row_item_set A (x y : nd A) L s m i p : shape x = (L :: s ++ [m])%list -> shape y = (s ++ [m])%list -> row (item (set_item x i y) i) p = row y p.
Proof.
  intros Ex Ey. rewrite (row_map p Ey). assert (E : shape (item (set_item x i y) i) = (s ++ [m])%list) by (cbn [item set_item shape]; rewrite Ex; reflexivity). rewrite (row_map p E). apply map_ext. intros t. cbn [item set_item at_ hd tl]. rewrite Nat.eqb_refl. reflexivity.
Qed.
Lemma row_item_other A (x y : nd A) i l p : l <> i -> row (item (set_item x i y) l) p = row (item x l) p.
Proof. intros H. unfold row. cbn [item set_item shape at_ hd tl]. rewrite (proj2 (Nat.eqb_neq l i) H). reflexivity. Qed.
Arguments row_item_set {A x y L s m} i p _ _.
Lemma rowc_item_set A (x y : nd A) L n i : shape x = [L; n] -> shape y = [n] -> rowc (item (set_item x i y) i) = rowc y.
Proof. intros Ex Ey. unfold rowc. cbn [item set_item shape at_ hd tl]. rewrite Ex, Ey, Nat.eqb_refl. reflexivity. Qed.
Arguments rowc_item_set {A x y L n} i _ _.
Lemma rowc_item_other A (x y : nd A) i l : l <> i -> rowc (item (set_item x i y) l) = rowc (item x l).
Proof. intros H. unfold rowc. cbn [item set_item shape at_ hd tl]. rewrite (proj2 (Nat.eqb_neq l i) H). reflexivity. Qed.
Lemma set_opt_pixels A L s m flag i (x y : option (nd A)) : form (L :: s ++ [m]) flag x -> form (s ++ [m]) flag y ->
  form (L :: s ++ [m]) flag (set_opt x i y) /\ (forall p, option_map (fun z => row z p) (option_map (fun z => item z i) (set_opt x i y)) = option_map (fun z => row z p) y) /\
  (forall l p, l <> i -> option_map (fun z => row z p) (option_map (fun z => item z l) (set_opt x i y)) = option_map (fun z => row z p) (option_map (fun z => item z l) x)).
Proof.
  destruct flag; cbn [form].
  - intros (x' & -> & Ex) (y' & -> & Ey). cbn [set_opt option_map]. split; [eexists; split; [reflexivity|exact Ex]|]. split; [intros p; rewrite (row_item_set i p Ex Ey); reflexivity|]. intros l p Hl. rewrite row_item_other by exact Hl. reflexivity.
  - intros -> ->. split; [reflexivity|]. split; reflexivity.
Qed.
Arguments set_opt_pixels {A L s m flag} i {x y} _ _.
Lemma set_level_pixels K V cross cor nm L s m n (slow row : ndata K V) i : tuple_form cross cor nm (L :: s ++ [m]) [L; n] slow -> tuple_form cross cor nm (s ++ [m]) [n] row ->
  tuple_form cross cor nm (L :: s ++ [m]) [L; n] (set_level slow i row) /\ (forall p, pix (level_data (set_level slow i row) i) p = pix row p) /\
  (forall l p, l <> i -> pix (level_data (set_level slow i row) l) p = pix (level_data slow l) p).
Proof.
  destruct slow as [d c sq s1 s2|d c s1 s2|], row as [d' c' sq' s1' s2'|d' c' s1' s2'|]; cbn [tuple_form]; try contradiction; try (intros (? & _) (? & _); congruence).
  - intros (H0 & H1 & H2 & H3 & H4 & H5) (H0' & H1' & H2' & H3' & H4' & H5'). destruct (set_opt_pixels i H3 H3') as (A1 & A2 & A3). destruct (set_opt_pixels i H4 H4') as (B1 & B2 & B3). destruct (set_opt_pixels i H5 H5') as (C1 & C2 & C3).
    cbn [set_level tuple_form level_data pix]. split; [cbn [set_item shape]; repeat split; assumption|]. split.
    + intros p. rewrite (row_item_set i p H1 H1'), (rowc_item_set i H2 H2'), A2, B2, C2. reflexivity.
    + intros l p Hl. rewrite (row_item_other _ _ _ Hl), (rowc_item_other _ _ Hl), (A3 l p Hl), (B3 l p Hl), (C3 l p Hl). reflexivity.
  - intros (H0 & H1 & H2 & H4 & H5) (H0' & H1' & H2' & H4' & H5'). destruct (set_opt_pixels i H4 H4') as (B1 & B2 & B3). destruct (set_opt_pixels i H5 H5') as (C1 & C2 & C3).
    cbn [set_level tuple_form level_data pix]. split; [cbn [set_item shape]; repeat split; assumption|]. split.
    + intros p. rewrite (row_item_set i p H1 H1'), (rowc_item_set i H2 H2'), B2, C2. reflexivity.
    + intros l p Hl. rewrite (row_item_other _ _ _ Hl), (rowc_item_other _ _ Hl), (B3 l p Hl), (C3 l p Hl). reflexivity.
Qed.
Lemma tuple_shaped K V cross cor nm s m n (d : ndata K V) : tuple_form cross cor nm (s ++ [m]) [n] d -> shaped d s.
Proof.
  assert (X : forall A flag (o : option (nd A)), form (s ++ [m]) flag o -> len_ok s o) by (intros A [] o; cbn [form]; [intros (x & -> & E) y Ey; injection Ey as <-; exists m; exact E|intros -> y Ey; discriminate Ey]).
  destruct d as [d c sq s1 s2|d c s1 s2|]; cbn [tuple_form shaped]; [intros (H0 & H1 & H2 & H3 & H4 & H5)|intros (H0 & H1 & H2 & H4 & H5)|auto]; (split; [exists m; exact H1|]); (split; [exists n; exact H2|]); repeat split; eapply X; eassumption.
Qed.

(** The arrays of zeros *)
Lemma zeros_moved A (z : A) axis L ks m : axis = (-1)%Z \/ axis = (-2)%Z /\ ks <> [] ->
  exists x, _transpose_data (zeros (if (axis =? -1)%Z then L :: ks ++ [m] else L :: removelast ks ++ m :: skipn (length ks - 1) ks)%list z) axis = Ok x /\ shape x = (L :: ks ++ [m])%list /\ forall p, at_ x p = z.
Proof.
  intros [E|[E Hk]]; subst axis; cbn [Z.eqb Pos.eqb].
  - unfold _transpose_data. change (L :: ks ++ [m])%list with ((L :: ks) ++ [m])%list. destruct (@keep_last _ (zeros ((L :: ks) ++ [m])%list z) (L :: ks) m eq_refl) as (y & Ey & Sy & _).
    exists y. split; [exact Ey|]. split; [exact Sy|]. intros p. unfold moveaxis in Ey. destruct (norm_axis _ _); [|discriminate Ey]. cbn [bind] in Ey. apply ok_same in Ey. subst y. reflexivity.
  - destruct (exists_last Hk) as (k & w & ->). rewrite removelast_last, app_length. cbn [length]. replace (length k + 1 - 1) with (length k) by lia. rewrite (skipn_end k [w] eq_refl).
    unfold _transpose_data. change (L :: k ++ [m; w])%list with ((L :: k) ++ [m; w])%list. destruct (@swap_last _ (zeros ((L :: k) ++ [m; w])%list z) (L :: k) m w eq_refl) as (y & Ey & Sy & _).
    exists y. split; [exact Ey|]. split; [rewrite Sy, <- app_assoc; reflexivity|]. intros p. unfold moveaxis in Ey. destruct (norm_axis _ _); [|discriminate Ey]. cbn [bind] in Ey. destruct (norm_axis _ _) in Ey; [|discriminate Ey]. cbn [bind] in Ey. apply ok_same in Ey. subst y. reflexivity.
Qed.
Lemma map_const A B (z : B) (l : list A) : map (fun _ => z) l = repeat z (length l).
Proof. induction l as [|x l IH]; [reflexivity|]. cbn [map length repeat]. f_equal. exact IH. Qed.
Lemma row_zero A (x : nd A) (z : A) L s m i p : shape x = (L :: s ++ [m])%list -> (forall q, at_ x q = z) -> row (item x i) p = repeat z m.
Proof.
  intros E H. assert (E' : shape (item x i) = (s ++ [m])%list) by (cbn [item shape]; rewrite E; reflexivity). rewrite (row_map p E'). rewrite (map_ext _ (fun _ => z)) by (intros t; apply H). rewrite map_const, seq_length. reflexivity.
Qed.
Arguments row_zero {A x z L s m} i p _ _.
Lemma slow_pixels K V (zero : V) complex cross correlate nm axis L n ks : axis = (-1)%Z \/ axis = (-2)%Z /\ ks <> [] ->
  exists slow, @slow_data K V zero complex cross correlate nm axis L n ks = Ok slow /\ tuple_form cross correlate nm (L :: ks ++ [if complex then n * 2 + 1 else n]) [L; n] slow /\
    forall l p, pix (level_data slow l) p = slow_row K zero complex cross correlate nm n.
Proof.
  intros Ha. unfold slow_data. cbv zeta. set (m := if complex then n * 2 + 1 else n).
  destruct (@zeros_moved _ zero axis L ks m Ha) as (x & -> & Sx & Zx). destruct (@zeros_moved _ (f0 K) axis L ks m Ha) as (y & -> & Sy & Zy). destruct (@zeros_moved _ (c0 K) axis L ks m Ha) as (z & -> & Sz & Zz). cbn [bind].
  unfold slow_row. fold m.
  assert (RC : forall l, rowc (item (zeros [L; n] 0) l) = repeat 0 n) by (intros l; unfold rowc; cbn [item zeros shape tl at_ last]; rewrite map_const, seq_length; reflexivity).
  destruct correlate; [rewrite andb_true_r|rewrite andb_false_r].
  - destruct (has_flag nm NORM_STRUCTURED) eqn:E1, (has_flag nm NORM_SUBTRACTED) eqn:E2, cross; cbn [bind andb]; eexists; (split; [reflexivity|]); (split; [cbn [tuple_form]; rewrite E1, E2; repeat split; try exact Sx; try reflexivity; cbn [andb form]; first [reflexivity | eexists; split; [reflexivity|first [exact Sy|exact Sz]]]|]);
      intros l p; cbn [level_data pix option_map]; rewrite RC, (row_zero l p Sx Zx), ?(row_zero l p Sy Zy), ?(row_zero l p Sz Zz); reflexivity.
  - destruct (has_flag nm NORM_SUBTRACTED) eqn:E2, cross; cbn [bind andb]; eexists; (split; [reflexivity|]); (split; [cbn [tuple_form]; rewrite E2; repeat split; try exact Sx; try reflexivity; cbn [andb form]; first [reflexivity | eexists; split; [reflexivity|first [exact Sy|exact Sz]]]|]);
      intros l p; cbn [level_data pix option_map]; rewrite RC, (row_zero l p Sx Zx), ?(row_zero l p Sz Zz); reflexivity.
Qed.
