(** C95: multilevel averages, log averages and merged results of arrays of any number of axes. *)
From Coq Require Import ZifyBool ZifyNat.
From Verif Require Import Base Ordered AvgModel Kernels KernelProofs VecModel VecProofs CoreProofs3 NormModel NormMode3 NormArrayModel NormArrayProofs MultiModel MultiProofs RegularProofs LevelModel LevelProofs LevelProofs2 LogFoldModel LevelArrayModel LevelArrayProofs Examples.
Set Implicit Arguments.

Lemma flat_map_length_const A B m (f : A -> list B) l : (forall x, In x l -> length (f x) = m) -> length (flat_map f l) = length l * m.
Proof. induction l as [|x l IH]; intros H; [reflexivity|]. cbn [flat_map length]. rewrite app_length, (H x) by (left; reflexivity). rewrite IH by (intros y Hy; apply H; right; exact Hy). reflexivity. Qed.
Lemma complex_conv_length (K : OFld) junk (l l' : list (Cx K)) : complex_conv K junk l = Ok l' -> length l' = length l.
Proof. intros E. destruct (@complex_conv_parts K junk _ _ E) as (H & _). destruct (@complex_conv_ok K junk l H) as (l2 & E2 & HL). rewrite E in E2. injection E2 as <-. exact HL. Qed.
Lemma folded_length (K : OFld) (d : list (Cx K)) : length (folded_data K d) = (length d + 1) / 2.
Proof.
  unfold folded_data, fold_data. cbn [negb Z.eqb Z.leb Z.compare Pos.eqb orb]. set (n := (length d + 1) / 2). destruct d as [|x l]; [reflexivity|].
  assert (Hn : n = (length l + 2) / 2) by (unfold n; cbn [length]; f_equal; lia). destruct n as [|m] eqn:En; [cbn [length] in *; lia|]. cbn [firstn length]. f_equal. rewrite map_length, combine_length, firstn_length, length_rev_slice by (cbn [length]; lia). lia.
Qed.
Lemma fold_row_length (K : OFld) (d : list (option (Cx K))) : length (fold_row K d) = (length d + 1) / 2.
Proof.
  unfold fold_row. set (n := (length d + 1) / 2). destruct d as [|x l]; [reflexivity|].
  assert (Hn : n = (length l + 2) / 2) by (unfold n; cbn [length]; f_equal; lia). destruct n as [|m] eqn:En; [cbn [length] in *; lia|]. cbn [firstn length]. f_equal. rewrite map_length, combine_length, firstn_length, length_rev_slice by (cbn [length]; lia). lia.
Qed.
Lemma fold_nd_row (K : OFld) (x : nd (Cx K)) s n p : shape x = s ++ [n] -> shape (fold_nd K x) = s ++ [(n + 1) / 2] /\ row (fold_nd K x) p = folded_data K (row x p).
Proof.
  intros E. unfold fold_nd. destruct (shape_last E) as [E1 _]. rewrite E1. apply (@row_by_rows _ _ (c0 K) (folded_data K) ((n + 1) / 2) x s n p E). rewrite folded_length, (@row_length _ x s n p E). reflexivity.
Qed.
Lemma fold_rows_nd_row (K : OFld) (x : nd (option (Cx K))) L s n : shape x = L :: s ++ [n] -> shape (fold_rows_nd K x) = L :: s ++ [(n + 1) / 2] /\ forall p, pixel_levels (fold_rows_nd K x) p = map (fold_row K) (pixel_levels x p).
Proof.
  intros E. assert (E' : shape x = (L :: s) ++ [n]) by exact E. unfold fold_rows_nd. destruct (shape_last E') as [E1 E2]. rewrite E1.
  assert (G : forall q, shape (by_rows None (fold_row K) ((n + 1) / 2) x) = (L :: s) ++ [(n + 1) / 2] /\ row (by_rows None (fold_row K) ((n + 1) / 2) x) q = fold_row K (row x q)).
  { intros q. apply (@row_by_rows _ _ None (fold_row K) ((n + 1) / 2) x (L :: s) n q E'). rewrite fold_row_length, (@row_length _ x (L :: s) n q E'). reflexivity. }
  split; [apply (G [])|]. intros p. unfold pixel_levels. destruct (G []) as [G1 _]. rewrite G1, E. cbn [app hd]. rewrite map_map. apply map_ext. intros l. apply G.
Qed.
Lemma every_index s : forall p, valid p s -> In p (indices s).
Proof.
  induction s as [|d s IH]; intros p H; inversion H as [|a b p' s' H1 H2]; subst; [left; reflexivity|]. cbn [indices]. apply in_flat_map. exists a. split; [apply in_seq; lia|]. apply in_map. apply IH. exact H2.
Qed.
Lemma multilevel_nd_pixel (K : OFld) junk (data : nd (Cx K)) s n size b r : shape data = s ++ [n] -> _inspect_binning b = Ok b -> (2 <= size)%Z ->
  exists out, multilevel_nd (c0 K) (complex_conv K junk) data (Z.to_nat size) b r = Ok out /\ shape out = S (levels_of (Z.to_nat size) n) :: s ++ [Z.to_nat size] /\
    forall p, valid p s -> multilevel (c0 K) (complex_conv K junk) (row data p) size b r = Ok (pixel_levels out p).
Proof.
  intros E Hb Hs. destruct (shape_last E) as [E1 E2]. unfold multilevel_nd, last_of. assert (R : rank data =? 0 = false) by (unfold rank; rewrite E, app_length; cbn [length]; lia). rewrite R, E1, E2. cbn [bind].
  destruct (level_rows_nd _ _ _ _ _ _ _ _) as [rows|e] eqn:EL; cbn [bind].
  - destruct (@level_rows_nd_ok _ (c0 K) (complex_conv K junk) (@complex_conv_length K junk) _ _ _ _ _ _ _ _ _ E EL) as (H1 & H2 & H3). destruct (@stack_levels _ None s (Z.to_nat size) rows [] H2) as [HS _].
    eexists. split; [reflexivity|]. split; [rewrite HS, H1; reflexivity|]. intros p Hp. unfold multilevel. rewrite Hb. cbn [bind]. replace (size <? 2)%Z with false by lia. rewrite (@row_length _ data s n p E).
    assert (Hi : In p (indices s)) by (apply every_index; exact Hp). rewrite (H3 p Hi). destruct (@stack_levels _ None s (Z.to_nat size) rows p H2) as [_ HP]. rewrite HP. reflexivity.
  - exfalso. destruct (@level_rows_nd_raise _ (c0 K) (complex_conv K junk) (@complex_conv_length K junk) _ _ _ _ _ _ _ _ _ E EL) as (p & Hp & Ep).
    destruct (@multilevel_shape (Cx K) (c0 K) (complex_conv K junk) (@complex_conv_ok K junk) (row data p) size b r Hb Hs) as (rows & EM & _). unfold multilevel in EM. rewrite Hb in EM. cbn [bind] in EM. replace (size <? 2)%Z with false in EM by lia. rewrite (@row_length _ data s n p E) in EM. congruence.
Qed.

(** The levels of a pixel are those of its own delays; every pixel with the same random choices. *)
Theorem C95_multilevel (K : OFld) junk c (data : nd (Cx K)) s n size binning fold r : shape data = s ++ [n] ->
  (forall p, valid p s -> multilevel_any K junk c (row data p) size binning fold r = (let* out := multilevel_array K junk c data size binning fold r in Ok (pixel_levels out p))) /\
  (forall out, multilevel_array K junk c data size binning fold r = Ok out -> exists L, shape out = S L :: s ++ [Z.to_nat size]).
Proof.
  intros E. unfold multilevel_any, multilevel_array. destruct (_inspect_binning binning) as [b|e] eqn:Hb; cbn [bind]; [|split; [reflexivity|discriminate]].
  assert (b = binning) as -> by (unfold _inspect_binning in Hb; destruct (_ || _)%bool; congruence). destruct (size <? 2)%Z eqn:Hs; [split; [reflexivity|discriminate]|].
  assert (D : exists d n', shape d = s ++ [n'] /\ (forall p, decide_fold c fold (folded_data K (row data p)) (row data p) = (let* d := decide_fold c fold (fold_nd K data) data in Ok (row d p))) /\ (forall d', decide_fold c fold (fold_nd K data) data = Ok d' -> d' = d)).
  { unfold decide_fold. destruct c; [destruct fold as [[|]|]|].
    - exists (fold_nd K data), ((n + 1) / 2). split; [apply (@fold_nd_row K data s n [] E)|]. split; [intros p; cbn [bind]; destruct (@fold_nd_row K data s n p E) as [_ ->]; reflexivity|intros d' X; congruence].
    - exists data, n. split; [exact E|]. split; [reflexivity|intros d' X; congruence].
    - exists data, n. split; [exact E|]. split; [reflexivity|discriminate].
    - exists data, n. split; [exact E|]. split; [reflexivity|intros d' X; congruence]. }
  destruct D as (d & n' & Ed & D1 & D2). destruct (@multilevel_nd_pixel K junk d s n' size binning r Ed Hb ltac:(lia)) as (out & EO & SO & HO). split.
  - intros p Hp. rewrite D1. destruct (decide_fold c fold (fold_nd K data) data) as [d'|] eqn:ED; cbn [bind]; [|reflexivity]. rewrite (D2 d' eq_refl), EO. cbn [bind]. apply HO. exact Hp.
  - intros out'. destruct (decide_fold c fold (fold_nd K data) data) as [d'|] eqn:ED; cbn [bind]; [|discriminate]. rewrite (D2 d' eq_refl), EO. intros X. injection X as <-. eexists. exact SO.
Qed.
Print Assumptions C95_multilevel.
(** merge_multilevel: the levels of each pixel are merged along the last axis, whatever axes lie
    between; rows of odd length and no levels at all are refused as for one pixel. *)
Theorem C95_merge_levels (W : Type) (data : nd W) L s n : shape data = L :: s ++ [n] ->
  (forall p, valid p s -> merge_half n (pixel_levels data p) = (let* xy := merge_half_nd data in Ok (fst xy, row (snd xy) p)) /\
                          merge_full n (pixel_levels data p) = (let* xy := merge_full_nd data in Ok (fst xy, row (snd xy) p))) /\
  (forall x y, merge_half_nd data = Ok (x, y) -> shape y = s ++ [length x]) /\
  (forall x y, merge_full_nd data = Ok (x, y) -> shape y = s ++ [length x]).
Proof.
  intros E. assert (E' : shape data = (L :: s) ++ [n]) by exact E. destruct (shape_last E') as [E1 E2].
  assert (R : rank data = S (S (length s))) by (unfold rank; rewrite E; cbn [length]; rewrite app_length; cbn [length]; lia).
  destruct (Nat.eq_dec (n mod 2) 0) as [Hn|Hn].
  - destruct (@merge_half_pixel _ _ _ _ _ E Hn) as (x & y & EH & SH & HH).
    assert (LX : length x = n / 2 * L). { unfold merge_half_nd, last_of in EH. rewrite R in EH. cbn [Nat.eqb bind] in EH. rewrite E1, Hn in EH. cbn [Nat.eqb negb] in EH. destruct (reshape_to _ _) as [z|]; cbn [bind] in EH; [|discriminate]. apply ok_same in EH. apply (f_equal fst) in EH. cbn [fst] in EH. rewrite <- EH.
      rewrite E. cbn [hd]. rewrite (@flat_map_length_const _ _ (n / 2)); [rewrite seq_length, (Nat.mul_comm L); reflexivity|]. intros i _. rewrite map_length, skipn_length, seq_length. lia. }
    split; [|split].
    + intros p Hp. rewrite EH. cbn [bind fst snd]. split; [apply HH; exact Hp|]. destruct L as [|L].
      * unfold pixel_levels. rewrite E. cbn [hd seq map merge_full]. unfold merge_full_nd, last_of. rewrite R, E. reflexivity.
      * destruct (@merge_full_pixel _ _ _ _ _ E Hn) as (xf & yf & EF & SF & HF). rewrite EF. cbn [bind fst snd]. apply HF. exact Hp.
    + intros x' y' X. rewrite EH in X. injection X as <- <-. rewrite SH, LX. reflexivity.
    + destruct L as [|L]; [intros x' y' X; unfold merge_full_nd, last_of in X; rewrite R, E in X; discriminate|].
      destruct (@merge_full_pixel _ _ _ _ _ E Hn) as (xf & yf & EF & SF & HF). rewrite EF. intros x' y' X. injection X as <- <-. rewrite SF. do 2 f_equal.
      unfold merge_full_nd, last_of in EF. rewrite R in EF. cbn [Nat.eqb bind] in EF. rewrite E1 in EF. rewrite E in EF. cbn [hd Nat.eqb] in EF.
      assert (EI : shape (items_from_1 data) = L :: s ++ [n]) by (cbn [shape items_from_1]; rewrite E; cbn [hd tl]; rewrite Nat.sub_succ, Nat.sub_0_r; reflexivity).
      assert (EI' : shape (items_from_1 data) = (L :: s) ++ [n]) by exact EI. destruct (shape_last EI') as [I1 I2]. unfold merge_half_nd, last_of in EF. assert (RI : rank (items_from_1 data) = S (S (length s))) by (unfold rank; rewrite EI; cbn [length]; rewrite app_length; cbn [length]; lia).
      rewrite RI in EF. cbn [Nat.eqb bind] in EF. rewrite I1, Hn in EF. cbn [Nat.eqb negb] in EF. destruct (reshape_to _ _) as [z|]; cbn [bind fst snd] in EF; [|discriminate]. destruct (concat_last _ _) as [w|]; cbn [bind] in EF; [|discriminate]. apply ok_same in EF. apply (f_equal fst) in EF. cbn [fst] in EF. rewrite <- EF.
      rewrite app_length, seq_length, map_length. rewrite EI. cbn [hd]. rewrite (@flat_map_length_const _ _ (n / 2)); [rewrite seq_length, (Nat.mul_comm L); reflexivity|]. intros i _. rewrite map_length, skipn_length, seq_length. lia.
  - assert (Ho : n mod 2 = 1) by lia. assert (B1 : merge_half_nd data = Raise ValueError). { unfold merge_half_nd, last_of. rewrite R. cbn [Nat.eqb bind]. rewrite E1, Ho. reflexivity. }
    assert (B2 : merge_full_nd data = Raise (if L =? 0 then IndexError else ValueError)).
    { unfold merge_full_nd, last_of. rewrite R. cbn [Nat.eqb bind]. rewrite E1, E. cbn [hd]. destruct L as [|L]; [reflexivity|]. cbn [Nat.eqb].
      assert (EI : shape (items_from_1 data) = (L :: s) ++ [n]) by (cbn [shape items_from_1]; rewrite E; cbn [hd tl]; rewrite Nat.sub_succ, Nat.sub_0_r; reflexivity). destruct (shape_last EI) as [I1 _].
      unfold merge_half_nd, last_of. assert (RI : rank (items_from_1 data) = S (S (length s))) by (unfold rank; rewrite EI, app_length; cbn [length]; lia). rewrite RI. cbn [Nat.eqb bind]. rewrite I1, Ho. reflexivity. }
    rewrite B1, B2. split; [|split; discriminate]. intros p _. unfold pixel_levels. rewrite E. cbn [hd bind]. split.
    + apply (@merge_odd W n _ Ho).
    + destruct L as [|L]; [reflexivity|]. apply (@merge_odd W n _ Ho). discriminate.
Qed.
Print Assumptions C95_merge_levels.

(** log_average: times and values of each pixel are those of its own delays. *)
Theorem C95_average (K : OFld) junk c (data : nd (Cx K)) s n size fold r : shape data = s ++ [n] ->
  (forall p, valid p s -> log_average_any K junk c (row data p) size fold r = (let* xy := log_average_array K junk c data size fold r in Ok (fst xy, row (snd xy) p))) /\
  (forall x y, log_average_array K junk c data size fold r = Ok (x, y) -> shape y = s ++ [length x]).
Proof.
  intros E. unfold log_average_any, log_average_array. destruct (size <? 1)%Z; [split; [reflexivity|discriminate]|]. destruct (@C95_multilevel K junk c data s n (size * 2) BINNING_MEAN fold r E) as [H1 H2].
  destruct (multilevel_array _ _ _ _ _ _ _ _) as [out|e] eqn:EM; cbn [bind] in *.
  - destruct (H2 out eq_refl) as (L & EO). destruct (@C95_merge_levels _ out _ _ _ EO) as (M1 & _ & M2). split; [|exact M2]. intros p Hp. rewrite (H1 p Hp). cbn [bind]. apply (M1 p Hp).
  - split; [|discriminate]. intros p Hp. rewrite (H1 p Hp). reflexivity.
Qed.
Print Assumptions C95_average.

(** log_merge: likewise, the levels of the slow data along the first axis. *)
Theorem C95_merge (K : OFld) junk c1 c2 (lin : nd (Cx K)) (multi : nd (option (Cx K))) L s nf ns binning fold r : shape lin = s ++ [nf] -> shape multi = L :: s ++ [ns] ->
  (forall p, valid p s -> log_merge_any K junk c1 c2 (row lin p) ns (pixel_levels multi p) binning fold r = (let* xy := log_merge_array K junk c1 c2 lin multi binning fold r in Ok (fst xy, row (snd xy) p))) /\
  (forall x y, log_merge_array K junk c1 c2 lin multi binning fold r = Ok (x, y) -> shape y = s ++ [length x]).
Proof.
  intros El Em. unfold log_merge_any, log_merge_array. destruct (_inspect_binning binning) as [b|e] eqn:Hb; cbn [bind]; [|split; [reflexivity|discriminate]].
  assert (b = binning) as -> by (unfold _inspect_binning in Hb; destruct (_ || _)%bool; congruence).
  (* the decision about the fast data *)
  assert (D1 : decide_fold c1 fold (fold_nd K lin) lin = Raise ValueError /\ (forall p, decide_fold c1 fold (folded_data K (row lin p)) (row lin p) = Raise ValueError) \/
    exists d n', shape d = s ++ [n'] /\ decide_fold c1 fold (fold_nd K lin) lin = Ok d /\ forall p, decide_fold c1 fold (folded_data K (row lin p)) (row lin p) = Ok (row d p)).
  { unfold decide_fold. destruct c1; [destruct fold as [[|]|]|]; [right|right|left|right].
    - exists (fold_nd K lin), ((nf + 1) / 2). split; [apply (@fold_nd_row K lin s nf [] El)|]. split; [reflexivity|]. intros p. destruct (@fold_nd_row K lin s nf p El) as [_ ->]. reflexivity.
    - exists lin, nf. repeat split; try assumption.
    - split; reflexivity.
    - exists lin, nf. repeat split; try assumption. }
  destruct D1 as [[D1 D1']|(d & n' & Ed & D1 & D1')]; rewrite D1; [split; [intros p _; rewrite D1'; reflexivity|discriminate]|]. cbn [bind].
  assert (D2 : decide_fold c2 fold (fold_rows_nd K multi) multi = Raise ValueError /\ (forall p, decide_fold c2 fold (map (fold_row K) (pixel_levels multi p), (ns + 1) / 2) (pixel_levels multi p, ns) = Raise ValueError) \/
    exists m n2, shape m = L :: s ++ [n2] /\ decide_fold c2 fold (fold_rows_nd K multi) multi = Ok m /\ forall p, decide_fold c2 fold (map (fold_row K) (pixel_levels multi p), (ns + 1) / 2) (pixel_levels multi p, ns) = Ok (pixel_levels m p, n2)).
  { destruct (@fold_rows_nd_row K multi L s ns Em) as [F1 F2]. unfold decide_fold. destruct c2; [destruct fold as [[|]|]|]; [right|right|left|right].
    - exists (fold_rows_nd K multi), ((ns + 1) / 2). split; [exact F1|]. split; [reflexivity|]. intros p. rewrite F2. reflexivity.
    - exists multi, ns. repeat split; try assumption.
    - split; reflexivity.
    - exists multi, ns. repeat split; try assumption. }
  destruct D2 as [[D2 D2']|(m & n2 & Emm & D2 & D2')]; rewrite D2; [split; [intros p _; rewrite D1'; cbn [bind]; rewrite D2'; reflexivity|discriminate]|]. cbn [bind].
  assert (Emm' : shape m = (L :: s) ++ [n2]) by exact Emm. destruct (shape_last Ed) as [Ed1 _]. destruct (shape_last Emm') as [Em1 _].
  unfold last_of. assert (R1 : rank d =? 0 = false) by (unfold rank; rewrite Ed, app_length; cbn [length]; lia). assert (R2 : rank m =? 0 = false) by (unfold rank; rewrite Emm', app_length; cbn [length]; lia). rewrite R1, R2, Ed1, Em1. cbn [bind].
  assert (LD : forall p, length (row d p) = n') by (intros p; exact (@row_length _ d s n' p Ed)).
  destruct (@C95_multilevel K junk c1 d s n' (Z.of_nat n2) binning (Some false) r Ed) as [H1 H2]. rewrite Nat2Z.id in H2. destruct (@C95_merge_levels _ m _ _ _ Emm) as (S1 & S2 & _).
  destruct (Nat.eqb_spec n2 0) as [Z|Z]; [split; [|discriminate]; intros p _; rewrite D1'; cbn [bind]; rewrite D2'; cbn [bind]; replace (n2 =? 0) with true by lia; reflexivity|].
  destruct (negb (n' mod n2 =? 0)) eqn:EP; [split; [|discriminate]; intros p _; rewrite D1'; cbn [bind]; rewrite D2'; cbn [bind]; rewrite LD, EP; replace (n2 =? 0) with false by lia; reflexivity|].
  destruct (multilevel_array _ _ _ _ _ _ _ _) as [out|e] eqn:EM; cbn [bind] in *;
    [|split; [|discriminate]; intros p Hp; rewrite D1'; cbn [bind]; rewrite D2'; cbn [bind]; rewrite LD, EP, (H1 p Hp); replace (n2 =? 0) with false by lia; reflexivity].
  destruct (H2 out eq_refl) as (L' & EO). destruct (@C95_merge_levels _ out _ _ _ EO) as (M1 & _ & M2).
  destruct (merge_full_nd out) as [[xf yf]|e] eqn:EF; cbn [bind fst snd] in *;
    [|split; [|discriminate]; intros p Hp; rewrite D1'; cbn [bind]; rewrite D2'; cbn [bind]; rewrite LD, EP, (H1 p Hp); replace (n2 =? 0) with false by lia; cbn [bind]; rewrite (proj2 (M1 p Hp)); reflexivity].
  destruct (merge_half_nd m) as [[xs ys]|e] eqn:EH; cbn [bind fst snd] in *;
    [|split; [|discriminate]; intros p Hp; rewrite D1'; cbn [bind]; rewrite D2'; cbn [bind]; rewrite LD, EP, (H1 p Hp); replace (n2 =? 0) with false by lia; cbn [bind]; rewrite (proj2 (M1 p Hp)); cbn [bind]; rewrite (proj1 (S1 p Hp)); reflexivity].
  destruct (@row_concat _ yf ys s _ _ (M2 _ _ eq_refl) (S2 _ _ eq_refl)) as (y & EY & SY & HY). rewrite EY. cbn [bind fst snd]. split.
  - intros p Hp; rewrite D1'; cbn [bind]; rewrite D2'; cbn [bind]; rewrite LD, EP, (H1 p Hp); replace (n2 =? 0) with false by lia; cbn [bind]; rewrite (proj2 (M1 p Hp)); cbn [bind]; rewrite (proj1 (S1 p Hp)); cbn [bind fst snd]. rewrite HY. reflexivity.
  - intros x' y' X. injection X as <- <-. rewrite SY, app_length, map_length. reflexivity.
Qed.
Print Assumptions C95_merge.

(** Fast and slow data of different pixels are not merged. *)
Theorem C95_pixels (K : OFld) junk c1 c2 (lin : nd (Cx K)) (multi : nd (option (Cx K))) L s1 s2 nf ns binning fold r : shape lin = s1 ++ [nf] -> shape multi = L :: s2 ++ [ns] -> s1 <> s2 ->
  exists e, log_merge_array K junk c1 c2 lin multi binning fold r = Raise e.
Proof.
  intros El Em N. unfold log_merge_array. destruct (_inspect_binning binning) as [b|e]; cbn [bind]; [|eexists; reflexivity].
  destruct (decide_fold c1 fold (fold_nd K lin) lin) as [d|e] eqn:D1; cbn [bind]; [|eexists; reflexivity]. destruct (decide_fold c2 fold (fold_rows_nd K multi) multi) as [m|e] eqn:D2; cbn [bind]; [|eexists; reflexivity].
  assert (Ed : exists n', shape d = s1 ++ [n']). { unfold decide_fold in D1. destruct c1; [destruct fold as [[|]|]|]; try discriminate; injection D1 as <-; [exists ((nf + 1) / 2); apply (@fold_nd_row K lin s1 nf [] El)|exists nf; exact El|exists nf; exact El]. }
  assert (Emm : exists n2, shape m = L :: s2 ++ [n2]). { unfold decide_fold in D2. destruct c2; [destruct fold as [[|]|]|]; try discriminate; injection D2 as <-; [exists ((ns + 1) / 2); apply (@fold_rows_nd_row K multi L s2 ns Em)|exists ns; exact Em|exists ns; exact Em]. }
  destruct Ed as [n' Ed]. destruct Emm as [n2 Emm]. assert (Emm' : shape m = (L :: s2) ++ [n2]) by exact Emm. destruct (shape_last Ed) as [Ed1 _]. destruct (shape_last Emm') as [Em1 _].
  unfold last_of. assert (R1 : rank d =? 0 = false) by (unfold rank; rewrite Ed, app_length; cbn [length]; lia). assert (R2 : rank m =? 0 = false) by (unfold rank; rewrite Emm', app_length; cbn [length]; lia). rewrite R1, R2, Ed1, Em1. cbn [bind].
  destruct (n2 =? 0); [eexists; reflexivity|]. destruct (negb _); [eexists; reflexivity|]. destruct (@C95_multilevel K junk c1 d s1 n' (Z.of_nat n2) b (Some false) r Ed) as [_ H2]. rewrite Nat2Z.id in H2.
  destruct (multilevel_array _ _ _ _ _ _ _ _) as [out|e] eqn:EM; cbn [bind]; [|eexists; reflexivity]. destruct (H2 out eq_refl) as (L' & EO). destruct (@C95_merge_levels _ out _ _ _ EO) as (_ & _ & M2). destruct (@C95_merge_levels _ m _ _ _ Emm) as (_ & S2 & _).
  destruct (merge_full_nd out) as [[xf yf]|e]; cbn [bind fst snd]; [|eexists; reflexivity]. destruct (merge_half_nd m) as [[xs ys]|e]; cbn [bind fst snd]; [|eexists; reflexivity].
  specialize (M2 _ _ eq_refl). specialize (S2 _ _ eq_refl). unfold concat_last. destruct (shape_last M2) as [_ A2]. destruct (shape_last S2) as [_ B2]. rewrite A2, B2. destruct (_ || _)%bool; [eexists; reflexivity|].
  destruct (list_eq_dec Nat.eq_dec s1 s2) as [C|_]; [destruct (N C)|]. eexists. reflexivity.
Qed.
Print Assumptions C95_pixels.

(** A video of two pixels with seven delays (0..3 and -3..-1) and two slow levels: the second
    pixel has twice the values of the first. *)
Definition lin95 : nd (Cx QcO) := Nd [2; 7] (fun p => let a := Z.of_nat (nth 0 p 0 + 1) in nth (nth 1 p 0) [(q (8 * a)%Z, q 0); (q (6 * a)%Z, q a); (q (4 * a)%Z, q (2 * a)%Z); (q (2 * a)%Z, q (3 * a)%Z); (q 0, q (- a)%Z); (q (2 * a)%Z, q (-2 * a)%Z); (q (4 * a)%Z, q (-3 * a)%Z)] (q 0, q 0)).
Definition multi95 : nd (option (Cx QcO)) := Nd [2; 2; 3] (fun p => let a := Z.of_nat (nth 1 p 0 + 1) in nth (nth 2 p 0) (nth (nth 0 p 0) [[Some (q (5 * a)%Z, q 0); Some (q (3 * a)%Z, q a); Some (q a, q a)]; [Some (q (4 * a)%Z, q 0); Some (q (2 * a)%Z, q 0); None]] []) None).
Definition show_nd (r : res (list nat * nd (option (Cx QcO)))) (p : list nat) :=
  match r with Ok (x, y) => Ok (shape y, combine (map Z.of_nat x) (map (fun o => match o with Some z => Some (show (cre z), show (cim z)) | None => None end) (row y p))) | Raise e => Raise e end.
Example C95_example :
  show_nd (log_merge_array QcO (fun _ => q 9) true true lin95 multi95 BINNING_MEAN (Some true) (fun _ => true)) [0] =
    Ok ([2; 5]%nat, [(0, Some ((8, 1), (0, 1))); (1, Some ((5, 1), (2, 1))); (2, Some ((3, 1), (2, 1))); (4, Some ((2, 1), (0, 1))); (8, None)]%Z) /\
  show_nd (log_merge_array QcO (fun _ => q 9) true true lin95 multi95 BINNING_MEAN (Some true) (fun _ => true)) [1] =
    Ok ([2; 5]%nat, [(0, Some ((16, 1), (0, 1))); (1, Some ((10, 1), (4, 1))); (2, Some ((6, 1), (4, 1))); (4, Some ((4, 1), (0, 1))); (8, None)]%Z) /\
  valid [1] [2].
Proof. split; [vm_compute; reflexivity|split; [vm_compute; reflexivity|]]. repeat constructor. Qed.
