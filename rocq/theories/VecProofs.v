(** Every pixel is processed as if it were alone. *)
From Verif Require Import Base Kernels CoreModel VecModel.
From Coq Require Import ZifyBool ZifyNat.
Ltac Zify.zify_post_hook ::= Z.div_mod_to_equations.
Set Implicit Arguments.

Lemma pixel_length A (d : A) p m : length (pixel d p m) = length m.
Proof. apply map_length. Qed.

Lemma nth_pixel A (d : A) p m i : nth i (pixel d p m) d = nth p (nth i m []) d.
Proof.
  unfold pixel. destruct (Nat.lt_ge_cases i (length m)) as [H|H].
  - rewrite (nth_indep _ d (nth p [] d)) by (rewrite map_length; exact H).
    apply (map_nth (fun row => nth p row d)).
  - rewrite (nth_overflow (map _ m)) by (rewrite map_length; lia).
    rewrite (nth_overflow m) by lia. destruct p; reflexivity.
Qed.

Lemma map_upd A B (f : A -> B) l i v : map f (upd l i v) = upd (map f l) i (f v).
Proof.
  revert i; induction l as [|x l IH]; intros [|i]; simpl; try reflexivity. rewrite IH. reflexivity.
Qed.

Lemma Forall_upd A (P : A -> Prop) l i v : Forall P l -> P v -> Forall P (upd l i v).
Proof.
  intros H Hv. revert i; induction H as [|x l Hx H IH]; intros [|i]; simpl; constructor; auto.
Qed.

Lemma rect_nth A w (m : list (list A)) i : rect w m -> (i < length m)%nat -> length (nth i m []) = w.
Proof. intros H Hi. apply (proj1 (Forall_forall _ _) H). apply nth_In. exact Hi. Qed.

Lemma add_vec_length (M : CMon) n g out : length (add_vec M n g out) = length out.
Proof.
  unfold add_vec. apply (for_range_inv (fun _ o => length o = length out)); [lia|reflexivity|].
  intros i o _ H. rewrite add_at_length. exact H.
Qed.

Lemma nth_add_vec (M : CMon) n g out p : (n <= length out)%nat ->
  nth p (add_vec M n g out) (m0 M) =
  if (p <? n)%nat then madd M (nth p out (m0 M)) (g p) else nth p out (m0 M).
Proof.
  induction n as [|n IH]; intros Hn; [reflexivity|].
  unfold add_vec. rewrite for_range_last by lia. fold (add_vec M n g out).
  rewrite nth_add_at by (rewrite add_vec_length; lia). rewrite IH by lia.
  destruct (Nat.eqb_spec p n) as [->|Hp].
  - replace (n <? n)%nat with false by lia. replace (n <? S n)%nat with true by lia. reflexivity.
  - replace (p <? S n)%nat with (p <? n)%nat by lia. rewrite madd_0_r; reflexivity.
Qed.

(** Loops commute with a projection that commutes with the body. *)
Lemma for_range_hom S S' (I : S -> Prop) (h : S -> S') a b body body' s :
  I s -> (forall i s, a <= i < b -> I s -> I (body i s) /\ h (body i s) = body' i (h s))%nat ->
  I (for_range a b body s) /\ h (for_range a b body s) = for_range a b body' (h s).
Proof.
  intros H0 Hb. destruct (Nat.le_gt_cases a b) as [Hab|Hab].
  - induction b as [|b IH].
    + rewrite !for_range_nil by lia. auto.
    + destruct (Nat.eq_dec a (Datatypes.S b)) as [->|Hn]; [rewrite !for_range_nil by lia; auto|].
      rewrite !for_range_last by lia.
      destruct IH as [I1 E1]; [intros i s' Hi; apply Hb; lia|lia|].
      rewrite <- E1. apply Hb; [lia|exact I1].
  - rewrite !for_range_nil by lia. auto.
Qed.

Section Rows.
  Variables (M : CMon) (w p : nat).
  Hypothesis Hp : (p < w)%nat.
  Notation pix := (pixel (m0 M) p).
  Definition rows_ok (n : nat) (out : list (list M)) := rect w out /\ length out = n.

  Lemma at_row_add n out m len g : rows_ok n out -> (m < n)%nat -> len = w ->
    rows_ok n (at_row out m (add_vec M len g)) /\
    pix (at_row out m (add_vec M len g)) = add_at M (pix out) m (g p).
  Proof.
    intros [HR HL] Hm ->. unfold at_row. split; [split|].
    - apply Forall_upd; [exact HR|]. rewrite add_vec_length. apply rect_nth; [exact HR|lia].
    - rewrite upd_length. exact HL.
    - unfold pixel. rewrite map_upd. unfold add_at. f_equal.
      fold (pix out). rewrite nth_pixel.
      rewrite nth_add_vec by (rewrite (rect_nth HR) by lia; lia).
      replace (p <? w)%nat with true by lia. reflexivity.
  Qed.

  Lemma row_abs n out z len g v : rows_ok n out -> len = w -> g p = v ->
    let out' := if (Z.abs z <? Z.of_nat (length out))%Z
                then at_row out (Z.to_nat (Z.abs z)) (add_vec M len g) else out in
    rows_ok n out' /\ pix out' = scatter_abs M (pix out) z v.
  Proof.
    intros H Hl <-. unfold scatter_abs. rewrite pixel_length.
    destruct (Z.abs z <? Z.of_nat (length out))%Z eqn:E; [|auto].
    apply at_row_add; auto. destruct H. lia.
  Qed.

  Lemma row_signed n out z len g v : rows_ok n out -> len = w -> g p = v ->
    let out' := if (Z.abs z <? (Z.of_nat (length out) + 1) / 2)%Z
                then at_row out (wrap_pos (length out) z) (add_vec M len g) else out in
    rows_ok n out' /\ pix out' = scatter_signed M (pix out) z v.
  Proof.
    intros H Hl <-. unfold scatter_signed. rewrite pixel_length.
    destruct (Z.abs z <? (Z.of_nat (length out) + 1) / 2)%Z eqn:E; [|auto].
    apply at_row_add; auto. destruct H as [_ HL]. unfold wrap_pos.
    destruct (z <? 0)%Z eqn:E2; lia.
  Qed.
End Rows.

Section Kernels.
  Variable K : Fld.
  Add Field Kfield : (flaw K).
  Notation C := (Cx K).
  Variables (w p : nat).
  Hypothesis Hp : (p < w)%nat.
  Notation pz := (pixel (c0 K) p).
  Notation pk := (pixel (f0 K) p).

  Ltac loop M n :=
    apply (for_range_hom (rows_ok M w n) (pixel (m0 M) p)); [assumption|];
    let i := fresh "i" in let o := fresh "o" in let Hi := fresh "Hi" in let Ho := fresh "Ho" in
    intros i o Hi Ho.

  Theorem _cross_corr_vec_pixel f1 f2 t1 t2 out n :
    rect w f1 -> rect w f2 -> rows_ok (fmon K) w n out ->
    rows_ok (fmon K) w n (_cross_corr_vec f1 f2 t1 t2 out) /\
    pk (_cross_corr_vec f1 f2 t1 t2 out) = _cross_corr (pz f1) (pz f2) t1 t2 (pk out).
  Proof.
    intros R1 R2 Ho. unfold _cross_corr_vec, _cross_corr. rewrite !pixel_length.
    loop (fmon K) n. loop (fmon K) n.
    rewrite !nth_pixel. apply row_abs; auto. apply rect_nth; [assumption|lia].
  Qed.

  Theorem _cross_corr_complex_vec_pixel f1 f2 t1 t2 out n :
    rect w f1 -> rect w f2 -> rows_ok (cmon K) w n out ->
    rows_ok (cmon K) w n (_cross_corr_complex_vec f1 f2 t1 t2 out) /\
    pz (_cross_corr_complex_vec f1 f2 t1 t2 out) = _cross_corr_complex (pz f1) (pz f2) t1 t2 (pz out).
  Proof.
    intros R1 R2 Ho. unfold _cross_corr_complex_vec, _cross_corr_complex. rewrite !pixel_length.
    loop (cmon K) n. loop (cmon K) n.
    rewrite !nth_pixel. apply row_signed; auto; [apply rect_nth; [assumption|lia]|].
    unfold cmul, conj, cre, cim; simpl. f_equal; ring.
  Qed.

  Theorem _auto_corr_vec_pixel f t out n :
    rect w f -> rows_ok (fmon K) w n out ->
    rows_ok (fmon K) w n (_auto_corr_vec f t out) /\
    pk (_auto_corr_vec f t out) = _auto_corr (pz f) t (pk out).
  Proof.
    intros R1 Ho. unfold _auto_corr_vec, _auto_corr. rewrite !pixel_length.
    loop (fmon K) n. loop (fmon K) n.
    rewrite !nth_pixel. apply row_abs; auto. apply rect_nth; [assumption|lia].
  Qed.

  Theorem _auto_corr_complex_vec_pixel f t out n :
    rect w f -> rows_ok (cmon K) w n out ->
    rows_ok (cmon K) w n (_auto_corr_complex_vec f t out) /\
    pz (_auto_corr_complex_vec f t out) = _auto_corr_complex (pz f) t (pz out).
  Proof.
    intros R1 Ho. unfold _auto_corr_complex_vec, _auto_corr_complex. rewrite !pixel_length.
    loop (cmon K) n. loop (cmon K) n.
    rewrite !nth_pixel, !pixel_length. cbn [mcar cmon m0] in *.
    destruct (0 <=? nth i0 t 0 - nth i t 0)%Z eqn:E0.
    - destruct (nth i0 t 0 - nth i t 0 <? Z.of_nat (length o0))%Z eqn:E; [|auto].
      pose proof (@at_row_add (cmon K) w p Hp n o0 (Z.to_nat (nth i0 t 0%Z - nth i t 0%Z)) (length (nth i f []))
        (fun j => cmul (nth j (nth i0 f []) (c0 K)) (conj (nth j (nth i f []) (c0 K))))) as H.
      destruct H as [H1 H2]; [assumption|destruct Ho1 as [_ HL1]; cbn [mcar cmon] in HL1; lia|apply rect_nth; [assumption|lia]|].
      split; [exact H1|]. etransitivity; [exact H2|]. f_equal.
      unfold cmul, conj, cre, cim; simpl. f_equal; ring.
    - destruct (Z.abs (nth i0 t 0 - nth i t 0) <? Z.of_nat (length o0))%Z eqn:E; [|auto].
      pose proof (@at_row_add (cmon K) w p Hp n o0 (Z.to_nat (Z.abs (nth i0 t 0%Z - nth i t 0%Z))) (length (nth i0 f []))
        (fun j => cmul (nth j (nth i f []) (c0 K)) (conj (nth j (nth i0 f []) (c0 K))))) as H.
      destruct H as [H1 H2]; [assumption|destruct Ho1 as [_ HL1]; cbn [mcar cmon] in HL1; lia|apply rect_nth; [assumption|lia]|].
      split; [exact H1|exact H2].
  Qed.

  Theorem _cross_diff_vec_pixel f1 f2 t1 t2 out n :
    rect w f1 -> rect w f2 -> rows_ok (fmon K) w n out ->
    rows_ok (fmon K) w n (_cross_diff_vec f1 f2 t1 t2 out) /\
    pk (_cross_diff_vec f1 f2 t1 t2 out) = _cross_diff (pz f1) (pz f2) t1 t2 (pk out).
  Proof.
    intros R1 R2 Ho. unfold _cross_diff_vec, _cross_diff. rewrite !pixel_length.
    loop (fmon K) n. loop (fmon K) n.
    rewrite !nth_pixel. apply row_abs; auto. apply rect_nth; [assumption|lia].
  Qed.

  Theorem _auto_diff_vec_pixel f t out n :
    rect w f -> rows_ok (fmon K) w n out ->
    rows_ok (fmon K) w n (_auto_diff_vec f t out) /\
    pk (_auto_diff_vec f t out) = _auto_diff (pz f) t (pk out).
  Proof.
    intros R1 Ho. unfold _auto_diff_vec, _auto_diff. rewrite !pixel_length.
    loop (fmon K) n. loop (fmon K) n.
    rewrite !nth_pixel. apply row_abs; auto. apply rect_nth; [assumption|lia].
  Qed.
End Kernels.

Section SumKernels.
  Variable G : QGrp.
  Variables (w p : nat).
  Hypothesis Hp : (p < w)%nat.
  Notation pg := (pixel (m0 G) p).

  Theorem _cross_sum_vec_pixel (f : list (list G)) t1 t2 out n :
    rect w f -> length t1 = length f -> rows_ok G w n out ->
    rows_ok G w n (_cross_sum_vec G f t1 t2 out) /\
    pg (_cross_sum_vec G f t1 t2 out) = _cross_sum G (pg f) t1 t2 (pg out).
  Proof.
    intros R1 HL Ho. unfold _cross_sum_vec, _cross_sum.
    apply (for_range_hom (rows_ok G w n) (pixel (m0 G) p)); [assumption|]. intros i o Hi Ho'.
    apply (for_range_hom (rows_ok G w n) (pixel (m0 G) p)); [assumption|]. intros j o' Hj Ho''.
    rewrite !nth_pixel. apply row_abs; auto. apply rect_nth; [assumption|lia].
  Qed.

  Theorem _cross_sum_complex_vec_pixel (f : list (list G)) t1 t2 out n :
    rect w f -> length t1 = length f -> rows_ok G w n out ->
    rows_ok G w n (_cross_sum_complex_vec G f t1 t2 out) /\
    pg (_cross_sum_complex_vec G f t1 t2 out) = _cross_sum_complex G (pg f) t1 t2 (pg out).
  Proof.
    intros R1 HL Ho. unfold _cross_sum_complex_vec, _cross_sum_complex.
    apply (for_range_hom (rows_ok G w n) (pixel (m0 G) p)); [assumption|]. intros i o Hi Ho'.
    apply (for_range_hom (rows_ok G w n) (pixel (m0 G) p)); [assumption|]. intros j o' Hj Ho''.
    rewrite !nth_pixel. apply row_signed; auto. apply rect_nth; [assumption|lia].
  Qed.
End SumKernels.

(* ------------------------------------------------------------------ *)
(** * The API on frames *)

Lemma map_res_Ok A B (f : A -> res B) l ys d da :
  map_res f l = Ok ys -> length ys = length l /\ forall i, (i < length l)%nat -> f (nth i l da) = Ok (nth i ys d).
Proof.
  revert ys; induction l as [|x l IH]; intros ys H; simpl in H.
  - injection H as <-. split; [reflexivity|]. simpl; intros; lia.
  - destruct (f x) as [y|] eqn:E; [|discriminate]. cbn [bind] in H.
    destruct (map_res f l) as [ys'|]; [|discriminate]. cbn [bind] in H. injection H as <-.
    destruct (IH ys' eq_refl) as [HL HI]. split; [simpl; lia|].
    intros [|i] Hi; simpl; [exact E|]. apply HI. simpl in Hi; lia.
Qed.

Lemma map_res_all A B (f : A -> res B) l :
  (forall x, In x l -> exists y, f x = Ok y) -> exists ys, map_res f l = Ok ys.
Proof.
  induction l as [|x l IH]; intros H; [eexists; reflexivity|]. simpl.
  destruct (H x) as [y ->]; [now left|]. destruct IH as [ys ->]; [intros; apply H; now right|].
  eexists; reflexivity.
Qed.

Lemma pixel_rows_of B (d : B) n cols p : (p < length cols)%nat ->
  pixel d p (rows_of d n cols) = map (fun k => nth k (nth p cols []) d) (seq 0 n).
Proof.
  intros Hp. unfold pixel, rows_of. rewrite map_map. apply map_ext. intros k.
  rewrite (nth_indep _ d (nth k [] d)) by (rewrite map_length; exact Hp).
  exact (map_nth (fun c => nth k c d) cols [] p).
Qed.

Lemma map_nth_seq A (l : list A) d : map (fun k => nth k l d) (seq 0 (length l)) = l.
Proof.
  induction l as [|x l IH]; [reflexivity|]. simpl. f_equal. rewrite <- seq_shift, map_map. exact IH.
Qed.

(** A one-dimensional kernel keeps the length of its output array. *)
Definition keeps_length2 {A B} (kernel : list A -> list A -> list B -> res (list B)) :=
  forall x y o o', kernel x y o = Ok o' -> length o' = length o.
Definition keeps_length1 {A B} (kernel : list A -> list B -> res (list B)) :=
  forall x o o', kernel x o = Ok o' -> length o' = length o.

Lemma broadcast2_pixel A B (da : A) (db : B) w kernel f1 f2 out p : keeps_length2 kernel -> (p < w)%nat ->
  forall res, broadcast2 da db w kernel f1 f2 out = Ok res ->
  kernel (pixel da p f1) (pixel da p f2) (pixel db p out) = Ok (pixel db p res).
Proof.
  intros HK Hp r H. unfold broadcast2 in H.
  destruct (map_res _ (seq 0 w)) as [cols|] eqn:E; [|discriminate]. cbn [bind] in H. injection H as <-.
  destruct (map_res_Ok _ _ [] 0%nat E) as [HL HI]. rewrite seq_length in HL, HI.
  specialize (HI p Hp). rewrite seq_nth in HI by exact Hp. simpl in HI. rewrite HI. f_equal.
  rewrite pixel_rows_of by lia. pose proof (HK _ _ _ _ HI) as HKL. rewrite pixel_length in HKL.
  rewrite <- HKL. symmetry. apply map_nth_seq.
Qed.

Lemma broadcast1_pixel A B (da : A) (db : B) w kernel f out p : keeps_length1 kernel -> (p < w)%nat ->
  forall res, broadcast1 da db w kernel f out = Ok res ->
  kernel (pixel da p f) (pixel db p out) = Ok (pixel db p res).
Proof.
  intros HK Hp r H. unfold broadcast1 in H.
  destruct (map_res _ (seq 0 w)) as [cols|] eqn:E; [|discriminate]. cbn [bind] in H. injection H as <-.
  destruct (map_res_Ok _ _ [] 0%nat E) as [HL HI]. rewrite seq_length in HL, HI.
  specialize (HI p Hp). rewrite seq_nth in HI by exact Hp. simpl in HI. rewrite HI. f_equal.
  rewrite pixel_rows_of by lia. pose proof (HK _ _ _ HI) as HKL. rewrite pixel_length in HKL.
  rewrite <- HKL. symmetry. apply map_nth_seq.
Qed.

Lemma broadcast2_exists A B (da : A) (db : B) w kernel f1 f2 out :
  (forall p, (p < w)%nat -> exists o, kernel (pixel da p f1) (pixel da p f2) (pixel db p out) = Ok o) ->
  exists res, broadcast2 da db w kernel f1 f2 out = Ok res.
Proof.
  intros H. unfold broadcast2. destruct (@map_res_all nat (list B)
    (fun p => kernel (pixel da p f1) (pixel da p f2) (pixel db p out)) (seq 0 w)) as [ys ->].
  - intros x Hx. apply in_seq in Hx. apply H. lia.
  - eexists; reflexivity.
Qed.
Lemma broadcast1_exists A B (da : A) (db : B) w kernel f out :
  (forall p, (p < w)%nat -> exists o, kernel (pixel da p f) (pixel db p out) = Ok o) ->
  exists res, broadcast1 da db w kernel f out = Ok res.
Proof.
  intros H. unfold broadcast1. destruct (@map_res_all nat (list B)
    (fun p => kernel (pixel da p f) (pixel db p out)) (seq 0 w)) as [ys ->].
  - intros x Hx. apply in_seq in Hx. apply H. lia.
  - eexists; reflexivity.
Qed.

Lemma pixel_repeat A (d : A) w p n : pixel d p (repeat (repeat d w) n) = repeat d n.
Proof.
  unfold pixel. induction n as [|n IH]; [reflexivity|]. simpl. rewrite IH. f_equal.
  clear. revert p; induction w as [|w IH]; intros [|p]; simpl; auto.
Qed.
Lemma rect_repeat A (d : A) w n : rect w (repeat (repeat d w) n).
Proof. apply Forall_forall. intros r Hr. apply repeat_spec in Hr. subst. apply repeat_length. Qed.

Lemma default_pixel (M : CMon) w complex p (aout : option (list (list M))) n :
    match aout with Some o => rect w o | None => True end ->
    match _default_out (repeat (m0 M) w) aout n complex with
    | Ok o => rect w o /\ _default_out (m0 M) (option_map (pixel (m0 M) p) aout) n complex = Ok (pixel (m0 M) p o)
    | Raise e => _default_out (m0 M) (option_map (pixel (m0 M) p) aout) n complex = Raise e
    end.
  Proof.
    intros Ha. unfold _default_out. destruct aout as [o|]; simpl; [auto|].
    destruct complex; [destruct (n =? 0)%nat; [reflexivity|]|]; (split; [apply rect_repeat|]); rewrite pixel_repeat; reflexivity.
  Qed.

Section RunFrames.
  Variables (A : Type) (da : A) (M : CMon) (w : nat) (complex : bool).
  Variable kreg : list A -> list A -> list M -> res (list M).
  Variable kirr : list A -> list A -> list Z -> list Z -> list M -> list M.
  Variable kvec : list (list A) -> list (list A) -> list Z -> list Z -> list (list M) -> list (list M).
  Hypothesis Hlen : keeps_length2 kreg.
  Hypothesis Hvec : forall p f1 f2 t1 t2 out n, (p < w)%nat -> rect w f1 -> rect w f2 -> rows_ok M w n out ->
    rows_ok M w n (kvec f1 f2 t1 t2 out) /\
    pixel (m0 M) p (kvec f1 f2 t1 t2 out) = kirr (pixel da p f1) (pixel da p f2) t1 t2 (pixel (m0 M) p out).

  Let frames := run_cross (repeat (m0 M) w) complex (broadcast2 da (m0 M) w kreg) kvec.
  Let single := run_cross (m0 M) complex kreg kirr.

  Theorem run_frames_pixel f1 f2 t1 t2 n aligned aout p : (p < w)%nat -> rect w f1 -> rect w f2 ->
    match aout with Some o => rect w o | None => True end ->
    forall out, frames f1 f2 t1 t2 n aligned aout = Ok out ->
    single (pixel da p f1) (pixel da p f2) t1 t2 n aligned (option_map (pixel (m0 M) p) aout) =
    Ok (pixel (m0 M) p out).
  Proof.
    intros Hp R1 R2 Ra out H. unfold frames, run_cross in H. unfold single, run_cross.
    rewrite !pixel_length.
    replace (option_map (@length M) (option_map (pixel (m0 M) p) aout)) with (option_map (@length (list M)) aout)
      by (destruct aout; simpl; rewrite ?pixel_length; reflexivity).
    destruct (_inspect_cross_arguments _ _ _ _ _ _ _) as [[ts N]|]; [|discriminate]. cbn [bind] in *.
    pose proof (@default_pixel M w complex p aout N Ra) as HD.
    destruct (_default_out (repeat (m0 M) w) aout N complex) as [o|]; [|discriminate].
    destruct HD as [Ro HD]. rewrite HD. cbn [bind] in *.
    destruct ts as [[s1 s2]|].
    - destruct ((length f1 =? length s1) && (length f2 =? length s2))%bool%nat; [|discriminate].
      injection H as <-. f_equal. symmetry. apply (@Hvec p f1 f2 s1 s2 o (length o)); auto. split; auto.
    - destruct aligned.
      + eapply broadcast2_pixel; eauto.
      + injection H as <-. f_equal. symmetry.
        apply (@Hvec p f1 f2 (arange (length f1)) (arange (length f1)) o (length o)); auto. split; auto.
  Qed.

  Theorem run_frames_exists f1 f2 t1 t2 n aligned aout : (0 < w)%nat ->
    (forall p, (p < w)%nat -> exists o,
      single (pixel da p f1) (pixel da p f2) t1 t2 n aligned (option_map (pixel (m0 M) p) aout) = Ok o) ->
    match aout with Some o => rect w o | None => True end ->
    exists out, frames f1 f2 t1 t2 n aligned aout = Ok out.
  Proof.
    intros Hw HS Ra. unfold frames, run_cross. unfold single, run_cross in HS.
    assert (HL : forall p, option_map (@length M) (option_map (pixel (m0 M) p) aout) = option_map (@length (list M)) aout)
      by (intros p; destruct aout; simpl; rewrite ?pixel_length; reflexivity).
    assert (HS' := HS 0%nat Hw). rewrite !pixel_length, HL in HS'.
    destruct (_inspect_cross_arguments (length f1) (length f2) t1 t2 n (option_map (@length (list M)) aout) complex) as [[ts N]|] eqn:EI;
      [|destruct HS'; discriminate]. cbn [bind] in *.
    pose proof (fun p => @default_pixel M w complex p aout N Ra) as HD.
    destruct (_default_out (repeat (m0 M) w) aout N complex) as [o|].
    - cbn [bind]. destruct ts as [[s1 s2]|].
      + destruct ((length f1 =? length s1) && (length f2 =? length s2))%bool%nat; [eexists; reflexivity|].
        destruct (HD 0%nat) as [_ E0]. rewrite E0 in HS'. destruct HS'; discriminate.
      + destruct aligned; [|eexists; reflexivity]. apply broadcast2_exists. intros p Hp.
        destruct (HS p Hp) as [r Hr]. rewrite !pixel_length, HL, EI in Hr. cbn [bind] in Hr.
        destruct (HD p) as [_ E0]. rewrite E0 in Hr. exists r. exact Hr.
    - specialize (HD 0%nat). rewrite HD in HS'. destruct HS'; discriminate.
  Qed.
End RunFrames.

Section RunFramesAuto.
  Variables (A : Type) (da : A) (M : CMon) (w : nat).
  Variable kreg : list A -> list M -> res (list M).
  Variable kirr : list A -> list Z -> list M -> list M.
  Variable kvec : list (list A) -> list Z -> list (list M) -> list (list M).
  Hypothesis Hlen : keeps_length1 kreg.
  Hypothesis Hvec : forall p f t out n, (p < w)%nat -> rect w f -> rows_ok M w n out ->
    rows_ok M w n (kvec f t out) /\
    pixel (m0 M) p (kvec f t out) = kirr (pixel da p f) t (pixel (m0 M) p out).

  Let frames := run_auto (repeat (m0 M) w) (broadcast1 da (m0 M) w kreg) kvec.
  Let single := run_auto (m0 M) kreg kirr.

  Theorem run_auto_frames_pixel f t n aligned aout p : (p < w)%nat -> rect w f ->
    match aout with Some o => rect w o | None => True end ->
    forall out, frames f t n aligned aout = Ok out ->
    single (pixel da p f) t n aligned (option_map (pixel (m0 M) p) aout) = Ok (pixel (m0 M) p out).
  Proof.
    intros Hp R1 Ra out H. unfold frames, run_auto in H. unfold single, run_auto.
    rewrite !pixel_length.
    replace (option_map (@length M) (option_map (pixel (m0 M) p) aout)) with (option_map (@length (list M)) aout)
      by (destruct aout; simpl; rewrite ?pixel_length; reflexivity).
    destruct (_inspect_auto_arguments _ _ _ _) as [[ts N]|]; [|discriminate]. cbn [bind] in *.
    pose proof (@default_pixel M w false p aout N Ra) as HD.
    destruct (_default_out (repeat (m0 M) w) aout N false) as [o|]; [|discriminate].
    destruct HD as [Ro HD]. rewrite HD. cbn [bind] in *.
    destruct ts as [s|].
    - destruct (length f =? length s)%nat; [|discriminate].
      injection H as <-. f_equal. symmetry. apply (@Hvec p f s o (length o)); auto. split; auto.
    - destruct aligned.
      + eapply broadcast1_pixel; eauto.
      + injection H as <-. f_equal. symmetry.
        apply (@Hvec p f (arange (length f)) o (length o)); auto. split; auto.
  Qed.

  Theorem run_auto_frames_exists f t n aligned aout : (0 < w)%nat ->
    (forall p, (p < w)%nat -> exists o,
      single (pixel da p f) t n aligned (option_map (pixel (m0 M) p) aout) = Ok o) ->
    match aout with Some o => rect w o | None => True end ->
    exists out, frames f t n aligned aout = Ok out.
  Proof.
    intros Hw HS Ra. unfold frames, run_auto. unfold single, run_auto in HS.
    assert (HL : forall p, option_map (@length M) (option_map (pixel (m0 M) p) aout) = option_map (@length (list M)) aout)
      by (intros p; destruct aout; simpl; rewrite ?pixel_length; reflexivity).
    assert (HS' := HS 0%nat Hw). rewrite !pixel_length, HL in HS'.
    destruct (_inspect_auto_arguments (length f) t n (option_map (@length (list M)) aout)) as [[ts N]|] eqn:EI;
      [|destruct HS'; discriminate]. cbn [bind] in *.
    pose proof (fun p => @default_pixel M w false p aout N Ra) as HD.
    destruct (_default_out (repeat (m0 M) w) aout N false) as [o|].
    - cbn [bind]. destruct ts as [s|].
      + destruct (length f =? length s)%nat; [eexists; reflexivity|].
        destruct (HD 0%nat) as [_ E0]. rewrite E0 in HS'. destruct HS'; discriminate.
      + destruct aligned; [|eexists; reflexivity]. apply broadcast1_exists. intros p Hp.
        destruct (HS p Hp) as [r Hr]. rewrite !pixel_length, HL, EI in Hr. cbn [bind] in Hr.
        destruct (HD p) as [_ E0]. rewrite E0 in Hr. exists r. exact Hr.
    - specialize (HD 0%nat). rewrite HD in HS'. destruct HS'; discriminate.
  Qed.
End RunFramesAuto.
