(** The streaming functions on frames with any number of axes: buffers and levels, pixel by pixel. *)
From Coq Require Import String ZifyBool ZifyNat.
From Verif Require Import Base Kernels KernelProofs CoreModel CoreProofs CoreApi VecModel VecProofs FftModel NormModel CorrModel NormArrayModel NormArrayProofs AxisModel AxisProofs AxisProofs2 AxisProofs3
  MultiModel LevelArrayModel LevelArrayProofs MultiArrayModel MultiArrayProofs MultiArrayProofs2 StreamModel StreamArrayModel.
Open Scope string_scope.
Open Scope nat_scope.
Local Notation length := List.length.
Set Implicit Arguments.

(** * With times the memory layout does not matter *)
Lemma run_cross_times A B (zero : B) complex kr (k : list A -> list A -> list Z -> list Z -> list B -> list B) f1 f2 t1 t2 n al al' aout :
  run_cross zero complex kr k f1 f2 (Some t1) (Some t2) n al aout = run_cross zero complex kr k f1 f2 (Some t1) (Some t2) n al' aout.
Proof.
  unfold run_cross, _inspect_cross_arguments. cbn [bind]. destruct (negb _); [reflexivity|]. match goal with |- context [bind (bind ?r _) _] => destruct r as [N|] end; [|reflexivity]. cbn [bind]. destruct (_shift_cross t1 t2) as [[u1 u2]|]; reflexivity.
Qed.
Lemma run_auto_times A B (zero : B) kr (k : list A -> list Z -> list B -> list B) f t n al al' aout : run_auto zero kr k f (Some t) n al aout = run_auto zero kr k f (Some t) n al' aout.
Proof.
  unfold run_auto, _inspect_auto_arguments. match goal with |- context [bind (bind ?r _) _] => destruct r as [N|] end; [|reflexivity]. cbn [bind]. destruct (zmin_list t) as [u|]; reflexivity.
Qed.
Section Times.
  Variable K : Fld.
  Variable W : nat -> Cx K.
  Lemma ccorr_times al al' f1 f2 t1 t2 n norm method f1s f2s aout : ccorr W al f1 f2 (Some t1) (Some t2) n norm method f1s f2s aout = ccorr W al' f1 f2 (Some t1) (Some t2) n norm method f1s f2s aout.
  Proof.
    unfold ccorr, ccorr_gen. destruct (_default_method method n) as [m|]; [|reflexivity]. cbn [bind]. destruct (_default_norm norm m true) as [nm|]; [|reflexivity]. cbn [bind]. destruct (_ && false)%bool; [reflexivity|].
    destruct (unpack_aout _ _) as [[[[[cor count] sq] d1] d2]|]; [|reflexivity]. cbn [bind]. unfold _inspect_cross_arguments. cbn [bind]. destruct (negb _); [reflexivity|].
    match goal with |- context [bind (bind ?r _) _] => destruct r as [N|] end; [|reflexivity]. cbn [bind]. destruct (_shift_cross t1 t2) as [[u1 u2]|]; [|reflexivity]. cbn [bind option_map fst snd].
    unfold cross_correlate, cross_difference. destruct (String.eqb m "fft"); [reflexivity|]. destruct (String.eqb m "corr"); rewrite (@run_cross_times _ _ _ _ _ _ _ _ _ _ _ al al'); reflexivity.
  Qed.
  Lemma ccorr_complex_times al al' f1 f2 t1 t2 n norm method f1s f2s aout : ccorr_complex W al f1 f2 (Some t1) (Some t2) n norm method f1s f2s aout = ccorr_complex W al' f1 f2 (Some t1) (Some t2) n norm method f1s f2s aout.
  Proof.
    unfold ccorr_complex, ccorr_gen. destruct (_default_method method n) as [m|]; [|reflexivity]. cbn [bind]. destruct (_default_norm norm m true) as [nm|]; [|reflexivity]. cbn [bind]. destruct (_ && true)%bool; [reflexivity|].
    destruct (unpack_aout _ _) as [[[[[cor count] sq] d1] d2]|]; [|reflexivity]. cbn [bind]. unfold _inspect_cross_arguments. cbn [bind]. destruct (negb _); [reflexivity|].
    match goal with |- context [bind (bind ?r _) _] => destruct r as [N|] end; [|reflexivity]. cbn [bind]. destruct (_shift_cross t1 t2) as [[u1 u2]|]; [|reflexivity]. cbn [bind option_map fst snd].
    unfold cross_correlate_complex. destruct (String.eqb m "fft"); [reflexivity|]. destruct (String.eqb m "corr"); [|reflexivity]. rewrite (@run_cross_times _ _ _ _ _ _ _ _ _ _ _ al al'). reflexivity.
  Qed.
  Lemma acorr_times al al' f t fs n norm method aout : acorr W al f (Some t) fs n norm method aout = acorr W al' f (Some t) fs n norm method aout.
  Proof.
    unfold acorr, acorr_gen. destruct (_default_method method n) as [m|]; [|reflexivity]. cbn [bind]. destruct (_default_norm norm m false) as [nm|]; [|reflexivity]. cbn [bind].
    destruct (unpack_aout _ _) as [[[[[cor count] sq] d1] d2]|]; [|reflexivity]. cbn [bind]. unfold _inspect_auto_arguments.
    match goal with |- context [bind (bind ?r _) _] => destruct r as [N|] end; [|reflexivity]. cbn [bind]. destruct (zmin_list t) as [u|]; [|reflexivity]. cbn [bind option_map fst snd].
    unfold auto_correlate, auto_difference. destruct (String.eqb m "fft"); [reflexivity|]. destruct (String.eqb m "corr"); rewrite (@run_auto_times _ _ _ _ _ _ _ _ al al'); reflexivity.
  Qed.
End Times.

(** * Buffers *)
Definition buf_at (A : Type) (b : list (list (frame A))) (p : list nat) : list (list A) := map (map (fun x => x p)) b.
Definition widths (A : Type) (b : list (list A)) : list nat := map (@length A) b.
Lemma map_upd A B (f : A -> B) l : forall i v, map f (upd l i v) = upd (map f l) i (f v).
Proof. induction l as [|x l IH]; intros [|i] v; cbn [upd map]; try reflexivity. f_equal. apply IH. Qed.
Lemma upd_own A (l : list A) : forall i d, upd l i (nth i l d) = l.
Proof. induction l as [|x l IH]; intros [|i] d; cbn [upd nth]; try reflexivity. f_equal. apply IH. Qed.
Lemma nth_map_nil A B (f : A -> B) l j : nth j (map (map f) l) [] = map f (nth j l []).
Proof. exact (map_nth (map f) l [] j). Qed.
Lemma put_at A (b : list (list (frame A))) j k x p : buf_at (put j k x b) p = put j k (x p) (buf_at b p).
Proof. unfold buf_at, put. rewrite map_upd, map_upd, nth_map_nil. reflexivity. Qed.
Lemma put_widths A j k (x : A) b : widths (put j k x b) = widths b.
Proof. unfold widths, put. rewrite map_upd, upd_length. rewrite <- (map_nth (@length A) b [] j). apply upd_own. Qed.
Lemma widths_length A (b : list (list A)) : length (widths b) = length b.
Proof. apply map_length. Qed.
Lemma buf_length A (b : list (list (frame A))) p : length (buf_at b p) = length b.
Proof. apply map_length. Qed.
Section Add.
  Variable G : QGrp.
  Lemma add_levels_at binning r c i p : forall todo j top (x : frame G) out,
    buf_at (add_levels_nd G binning r c i todo j top x out) p = add_levels G binning r c i todo j top (x p) (buf_at out p).
  Proof.
    induction todo as [|todo IH]; intros j top x out; cbn [add_levels_nd add_levels]; [reflexivity|]. destruct (_ =? 0); [|reflexivity]. rewrite IH, put_at. unfold buf_at. rewrite nth_map_nil, map_length.
    assert (E : forall k l, nth k (map (fun y : frame G => y p) l) (m0 G) = nth k l (fun _ => m0 G) p) by (intros k l; exact (map_nth (fun y : frame G => y p) l (fun _ => m0 G) k)).
    rewrite !E. destruct (binning =? BINNING_MEAN)%Z; [reflexivity|]. destruct (binning =? BINNING_CHOOSE)%Z; [|reflexivity]. destruct r; reflexivity.
  Qed.
  Lemma add_data_at binning r i x out p : buf_at (add_data_nd G binning r i x out) p = add_data G binning r i (x p) (buf_at out p).
  Proof. unfold add_data_nd, add_data. rewrite add_levels_at, put_at, buf_length. unfold buf_at. rewrite nth_map_nil, map_length. reflexivity. Qed.
  Lemma add_levels_widths binning r c i : forall todo j top (x : frame G) out, widths (add_levels_nd G binning r c i todo j top x out) = widths out.
  Proof. induction todo as [|todo IH]; intros j top x out; cbn [add_levels_nd]; [reflexivity|]. destruct (_ =? 0); [|reflexivity]. rewrite IH. apply put_widths. Qed.
  Lemma add_data_widths binning r i x out : widths (add_data_nd G binning r i x out) = widths out.
  Proof. unfold add_data_nd. rewrite add_levels_widths. apply put_widths. Qed.
End Add.
Lemma slice_map A B (f : A -> B) a n l : slice a n (map f l) = map f (slice a n l).
Proof. unfold slice. rewrite skipn_map, firstn_map. reflexivity. Qed.
Lemma chunk_at A S0 (b : list (list (frame A))) j c p : level_chunk S0 (buf_at b p) j c = map (fun x => x p) (level_chunk S0 b j c).
Proof. unfold level_chunk, buf_at. rewrite nth_map_nil. apply slice_map. Qed.
Lemma prev_at A S0 (b : list (list (frame A))) j c p : level_prev S0 (buf_at b p) j c = map (fun x => x p) (level_prev S0 b j c).
Proof. unfold level_prev, buf_at. rewrite nth_map_nil. apply slice_map. Qed.
Lemma init_buffer_at A (e : nat -> nat -> frame A) D h p : buf_at (init_buffer e D h) p = init_buffer (fun j k => e j k p) D h.
Proof. unfold init_buffer, buf_at. destruct (0 <? D); cbn [map]; [rewrite map_map; apply map_ext; intros j; apply map_map|rewrite map_map; reflexivity]. Qed.
Lemma init_buffer_widths A (e : nat -> nat -> A) D h : widths (init_buffer e D h) = if 0 <? D then repeat (2 * h) D else [h].
Proof.
  unfold init_buffer, widths. destruct (0 <? D); [|cbn [map]; rewrite map_length, seq_length; reflexivity]. rewrite map_map. rewrite (map_ext _ (fun _ => 2 * h)) by (intros j; rewrite map_length, seq_length; reflexivity).
  rewrite map_const, seq_length. reflexivity.
Qed.
Lemma last_map_nil A B (f : A -> B) l : last (map (map f) l) [] = map f (last l []).
Proof. induction l as [|x l IH]; [reflexivity|]. destruct l as [|y l]; [reflexivity|]. exact IH. Qed.

(** * Stacks of frames *)
Lemma stack_series A (d : A) s l p : series (stack d s l) 0 p = map (fun x => x p) l.
Proof. unfold series, stack. cbn [shape nth at_]. rewrite <- (nth_all l (fun _ => d)) at 2. rewrite map_map. reflexivity. Qed.
Lemma stack_shape A (d : A) s l : shape (stack d s l) = length l :: s.
Proof. reflexivity. Qed.

(** * Adding data *)
Lemma crop_row A n (x : nd A) s m p : shape x = (s ++ [m])%list -> row (crop_last n x) p = firstn n (row x p).
Proof.
  intros E. assert (E' : shape (crop_last n x) = (s ++ [Nat.min n m])%list) by (unfold crop_last; cbn [shape]; rewrite E, removelast_last, last_last; reflexivity).
  rewrite (row_map p E), (row_map p E'). rewrite firstn_map. unfold crop_last. cbn [at_]. f_equal. clear. generalize 0. revert m. induction n as [|n IH]; intros [|m] k; cbn [Nat.min seq firstn]; try reflexivity. f_equal. apply IH.
Qed.
Arguments crop_row {A} n {x s m} p _.
Lemma crop_shape A n (x : nd A) s m : shape x = (s ++ [m])%list -> shape (crop_last n x) = (s ++ [Nat.min n m])%list.
Proof. intros E. unfold crop_last. cbn [shape]. rewrite E, removelast_last, last_last. reflexivity. Qed.
Lemma combine_map A B C (f : A -> B) (g : A -> C) l : combine (map f l) (map g l) = map (fun x => (f x, g x)) l.
Proof. induction l as [|x l IH]; [reflexivity|]. cbn [map combine]. f_equal. exact IH. Qed.
Lemma add_pixels (M : CMon) fr n m (a b : nd M) : shape a = (fr ++ [n])%list -> shape b = (fr ++ [m])%list ->
  pixelwise fr (fun x p => row x p) (fun x => shape x = (fr ++ [n])%list) (fun p => add_to M (row a p) (row b p)) (add_nd M a b).
Proof.
  intros Ea Eb. unfold add_nd, add_to. assert (La : forall p, length (row a p) = n) by (intros p; rewrite (row_map p Ea), map_length, seq_length; reflexivity). assert (Lb : forall p, length (row b p) = m) by (intros p; rewrite (row_map p Eb), map_length, seq_length; reflexivity).
  destruct (list_eq_dec _ _ _) as [E|E].
  - assert (n = m) by (rewrite Ea, Eb in E; apply app_inj_tail in E; apply E). subst m. apply pw_ext with (one' := fun p => Ok (map (fun q => madd M (fst q) (snd q)) (combine (row a p) (row b p)))); [intros p _; rewrite La, Lb, Nat.eqb_refl; reflexivity|].
    apply pw_ok; [exact Ea|]. intros p _. rewrite (row_map p Ea), (row_map p Eb), combine_map, map_map. rewrite (@row_map _ (Nd (shape a) _) fr n p Ea). reflexivity.
  - apply pw_raise. intros p _. rewrite La, Lb. destruct (Nat.eqb_spec n m) as [Q|Q]; [subst m; congruence|]. eexists. reflexivity.
Qed.
Lemma add_counts_gen (M : CMon) n m (a b : nd M) : shape a = [n] -> shape b = [m] ->
  match add_nd M a b with Ok x => shape x = [n] /\ add_to M (rowc a) (rowc b) = Ok (rowc x) | Raise _ => exists e, add_to M (rowc a) (rowc b) = Raise e end.
Proof.
  intros Ea Eb. unfold add_nd, add_to. rewrite (rowc_length Ea), (rowc_length Eb). destruct (list_eq_dec _ _ _) as [E|E].
  - assert (n = m) by congruence. subst m. rewrite Nat.eqb_refl. split; [exact Ea|]. f_equal. unfold rowc. cbn [shape at_]. rewrite Ea, Eb. cbn [last]. rewrite combine_map, map_map. reflexivity.
  - destruct (Nat.eqb_spec n m) as [Q|Q]; [subst m; congruence|]. eexists. reflexivity.
Qed.
Lemma add_counts n m (a b : nd nat) : shape a = [n] -> shape b = [m] ->
  match add_nd natmon a b with Ok x => @shape nat x = [n] /\ add_to natmon (rowc a) (rowc b) = Ok (@rowc nat x) | Raise _ => exists e, add_to natmon (rowc a) (rowc b) = Raise e end.
Proof. exact (@add_counts_gen natmon n m a b). Qed.
Lemma crop_rowc A n (x : nd A) m : shape x = [m] -> rowc (crop_last n x) = firstn n (rowc x).
Proof.
  intros E. unfold rowc, crop_last. cbn [shape at_]. rewrite E. cbn [removelast app last]. rewrite firstn_map. f_equal. clear. generalize 0. revert m. induction n as [|n IH]; intros [|m] k; cbn [Nat.min seq firstn]; try reflexivity. f_equal. apply IH.
Qed.
Lemma row_map_nd A B (f : A -> B) (x : nd A) p : row (map_nd f x) p = map f (row x p).
Proof. unfold row, map_nd. cbn [shape at_]. rewrite map_map. reflexivity. Qed.
Lemma add_opt_pixels (M : CMon) (f : M -> M) fr n m (flag : bool) (a b : option (nd M)) : form (fr ++ [n]) flag a -> oshape b (fr ++ [m]) ->
  pixelwise fr (fun x p => option_map (fun y => row y p) x) (form (fr ++ [n]) flag) (fun p => add_to_opt M f n (option_map (fun y => row y p) a) (option_map (fun y => row y p) b)) (add_nd_opt M f n a b).
Proof.
  intros Ha Hb. destruct a as [a|]; cbn [add_nd_opt add_to_opt option_map].
  2:{ apply pw_ok; [exact Ha|reflexivity]. }
  destruct flag; cbn [form] in Ha; [|discriminate Ha]. destruct Ha as (a' & E & Ea). injection E as <-. destruct b as [b|]; cbn [oshape] in Hb; cbn [option_map].
  2:{ apply pw_raise. intros p _. eexists. reflexivity. }
  eapply (@pw_bind fr (nd M) (list M) _ _ (fun x p => row x p) _ _ _ _ _ (fun p r => Ok (Some r))).
  - eapply pw_ext with (one' := fun p => add_to M (row a p) (row (map_nd f (crop_last n b)) p)); [intros p _; rewrite row_map_nd, (crop_row n p Hb); reflexivity|].
    eapply add_pixels; [exact Ea|]. cbn [map_nd shape]. apply crop_shape. exact Hb.
  - intros x Ex. apply pw_ok; [exists x; split; [reflexivity|exact Ex]|reflexivity].
Qed.
Lemma merge_pixels (K : Fld) (V : CMon) cor nm fr n m (out o : ndata K V) : tuple_form false cor nm (fr ++ [n]) [n] out -> wf o fr m ->
  pixelwise fr (@pix K V) (tuple_form false cor nm (fr ++ [n]) [n]) (fun p => merge_auto V n (pix out p) (pix o p)) (merge_auto_nd V n out o).
Proof.
  destruct out as [d c sq s1 s2|d c s1 s2|], o as [d' c' sq' s1' s2'|d' c' s1' s2'|]; cbn [tuple_form wf pix merge_auto merge_auto_nd]; try contradiction; intros HF HW; try (apply pw_raise; intros p _; eexists; reflexivity).
  - destruct HF as (H0 & H1 & H2 & H3 & H4 & H5), HW as (W1 & W2 & W3 & W4 & W5).
    eapply pw_bind with (proj := fun (x : nd V) p => row x p) (good := fun x => shape x = (fr ++ [n])%list).
    { eapply pw_ext with (one' := fun p => add_to V (row d p) (row (crop_last n d') p)); [intros p _; rewrite (crop_row n p W1); reflexivity|]. eapply add_pixels; [exact H1|apply crop_shape; exact W1]. }
    intros x Hx. cbv beta. pose proof (@add_counts n (Nat.min n m) c (crop_last n c') H2 (@crop_shape nat n c' [] m W2)) as AC. rewrite (@crop_rowc nat n c' m W2) in AC.
    destruct (add_nd natmon c (crop_last n c')) as [c2|e]; cbn [bind]; [|destruct AC as (e' & AC); apply pw_raise; intros p _; exists e'; rewrite AC; reflexivity]. destruct AC as (C1 & C2).
    eapply pw_ext; [intros p _; rewrite C2; cbn [bind]; reflexivity|].
    eapply pw_bind; [exact (@add_opt_pixels (fmon K) (fun x => x) fr n m _ sq sq' H3 W3)|]. intros sq2 Hsq. cbv beta.
    eapply pw_bind; [exact (@add_opt_pixels (cmon K) (ahalf (cgrp K)) fr n m _ s1 s1' H4 W4)|]. intros s3 Hs3. cbv beta.
    eapply pw_bind; [exact (@add_opt_pixels (cmon K) (ahalf (cgrp K)) fr n m _ s3 s2' Hs3 W5)|]. intros s4 Hs4. cbv beta.
    apply pw_ok; [cbn [tuple_form]; repeat split; assumption|]. intros p _. reflexivity.
  - destruct (add_nd V d (crop_last n d')) as [x|]; cbn [bind]; [destruct (add_nd natmon c (crop_last n c')) as [y|]; cbn [bind]|]; apply pw_raise; intros p _; (destruct (add_to V (row d p) (firstn n (row d' p))); cbn [bind]; [|eexists; reflexivity]); (destruct (add_to natmon _ _); cbn [bind]; eexists; reflexivity).
Qed.
