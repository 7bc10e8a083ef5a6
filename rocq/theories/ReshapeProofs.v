(** Proofs about the reshaping of frames. *)
From Verif Require Import Base ReshapeModel.
From Coq Require Import ZifyBool ZifyNat.
Set Implicit Arguments.

(** A computation over the first axis that gives [m] values for every pixel, for each of
    the indices of leading axes [lead]: [g i] is the computation number [i], applied to the
    values of one pixel. The frames have the shape after the first axis of [f]. *)
Definition column A (d : A) (n P : nat) (l : list A) (p : nat) : list A := map (fun k => nth (k * P + p) l d) (seq 0 n).
Definition pixelwise A B (d : A) (lead : list nat) (g : nat -> list A -> list B) (m : nat) (f : nd A) : nd B :=
  match nshape f with
  | [] => Nd [] []
  | n :: s => Nd (lead ++ s ++ [m])
      (flat_map (fun i => flat_map (fun p => g i (column d n (prodl s) (nvals f) p)) (seq 0 (prodl s))) (seq 0 (prodl lead)))
  end.

Lemma prodl_app a b : prodl (a ++ b) = prodl a * prodl b.
Proof. unfold prodl. induction a as [|x a IH]; cbn [app fold_right]; [lia|rewrite IH; lia]. Qed.
Lemma list_eqb_refl a : list_eqb a a = true.
Proof. unfold list_eqb. destruct (list_eq_dec _ a a); congruence. Qed.
Lemma list_eqb_eq a b : list_eqb a b = true -> a = b.
Proof. unfold list_eqb. destruct (list_eq_dec _ a b); [auto|discriminate]. Qed.
Lemma last_snoc A (l : list A) x d : last (l ++ [x]) d = x.
Proof. induction l as [|y l IH]; [reflexivity|]. cbn [app last]. destruct (l ++ [x]) eqn:E; [destruct l; discriminate|exact IH]. Qed.

(** ** thread_frame_shape *)
Lemma thread_shape_none s force : length s <> 1 \/ force = false -> thread_frame_shape s None force = Ok (map Z.of_nat s).
Proof.
  intros H. unfold thread_frame_shape. destruct (Nat.eqb_spec (length s) 1); destruct H; try contradiction; subst; cbn [andb negb]; try reflexivity.
Qed.
Lemma thread_shape_some s d force : s <> [] -> (0 < d)%Z -> thread_frame_shape s (Some d) force =
  if (Z.of_nat (prodl s) mod d =? 0)%Z then Ok [d; (Z.of_nat (prodl s) / d)%Z] else Raise ValueError.
Proof.
  intros Hs Hd. unfold thread_frame_shape. cbn [negb]. rewrite andb_false_r. cbn [andb]. destruct s as [|x s]; [contradiction|].
  replace (d =? 0)%Z with false by lia. set (T := Z.of_nat _). pose proof (Z.div_mod T d ltac:(lia)) as E.
  destruct (Z.eqb_spec (T mod d) 0); destruct (Z.eqb_spec T (d * (T / d))); try reflexivity; lia.
Qed.

Lemma map_to_nat s : map Z.to_nat (map Z.of_nat s) = s.
Proof. rewrite map_map. rewrite <- (map_id s) at 2. apply map_ext. intros. apply Nat2Z.id. Qed.
Lemma no_negative s : existsb (fun d => (d <? 0)%Z) (map Z.of_nat s) = false.
Proof. induction s as [|x s IH]; [reflexivity|]. cbn [map existsb]. rewrite IH. lia. Qed.
Lemma reshape_Z_nat A (a : nd A) s : reshape_Z a (map Z.of_nat s) = reshape a s.
Proof. unfold reshape_Z. rewrite no_negative, map_to_nat. reflexivity. Qed.

(** The new shape of the frames *)
Definition thread_shape (s : list nat) (div : option Z) : list nat :=
  match div with Some d => [Z.to_nat d; prodl s / Z.to_nat d] | None => match s with [x] => [1; x] | _ => s end end.
Lemma thread_shape_prod s div : match div with Some d => (0 < d)%Z /\ (Z.of_nat (prodl s) mod d = 0)%Z | None => True end -> prodl (thread_shape s div) = prodl s.
Proof.
  destruct div as [d|]; intros H; cbn [thread_shape].
  - destruct H as [H1 H2]. cbn [prodl fold_right]. rewrite Nat.mul_1_r. pose proof (Nat.div_mod (prodl s) (Z.to_nat d) ltac:(lia)) as E.
    assert (prodl s mod Z.to_nat d = 0); [|lia]. apply Nat2Z.inj. rewrite Nat2Z.inj_mod, Z2Nat.id by lia. exact H2.
  - destruct s as [|x [|y s]]; try reflexivity. cbn. lia.
Qed.
Lemma index_first n : 0 < n -> py_index n 0 = Some 0.
Proof. intros H. unfold py_index. cbn [Z.ltb Z.compare]. change (0 <=? 0)%Z with true. replace (0 <? Z.of_nat n)%Z with true by lia. reflexivity. Qed.
Lemma input_ok A (f : nd A) n s div : nshape f = n :: s -> match div with Some d => s <> [] /\ (0 < d)%Z /\ (Z.of_nat (prodl s) mod d = 0)%Z | None => True end ->
  reshape_input f 0 div None = Ok (Nd (n :: thread_shape s div) (nvals f), s).
Proof.
  intros Hf Hd. unfold reshape_input. rewrite Hf. rewrite index_first by (cbn; lia). cbn [bind nth]. unfold remove_at. rewrite Hf. cbn [firstn app skipn nth].
  assert (HT : thread_frame_shape s div true = Ok (map Z.of_nat (thread_shape s div))).
  { destruct div as [d|].
    - destruct Hd as (H1 & H2 & H3). rewrite thread_shape_some by assumption. rewrite H3. cbn [Z.eqb thread_shape map].
      do 3 f_equal; [|f_equal]; [lia|]. rewrite Nat2Z.inj_div, Z2Nat.id by lia. reflexivity.
    - destruct s as [|x [|y s]]; [reflexivity| |reflexivity]. cbn -[Z.mul Z.div]. unfold thread_frame_shape. cbn -[Z.mul Z.div].
      rewrite Nat.mul_1_r, Z.div_1_r, Z.mul_1_l, Z.eqb_refl. reflexivity. }
  cbv beta iota zeta. rewrite HT. cbn [bind]. unfold insert. cbn [firstn app skipn]. change (Z.of_nat n :: map Z.of_nat (thread_shape s div)) with (map Z.of_nat (n :: thread_shape s div)).
  rewrite reshape_Z_nat. unfold reshape. rewrite Hf. cbn [prodl fold_right]. fold (prodl (thread_shape s div)). fold (prodl s).
  rewrite thread_shape_prod by (destruct div; [apply Hd|exact I]). rewrite Nat.eqb_refl. reflexivity.
Qed.

(** ** Round trip without mask *)
Lemma slice_lead A (lead s : list A) k : k = length s -> 0 < k -> slice_neg k (lead ++ s) = lead.
Proof.
  intros -> H. unfold slice_neg. replace (length s =? 0) with false by lia. rewrite app_length.
  replace (length lead + length s - length s) with (length lead) by lia. rewrite firstn_app, Nat.sub_diag, firstn_all. cbn [firstn]. apply app_nil_r.
Qed.
Lemma slice_short A (s : list A) k : length s <= k -> slice_neg k s = [].
Proof. intros H. unfold slice_neg. destruct (k =? 0); [reflexivity|]. replace (length s - k) with 0 by lia. reflexivity. Qed.

(** Frames whose number of axes survives, or the first level only *)
Definition axes_fit (lead s : list nat) (div : option Z) : Prop :=
  match div with None => length s <> 1 | Some _ => length s = 2 \/ (2 < length s /\ lead = []) end.
Lemma output_target lead s div m : axes_fit lead s div -> match div with Some d => (0 < d)%Z /\ (Z.of_nat (prodl s) mod d = 0)%Z | None => True end ->
  output_shape (Some s) None (lead ++ thread_shape s div ++ [m]) = Ok (lead ++ s ++ [m]).
Proof.
  intros HF HD. unfold output_shape. cbn [bind]. destruct (lead ++ thread_shape s div ++ [m]) eqn:E; [destruct lead; [destruct (thread_shape s div)|]; discriminate|].
  rewrite <- E. clear E. rewrite (app_assoc lead (thread_shape s div) [m]) at 2. rewrite last_snoc. do 2 f_equal.
  unfold axes_fit in HF. destruct div as [d|].
  - destruct HF as [HF|[HF ->]].
    + apply slice_lead; cbn [thread_shape app length]; lia.
    + apply slice_short. cbn [thread_shape app length]. lia.
  - replace (thread_shape s None) with s by (cbn [thread_shape]; destruct s as [|x [|y s]]; cbn in HF; congruence).
    apply slice_lead; rewrite ?app_length; cbn [length]; lia.
Qed.

Definition maybe A (o : bool) (x : A) : option A := if o then Some x else None.
Definition round_trip A B (d : A) (lead : list nat) m (g : nat -> list A -> list B) (hs : list (bool * (nat -> list A -> list B))) (count : nd B) (f : nd A) : list (option (nd B)) :=
  Some (pixelwise d lead g m f) :: Some count :: map (fun h => maybe (fst h) (pixelwise d lead (snd h) m f)) hs.

Lemma map_res_ok A B C (F : nat -> A -> res B) (fa : C -> A) (fb : C -> B) i (l : list C) : (forall i c, F i (fa c) = Ok (fb c)) \/ (forall j c, i <= j -> F j (fa c) = Ok (fb c)) ->
  map_res F i (map fa l) = Ok (map fb l).
Proof.
  intros H. assert (H' : forall j c, i <= j -> F j (fa c) = Ok (fb c)) by (destruct H; auto). clear H. revert i H'.
  induction l as [|x l IH]; intros i H; [reflexivity|]. cbn [map map_res]. rewrite H by lia. cbn [bind]. rewrite IH by (intros; apply H; lia). reflexivity.
Qed.
Lemma map_res_ok2 A B C (F : nat -> A -> res B) (fa : C -> A) (fb : C -> B) i (l : list C) : (forall j c, i <= j -> F j (fa c) = Ok (fb c)) ->
  map_res F i (map fa l) = Ok (map fb l).
Proof. intros H. apply map_res_ok. right. exact H. Qed.

Section RoundTrip.
  Variables A B : Type.
  Variables (d : A) (nan : B).
  Theorem plain_round_trip (f : nd A) n s div lead m g hs count : nshape f = n :: s -> axes_fit lead s div ->
    match div with Some d => (0 < d)%Z /\ (Z.of_nat (prodl s) mod d = 0)%Z | None => True end ->
    exists f', reshape_input f 0 div None = Ok (f', s) /\
      reshape_output nan (round_trip d lead m g hs count f') (Some s) None = Ok (round_trip d lead m g hs count f).
  Proof.
    intros Hf HF HD. eexists. split.
    - apply input_ok with (n := n); [exact Hf|]. destruct div as [d'|]; [|exact I]. split; [|exact HD].
      destruct HF as [HF|[HF _]]; destruct s; cbn in HF; try discriminate; lia.
    - set (f' := Nd _ _).
      assert (HP : forall h, let P x := pixelwise d lead h m x in reshape_one nan (lead ++ s ++ [m]) None (P f') = Ok (P f)).
      { intros h. cbv zeta. unfold reshape_one, reshape, pixelwise, f'. rewrite Hf. cbn [nshape nvals]. rewrite !prodl_app, thread_shape_prod by exact HD.
        rewrite Nat.eqb_refl. cbn [bind]. reflexivity. }
      unfold reshape_output, round_trip. cbn [map_res]. unfold pixelwise at 1. cbn [nshape f']. rewrite (@output_target lead s div m HF HD). cbn [bind Nat.eqb].
      rewrite HP. cbn [bind].
      rewrite (@map_res_ok2 _ _ _ _ (fun h => maybe (fst h) (pixelwise d lead (snd h) m f')) (fun h => maybe (fst h) (pixelwise d lead (snd h) m f))); [reflexivity|].
      intros j [[|] h] Hj; [|reflexivity]. cbn [maybe fst snd]. replace (j =? 1) with false by lia. rewrite HP. reflexivity.
  Qed.
End RoundTrip.

(** ** Masks *)
Section Masks.
  Variable A : Type.
  Lemma blocks_length (r n : nat) (l : list A) : length (blocks r n l) = n.
  Proof. unfold blocks. rewrite map_length, seq_length. reflexivity. Qed.
  Lemma blocks_flat C (f : C -> list A) r (l : list C) : (forall x, In x l -> length (f x) = r) -> blocks r (length l) (flat_map f l) = map f l.
  Proof.
    intros H. unfold blocks. induction l as [|x l IH]; [reflexivity|]. cbn [length seq map flat_map].
    assert (Hx : length (f x) = r) by (apply H; left; reflexivity). f_equal.
    - cbn [Nat.mul skipn]. rewrite firstn_app, Hx, Nat.sub_diag. cbn [firstn]. rewrite app_nil_r, <- Hx. apply firstn_all.
    - rewrite <- IH by (intros; apply H; right; assumption). rewrite <- seq_shift, map_map. apply map_ext. intros i. f_equal.
      rewrite skipn_app, Hx. replace (S i * r - r) with (i * r) by lia. rewrite skipn_all2 by lia. reflexivity.
  Qed.
  (** The positions at which the mask is True *)
  Definition positions (mask : list bool) : list nat := filter (fun p => nth p mask false) (seq 0 (length mask)).
  Lemma positions_cons b mask : positions (b :: mask) = (if b then [0] else []) ++ map S (positions mask).
  Proof.
    unfold positions. cbn [length seq]. cbn [filter]. change (nth 0 (b :: mask) false) with b.
    assert (E : filter (fun p => nth p (b :: mask) false) (seq 1 (length mask)) = map S (filter (fun p => nth p mask false) (seq 0 (length mask)))).
    { rewrite <- seq_shift. generalize (seq 0 (length mask)). intros l. induction l as [|x l IH]; [reflexivity|]. cbn [map filter]. rewrite IH. change (nth (S x) (b :: mask) false) with (nth x mask false). destruct (nth x mask false); reflexivity. }
    rewrite E. destruct b; reflexivity.
  Qed.
  Lemma positions_count mask : length (positions mask) = count_true mask.
  Proof.
    induction mask as [|b mask IH]; [reflexivity|]. rewrite positions_cons, app_length, map_length, IH. unfold count_true. cbn [filter]. destruct b; reflexivity.
  Qed.
  Lemma select_positions (d : A) mask l : length mask = length l -> select mask l = map (fun p => nth p l d) (positions mask).
  Proof.
    revert l. induction mask as [|b mask IH]; intros [|x l] H; cbn in H; try discriminate; [reflexivity|].
    rewrite positions_cons, map_app, map_map. cbn [nth]. unfold select in *. cbn [combine filter]. destruct b; cbn [map fst snd app nth]; rewrite IH by lia; reflexivity.
  Qed.
  Lemma scatter_positions (h : nat -> A) mask fill : scatter mask (map h (positions mask)) fill = map (fun p => if nth p mask false then h p else fill) (seq 0 (length mask)).
  Proof.
    revert h. induction mask as [|b mask IH]; intros h; [reflexivity|]. rewrite positions_cons. cbn [length seq map nth].
    rewrite <- seq_shift, map_map. specialize (IH (fun p => h (S p))). destruct b; cbn [app map scatter nth]; rewrite map_map, IH; reflexivity.
  Qed.
End Masks.
Lemma select_map A B (F : A -> B) mask l : select mask (map F l) = map F (select mask l).
Proof.
  unfold select. revert l. induction mask as [|b mask IH]; intros [|x l]; try reflexivity. cbn [map combine filter]. destruct b; cbn [map fst snd]; rewrite IH; reflexivity.
Qed.
Lemma blocks_one_map A n (l : list A) : length l = n -> blocks 1 n l = map (fun x => [x]) l.
Proof.
  intros H. assert (E : l = flat_map (fun x => [x]) l) by (clear; induction l as [|x l IH]; [reflexivity|cbn; f_equal; exact IH]).
  rewrite E at 1. rewrite <- H. rewrite E at 1. rewrite <- E at 1. apply (blocks_flat (fun x => [x])). reflexivity.
Qed.

Section MaskRoundTrip.
  Variables A B : Type.
  Variables (d : A) (nan : B).
  (** Computation for the pixels at which the mask is True, NaN for the others *)
  Definition pixelwise_masked (lead : list nat) (g : nat -> list A -> list B) (m : nat) (mask : nd bool) (f : nd A) : nd B :=
    match nshape f with
    | [] => Nd [] []
    | n :: _ => let P := prodl (nshape mask) in
        Nd (lead ++ nshape mask ++ [m])
          (flat_map (fun i => flat_map (fun p => if nth p (nvals mask) false then g i (column d n P (nvals f) p) else repeat nan m) (seq 0 P)) (seq 0 (prodl lead)))
    end.

  Lemma mask_values (f : nd A) n (mask : nd bool) : nshape f = n :: nshape mask -> wf f -> wf mask ->
    index_mask f mask = Ok (Nd [n; count_true (nvals mask)]
      (flat_map (fun k => map (fun p => nth (k * prodl (nshape mask) + p) (nvals f) d) (positions (nvals mask))) (seq 0 n))).
  Proof.
    intros Hf Hw Hm. unfold index_mask. rewrite Hf. rewrite firstn_all, list_eqb_refl, skipn_all. change (prodl []) with 1. rewrite Nat.mul_1_r.
    unfold wf in *. rewrite Hf in Hw. change (prodl (n :: nshape mask)) with (n * prodl (nshape mask)) in Hw. set (P := prodl (nshape mask)) in *.
    do 2 f_equal. unfold blocks at 2. rewrite (flat_map_concat_map (fun row => _)), map_map. rewrite (flat_map_concat_map (fun k => _)). f_equal. apply map_ext_in. intros k Hk. apply in_seq in Hk.
    assert (HL : length (firstn P (skipn (k * P) (nvals f))) = P) by (rewrite firstn_length, skipn_length; nia).
    rewrite blocks_one_map by exact HL. rewrite select_map. rewrite <- flat_map_concat_map.
    assert (E : forall l : list A, flat_map (fun x => [x]) l = l) by (induction l as [|x l IH]; [reflexivity|cbn; f_equal; exact IH]). rewrite E.
    rewrite (@select_positions A d) by (rewrite HL; exact Hm). apply map_ext_in. intros p Hp. apply filter_In in Hp. destruct Hp as [Hp _]. apply in_seq in Hp. rewrite Hm in Hp.
    rewrite <- (firstn_skipn (k * P) (nvals f)) at 2. rewrite app_nth2; rewrite firstn_length, Nat.min_l by nia; [|lia].
    replace (k * P + p - k * P) with p by lia.
    rewrite <- (firstn_skipn P (skipn (k * P) (nvals f))) at 2. rewrite app_nth1; [reflexivity|]. rewrite HL. lia.
  Qed.

  Lemma nth_flat_rows (n c : nat) (F : nat -> list A) k q : (forall k, length (F k) = c) -> k < n -> q < c -> nth (k * c + q) (flat_map F (seq 0 n)) d = nth q (F k) d.
  Proof.
    intros HF. revert F k HF. induction n as [|n IH]; intros F k HF Hk Hq; [lia|]. cbn [seq flat_map]. destruct k as [|k].
    - rewrite app_nth1 by (rewrite HF; lia). reflexivity.
    - rewrite app_nth2 by (rewrite HF; nia). rewrite HF. replace (S k * c + q - c) with (k * c + q) by lia.
      rewrite <- seq_shift. rewrite flat_map_concat_map, map_map, <- flat_map_concat_map. apply (IH (fun k => F (S k))); [intros; apply HF|lia|lia].
  Qed.

  Theorem mask_round_trip (f : nd A) n (mask : nd bool) lead m g hs count :
    nshape f = n :: nshape mask -> wf f -> wf mask -> length (nshape mask) = 2 -> (forall i c, length (g i c) = m) -> (forall h, In h hs -> forall i c, length (snd h i c) = m) ->
    exists f', reshape_input f 0 None (Some mask) = Ok (f', [count_true (nvals mask)]) /\
      reshape_output nan (round_trip d lead m g hs count f') (Some [count_true (nvals mask)]) (Some mask) =
        Ok (Some (pixelwise_masked lead g m mask f) :: Some count :: map (fun h => maybe (fst h) (pixelwise_masked lead (snd h) m mask f)) hs).
  Proof.
    intros Hf Hw Hm H2 Hg Hhs. set (P := prodl (nshape mask)). set (c := count_true (nvals mask)).
    assert (HI := mask_values Hf Hw Hm). fold P c in HI. set (f' := Nd _ _) in HI. exists f'. split.
    - unfold reshape_input. rewrite Hf. rewrite index_first by (cbn; lia). cbn [negb Nat.eqb].
      rewrite HI. cbn [bind]. unfold f' at 1 2 3. cbn [nshape nth remove_at firstn app skipn insert]. unfold remove_at. cbn [nshape firstn app skipn].
      rewrite thread_shape_none by auto. cbn [bind map]. unfold insert. cbn [firstn app skipn]. change [Z.of_nat n; Z.of_nat c] with (map Z.of_nat [n; c]). rewrite reshape_Z_nat.
      unfold reshape, f'. cbn [nshape nvals]. rewrite Nat.eqb_refl. reflexivity.
    - assert (HC : length (positions (nvals mask)) = c) by apply positions_count.
      assert (Hcol : forall q, q < c -> column d n c (nvals f') q = column d n P (nvals f) (nth q (positions (nvals mask)) 0)).
      { intros q Hq. unfold column, f'. cbn [nvals]. apply map_ext_in. intros k Hk. apply in_seq in Hk.
        rewrite nth_flat_rows by (try (intros; rewrite map_length; exact HC); lia).
        rewrite nth_indep with (d' := nth (k * P + 0) (nvals f) d) by (rewrite map_length; lia).
        rewrite (map_nth (fun p => nth (k * P + p) (nvals f) d)). reflexivity. }
      assert (HV : forall h : nat -> list A -> list B, (forall i c, length (h i c) = m) -> nvals (pixelwise d lead h m f') =
        flat_map (fun i => flat_map (fun p => h i (column d n P (nvals f) p)) (positions (nvals mask))) (seq 0 (prodl lead))).
      { intros h Hh. unfold pixelwise. unfold f' at 1. cbn [nshape nvals prodl fold_right]. rewrite Nat.mul_1_r. rewrite !flat_map_concat_map. f_equal. apply map_ext. intros i.
        rewrite !flat_map_concat_map. f_equal. apply list_nth_ext with (d := []); rewrite !map_length, seq_length; [symmetry; exact HC|].
        intros q Hq. rewrite nth_indep with (d' := h i (column d n c (nvals f') 0)) by (rewrite map_length, seq_length; exact Hq).
        rewrite (map_nth (fun p => h i (column d n c (nvals f') p))), seq_nth by exact Hq. cbn [Nat.add]. rewrite Hcol by exact Hq.
        symmetry. rewrite nth_indep with (d' := h i (column d n P (nvals f) 0)) by (rewrite map_length; lia).
        rewrite (map_nth (fun p => h i (column d n P (nvals f) p))). reflexivity. }
      assert (HS : forall h : nat -> list A -> list B, (forall i c, length (h i c) = m) -> nshape (pixelwise d lead h m f') = lead ++ [c; m]) by reflexivity.
      assert (HP : forall h : nat -> list A -> list B, (forall i c, length (h i c) = m) -> reshape_one nan (lead ++ [c] ++ [m]) (Some mask) (pixelwise d lead h m f') = Ok (pixelwise_masked lead h m mask f)).
      { intros h Hh. unfold reshape_one, reshape. rewrite HS by exact Hh. cbn [app]. rewrite Nat.eqb_refl. cbn [bind nshape nvals]. rewrite H2.
        rewrite (slice_lead lead [c; m]) by (cbn; lia). change (lead ++ [c; m]) with (lead ++ [c] ++ [m]). rewrite app_assoc, last_snoc, <- app_assoc. cbn [app].
        rewrite list_eqb_refl. rewrite HV by exact Hh. unfold pixelwise_masked. rewrite Hf. fold P. do 2 f_equal.
        assert (HL : forall i, length (flat_map (fun p => h i (column d n P (nvals f) p)) (positions (nvals mask))) = c * m).
        { intros i. rewrite <- HC. generalize (positions (nvals mask)). intros l. induction l as [|x l IH]; [reflexivity|]. cbn [flat_map length]. rewrite app_length, Hh, IH. lia. }
        pose proof (@blocks_flat B nat (fun i => flat_map (fun p => h i (column d n P (nvals f) p)) (positions (nvals mask))) (c * m) (seq 0 (prodl lead)) ltac:(intros; apply HL)) as HB.
        rewrite seq_length in HB. fold c. rewrite HB. rewrite !flat_map_concat_map, map_map. f_equal. apply map_ext. intros i.
        rewrite <- HC. rewrite (@blocks_flat B nat (fun p => h i (column d n P (nvals f) p)) m (positions (nvals mask))) by (intros; apply Hh).
        rewrite (scatter_positions (fun p => h i (column d n P (nvals f) p))), flat_map_concat_map. rewrite Hm. reflexivity. }
      unfold reshape_output, round_trip. cbn [map_res]. rewrite HS by exact Hg.
      assert (HT : output_shape (Some [c]) (Some mask) (lead ++ [c; m]) = Ok (lead ++ [c] ++ [m])).
      { unfold output_shape. cbn [bind]. destruct (lead ++ [c; m]) eqn:E; [destruct lead; discriminate|]. rewrite <- E, H2. rewrite (slice_lead lead [c; m]) by (cbn; lia).
        change (lead ++ [c; m]) with (lead ++ [c] ++ [m]). rewrite (app_assoc lead [c] [m]) at 1. rewrite last_snoc. reflexivity. }
      rewrite HT. cbn [bind Nat.eqb]. rewrite HP by exact Hg. cbn [bind].
      assert (HR : forall j, 2 <= j -> map_res (fun i x => match x with Some x => if i =? 1 then Ok (Some x) else let* y := reshape_one nan (lead ++ [c] ++ [m]) (Some mask) x in Ok (Some y) | None => Ok None end) j
          (map (fun h => maybe (fst h) (pixelwise d lead (snd h) m f')) hs) = Ok (map (fun h => maybe (fst h) (pixelwise_masked lead (snd h) m mask f)) hs)).
      { clear - HP Hhs. induction hs as [|[o h] hs IH]; intros j Hj; [reflexivity|]. cbn [map map_res fst snd].
        destruct o; cbn [maybe]; [replace (j =? 1) with false by lia; rewrite (HP h (Hhs _ (or_introl eq_refl))); cbn [bind]|cbn [bind]]; rewrite IH by (auto; intros; apply Hhs; right; assumption); reflexivity. }
      rewrite HR by lia. reflexivity.
  Qed.
End MaskRoundTrip.
