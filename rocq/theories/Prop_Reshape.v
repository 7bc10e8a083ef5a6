(** C42: reshape_input followed by reshape_output (core.py 254-388). *)
From Verif Require Import Base ReshapeModel ReshapeProofs.
From Coq Require Import ZifyBool ZifyNat.
Set Implicit Arguments.

(** The result of a computation over the first axis that treats every pixel by itself,
    made on the reshaped frames and given to reshape_output, is the result of the same
    computation on the frames: for every divisor of the number of pixels if the frames have
    two axes ([lead] are the leading axes of the result, the levels of a multiple tau
    computation), for every divisor and no leading axes if the frames have more, and without
    divisor for frames that do not have exactly one axis.  Count data and missing arrays
    come back unchanged. *)
Theorem C42_round_trip A B (d : A) (nan : B) (f : nd A) n s div lead m g hs count :
  nshape f = n :: s ->
  match div with None => length s <> 1 | Some _ => length s = 2 \/ (2 < length s /\ lead = []) end ->
  match div with Some d => (0 < d)%Z /\ (Z.of_nat (prodl s) mod d = 0)%Z | None => True end ->
  exists f', reshape_input f 0 div None = Ok (f', s) /\ nvals f' = nvals f /\
    reshape_output nan (round_trip d lead m g hs count f') (Some s) None = Ok (round_trip d lead m g hs count f).
Proof.
  intros Hf HF HD. destruct (@plain_round_trip A B d nan f n s div lead m g hs count Hf HF HD) as (f' & H1 & H2).
  exists f'. split; [exact H1|]. split; [|exact H2].
  revert H1. unfold reshape_input. destruct (py_index _ _); [|discriminate]. cbn [bind]. destruct (thread_frame_shape _ _ _); [|discriminate]. cbn [bind].
  unfold reshape_Z. destruct (existsb _ _); [discriminate|]. unfold reshape. destruct (_ =? _); [|discriminate]. cbn [bind]. intros H. injection H as <- _. reflexivity.
Qed.
Print Assumptions C42_round_trip.

(** Two frames of 2x3 pixels with divisor 3, and sums of the pixels in two levels *)
Definition r_f : nd nat := Nd [2; 2; 3] [1; 2; 3; 4; 5; 6; 10; 20; 30; 40; 50; 60].
Definition r_sum (i : nat) (l : list nat) : list nat := [i + fold_right Nat.add 0 l; 7].
Example round_trip_holds : reshape_input r_f 0 (Some 3%Z) None = Ok (Nd [2; 3; 2] (nvals r_f), [2; 3]) /\
  pixelwise 0 [2] r_sum 2 (Nd [2; 3; 2] (nvals r_f)) = Nd [2; 3; 2; 2] [11; 7; 22; 7; 33; 7; 44; 7; 55; 7; 66; 7; 12; 7; 23; 7; 34; 7; 45; 7; 56; 7; 67; 7] /\
  pixelwise 0 [2] r_sum 2 r_f = Nd [2; 2; 3; 2] [11; 7; 22; 7; 33; 7; 44; 7; 55; 7; 66; 7; 12; 7; 23; 7; 34; 7; 45; 7; 56; 7; 67; 7] /\
  reshape_output 999 (round_trip 0 [2] 2 r_sum [(false, r_sum)] (Nd [2] [5; 4]) (Nd [2; 3; 2] (nvals r_f))) (Some [2; 3]) None
    = Ok [Some (pixelwise 0 [2] r_sum 2 r_f); Some (Nd [2] [5; 4]); None].
Proof. vm_compute. repeat split. Qed.

(** With a mask of two axes: the values computed for the selected pixels are at their
    places, all other places are NaN. *)
Theorem C42_mask A B (d : A) (nan : B) (f : nd A) n (mask : nd bool) lead m g hs count :
  nshape f = n :: nshape mask -> wf f -> wf mask -> length (nshape mask) = 2 -> (forall i c, length (g i c) = m) -> (forall h, In h hs -> forall i c, length (snd h i c) = m) ->
  exists f', reshape_input f 0 None (Some mask) = Ok (f', [count_true (nvals mask)]) /\
    reshape_output nan (round_trip d lead m g hs count f') (Some [count_true (nvals mask)]) (Some mask) =
      Ok (Some (pixelwise_masked d nan lead g m mask f) :: Some count :: map (fun h => maybe (fst h) (pixelwise_masked d nan lead (snd h) m mask f)) hs).
Proof. intros. apply mask_round_trip with (n := n); assumption. Qed.
Print Assumptions C42_mask.

Definition r_mask : nd bool := Nd [2; 3] [true; false; true; false; false; true].
Example mask_holds : reshape_input r_f 0 None (Some r_mask) = Ok (Nd [2; 3] [1; 3; 6; 10; 30; 60], [3]) /\
  pixelwise_masked 0 999 [2] r_sum 2 r_mask r_f = Nd [2; 2; 3; 2] [11; 7; 999; 999; 33; 7; 999; 999; 999; 999; 66; 7; 12; 7; 999; 999; 34; 7; 999; 999; 999; 999; 67; 7] /\
  reshape_output 999 (round_trip 0 [2] 2 r_sum [(true, r_sum)] (Nd [2] [5; 4]) (Nd [2; 3] [1; 3; 6; 10; 30; 60])) (Some [3]) (Some r_mask)
    = Ok [Some (pixelwise_masked 0 999 [2] r_sum 2 r_mask r_f); Some (Nd [2] [5; 4]); Some (pixelwise_masked 0 999 [2] r_sum 2 r_mask r_f)].
Proof. vm_compute. repeat split. Qed.

(** One frame: reshape_frame gives back the frame that was reshaped, with a mask it puts the
    selected values at their places and NaN elsewhere. *)
Theorem C42_frame A (nan : A) (x : nd A) (s' : list nat) : wf x -> prodl s' = prodl (nshape x) ->
  (let* y := reshape x s' in reshape_frame nan y (nshape x) None) = Ok x /\
  forall mask d, wf mask -> nshape mask = nshape x ->
    reshape_frame nan (Nd [count_true (nvals mask)] (select (nvals mask) (nvals x))) [count_true (nvals mask)] (Some mask) =
      Ok (Nd (nshape x) (map (fun p => if nth p (nvals mask) false then nth p (nvals x) d else nan) (seq 0 (length (nvals x))))).
Proof.
  intros Hw HP. split.
  - unfold reshape. rewrite HP, Nat.eqb_refl. cbn [bind]. unfold reshape_frame, reshape. cbn [nshape nvals]. rewrite HP, Nat.eqb_refl. destruct x. reflexivity.
  - intros mask d Hm HS. unfold reshape_frame, reshape. cbn [nshape]. rewrite Nat.eqb_refl. cbn [bind nshape]. rewrite list_eqb_refl. cbn [nvals]. unfold wf in *.
    assert (HL : length (nvals mask) = length (nvals x)) by congruence.
    rewrite (@select_positions A d) by exact HL. rewrite (scatter_positions (fun p => nth p (nvals x) d)), HL, HS. reflexivity.
Qed.
Print Assumptions C42_frame.
Example frame_holds : wf (Nd [2; 3] [1; 2; 3; 4; 5; 6]) /\ reshape_frame 999 (Nd [3; 2] [1; 2; 3; 4; 5; 6]) [2; 3] None = Ok (Nd [2; 3] [1; 2; 3; 4; 5; 6]) /\
  reshape_frame 999 (Nd [3] [1; 3; 6]) [3] (Some r_mask) = Ok (Nd [2; 3] [1; 999; 3; 999; 999; 6]).
Proof. vm_compute. repeat split. Qed.

(** Divisors that are refused *)
Theorem C42_divisor_errors A (f : nd A) n s d : nshape f = n :: s ->
  (s = [] -> reshape_input f 0 (Some d) None = Raise TypeError) /\
  (s <> [] -> reshape_input f 0 (Some 0%Z) None = Raise ZeroDivisionError) /\
  (s <> [] -> (0 < d)%Z -> (Z.of_nat (prodl s) mod d <> 0)%Z -> reshape_input f 0 (Some d) None = Raise ValueError) /\
  (s <> [] -> (d < 0)%Z -> reshape_input f 0 (Some d) None = Raise ValueError).
Proof.
  intros Hf. unfold reshape_input. rewrite Hf, index_first by (cbn; lia). cbn [bind nth]. unfold remove_at. rewrite Hf. cbn [firstn app skipn nth]. repeat split.
  - intros ->. reflexivity.
  - intros Hs. unfold thread_frame_shape. rewrite andb_false_r. destruct s; [contradiction|]. reflexivity.
  - intros Hs H1 H2. rewrite thread_shape_some by assumption. destruct (Z.eqb_spec (Z.of_nat (prodl s) mod d) 0); [contradiction|reflexivity].
  - intros Hs Hd. unfold thread_frame_shape. rewrite andb_false_r. cbn [andb]. destruct s as [|x s]; [contradiction|].
    replace (d =? 0)%Z with false by lia. destruct (_ =? _)%Z; [|reflexivity]. cbn [bind]. unfold insert. cbn [firstn app skipn]. unfold reshape_Z. cbn [existsb].
    replace (d <? 0)%Z with true by lia. rewrite Bool.orb_true_r. reflexivity.
Qed.
Print Assumptions C42_divisor_errors.
Example divisor_errors_hold : reshape_input (Nd [2] [1; 2]) 0 (Some 2%Z) None = Raise TypeError /\ reshape_input r_f 0 (Some 0%Z) None = Raise ZeroDivisionError /\
  reshape_input r_f 0 (Some 4%Z) None = Raise ValueError /\ reshape_input r_f 0 (Some (-2)%Z) None = Raise ValueError.
Proof. vm_compute. repeat split. Qed.

(** Frames with one axis never come back: without divisor, or with divisor one, an axis of
    length one is put before the frame, other divisors end in ValueError. *)
Theorem C42_one_axis_refuted A B (d : A) (nan : B) (f : nd A) n P div m g hs count : nshape f = [n; P] -> 0 < P -> 0 < m ->
  match div with Some d => (0 < d)%Z /\ (Z.of_nat P mod d = 0)%Z | None => True end ->
  exists f', reshape_input f 0 div None = Ok (f', [P]) /\
    match div with
    | None | Some 1%Z => exists rest, reshape_output nan (round_trip d [] m g hs count f') (Some [P]) None = Ok (Some (Nd [1; P; m] (nvals (pixelwise d [] g m f))) :: rest)
    | _ => reshape_output nan (round_trip d [] m g hs count f') (Some [P]) None = Raise ValueError
    end.
Proof.
  intros Hf HP Hm HD. assert (HPP : prodl [P] = P) by (cbn; lia). eexists. split.
  - apply input_ok with (n := n); [exact Hf|]. destruct div; [|exact I]. split; [discriminate|]. rewrite HPP. exact HD.
  - set (f' := Nd _ _).
    assert (HS : forall h, prodl (thread_shape [P] div) = P -> nshape (pixelwise d [] h m f') = thread_shape [P] div ++ [m] /\ nvals (pixelwise d [] h m f') = nvals (pixelwise (B := B) d [] h m f)).
    { intros h HT. unfold pixelwise, f'. rewrite Hf. cbn [nshape nvals app]. split; [reflexivity|]. rewrite HT, HPP. reflexivity. }
    assert (HT : prodl (thread_shape [P] div) = P).
    { rewrite <- HPP at 2. apply thread_shape_prod. destruct div; [|exact I]. rewrite HPP. exact HD. }
    assert (One : thread_shape [P] div = [1; P] -> exists rest, reshape_output nan (round_trip d [] m g hs count f') (Some [P]) None = Ok (Some (Nd [1; P; m] (nvals (pixelwise d [] g m f))) :: rest)).
    { intros ET.
      assert (HO : forall h, reshape_one nan [1; P; m] None (pixelwise d [] h m f') = Ok (Nd [1; P; m] (nvals (pixelwise d [] h m f)))).
      { intros h. unfold reshape_one, reshape. destruct (HS h HT) as [E1 E2]. rewrite E1, ET, E2. rewrite Nat.eqb_refl. reflexivity. }
      unfold reshape_output, round_trip. cbn [map_res]. destruct (HS g HT) as [E1 _]. rewrite E1, ET.
      change (output_shape (Some [P]) None ([1; P] ++ [m])) with (Ok [1; P; m]). cbn [bind Nat.eqb]. rewrite HO. cbn [bind].
      rewrite (@map_res_ok2 _ _ _ _ (fun h => maybe (fst h) (pixelwise d [] (snd h) m f')) (fun h => maybe (fst h) (Nd [1; P; m] (nvals (pixelwise d [] (snd h) m f))))); [eexists; reflexivity|].
      intros j [[|] h] Hj; [|reflexivity]. cbn [maybe fst snd]. destruct j as [|[|j]]; try lia. rewrite HO. reflexivity. }
    assert (Other : forall k, thread_shape [P] div = [k; P / k] -> k <> 1 -> k * (P / k) = P -> reshape_output nan (round_trip d [] m g hs count f') (Some [P]) None = Raise ValueError).
    { intros k ET Hk E. unfold reshape_output, round_trip. cbn [map_res]. destruct (HS g HT) as [E1 _]. rewrite E1, ET.
      change (output_shape (Some [P]) None ([k; P / k] ++ [m])) with (Ok [k; P; m]). cbn [bind Nat.eqb]. unfold reshape_one, reshape. rewrite E1, ET. cbn [app prodl fold_right]. destruct (Nat.eqb_spec (k * (P * (m * 1))) (k * (P / k * (m * 1)))) as [H|H]; [|reflexivity].
      exfalso. destruct (Nat.eq_dec k 0); [subst; lia|]. apply Nat.mul_cancel_l in H; [|assumption]. apply Nat.mul_cancel_r in H; [|lia]. nia. }
    destruct div as [z|]; [|apply One; reflexivity]. destruct HD as [H1 H2].
    assert (ED : Z.to_nat z * (P / Z.to_nat z) = P) by (revert HT; cbn [thread_shape]; rewrite HPP; cbn [prodl fold_right]; lia).
    assert (HTZ : thread_shape [P] (Some z) = [Z.to_nat z; P / Z.to_nat z]) by (cbn [thread_shape]; rewrite HPP; reflexivity).
    destruct z as [|[z|z|]|z]; try lia; [apply Other with (k := Z.to_nat (Zpos z~1)); [exact HTZ|lia|exact ED]|apply Other with (k := Z.to_nat (Zpos z~0)); [exact HTZ|lia|exact ED]|].
    apply One. rewrite HTZ. change (Z.to_nat 1) with 1. rewrite Nat.div_1_r. reflexivity.
Qed.
Print Assumptions C42_one_axis_refuted.
Example one_axis_holds :
  let f := Nd [2; 4] [1; 2; 3; 4; 10; 20; 30; 40] in let g (i : nat) l := [fold_right Nat.add 0 l] in
  pixelwise 0 [] g 1 f = Nd [4; 1] [11; 22; 33; 44] /\
  reshape_input f 0 None None = Ok (Nd [2; 1; 4] (nvals f), [4]) /\
  reshape_output 999 (round_trip 0 [] 1 g [] (Nd [1] [2]) (Nd [2; 1; 4] (nvals f))) (Some [4]) None = Ok [Some (Nd [1; 4; 1] [11; 22; 33; 44]); Some (Nd [1] [2])] /\
  reshape_input f 0 (Some 2%Z) None = Ok (Nd [2; 2; 2] (nvals f), [4]) /\
  reshape_output 999 (round_trip 0 [] 1 g [] (Nd [1] [2]) (Nd [2; 2; 2] (nvals f))) (Some [4]) None = Raise ValueError.
Proof. vm_compute. repeat split. Qed.

(** With a mask of two axes and a divisor the frames never come back either. *)
Theorem C42_mask_divisor_refuted A B (d : A) (nan : B) (f : nd A) n (mask : nd bool) z m g hs count :
  nshape f = n :: nshape mask -> wf f -> wf mask -> length (nshape mask) = 2 -> 0 < m -> 0 < count_true (nvals mask) ->
  (1 < z)%Z -> (Z.of_nat (count_true (nvals mask)) mod z = 0)%Z ->
  exists f', reshape_input f 0 (Some z) (Some mask) = Ok (f', [count_true (nvals mask)]) /\
    reshape_output nan (round_trip d [] m g hs count f') (Some [count_true (nvals mask)]) (Some mask) = Raise ValueError.
Proof.
  intros Hf Hw Hm H2 Hmp HC Hz HD. set (c := count_true (nvals mask)) in *. pose proof (mask_values d Hf Hw Hm) as HI. fold c in HI. set (f0 := Nd [n; c] _) in HI.
  assert (HCC : prodl [c] = c) by (cbn; lia).
  assert (HT : prodl (thread_shape [c] (Some z)) = c) by (rewrite <- HCC at 2; apply thread_shape_prod; rewrite HCC; lia).
  pose proof (@input_ok A f0 n [c] (Some z) eq_refl) as HI2. unfold reshape_input in HI2. rewrite index_first in HI2 by (cbn; lia). cbn [bind] in HI2.
  assert (HD' : [c] <> [] /\ (0 < z)%Z /\ (Z.of_nat (prodl [c]) mod z)%Z = 0%Z) by (rewrite HCC; repeat split; [discriminate|lia|exact HD]).
  specialize (HI2 HD'). clear HD'.
  exists (Nd (n :: thread_shape [c] (Some z)) (nvals f0)). split.
  - unfold reshape_input. rewrite Hf, index_first by (cbn; lia). cbn [negb Nat.eqb]. rewrite HI. cbn [bind]. exact HI2.
  - unfold reshape_output, round_trip. cbn [map_res]. set (k := Z.to_nat z).
    assert (Ek : k * (c / k) = c) by (revert HT; cbn [thread_shape]; rewrite HCC; cbn [prodl fold_right]; fold k; lia).
    assert (ES : nshape (pixelwise d [] g m (Nd (n :: thread_shape [c] (Some z)) (nvals f0))) = [k; c / k; m]) by (unfold pixelwise; cbn [nshape thread_shape]; rewrite HCC; reflexivity).
    rewrite ES. unfold output_shape. rewrite H2. cbn [bind last length slice_neg Nat.eqb Nat.sub firstn app]. unfold slice_neg. cbn [Nat.eqb length Nat.sub firstn app].
    unfold reshape_one, reshape. rewrite ES. cbn [prodl fold_right]. destruct (Nat.eqb_spec (k * (c * (m * 1))) (k * (c / k * (m * 1)))) as [H|H]; [|reflexivity].
    exfalso. apply Nat.mul_cancel_l in H; [|lia]. apply Nat.mul_cancel_r in H; [|lia]. nia.
Qed.
Print Assumptions C42_mask_divisor_refuted.
Example mask_divisor_holds : reshape_input r_f 0 (Some 3%Z) (Some r_mask) = Ok (Nd [2; 3; 1] [1; 3; 6; 10; 30; 60], [3]) /\
  reshape_output 999 (round_trip 0 [] 2 r_sum [] (Nd [2] [5; 4]) (Nd [2; 3; 1] [1; 3; 6; 10; 30; 60])) (Some [3]) (Some r_mask) = Raise ValueError.
Proof. vm_compute. repeat split. Qed.

(** The levels of frames with three axes do not come back from a reshaping with divisor. *)
Theorem C42_levels_refuted : exists (f : nd nat) f' g, wf f /\ reshape_input f 0 (Some 4%Z) None = Ok (f', [2; 2; 2]) /\
  reshape_output 999 (round_trip 0 [3] 1 g [] (Nd [1] [2]) f') (Some [2; 2; 2]) None = Raise ValueError.
Proof. exists (Nd [2; 2; 2; 2] (seq 0 16)), (Nd [2; 4; 2] (seq 0 16)), (fun i l => [i + fold_right Nat.add 0 l]). vm_compute. repeat split. Qed.
Print Assumptions C42_levels_refuted.

(** The times of a pixel, for an array of shape a, n, b with the times on the second axis *)
Definition series1 A (d : A) (n b : nat) (l : list A) (i j : nat) : list A := map (fun k => nth ((i * n + k) * b + j) l d) (seq 0 n).
(** With axis 1 and a divisor the reshaped array mixes pixels and times: the values that
    follow each other in time for its first pixel are not those of any pixel. *)
Theorem C42_axis_refuted : exists (f f' : nd nat), wf f /\ reshape_input f 1 (Some 4%Z) None = Ok (f', [2; 2]) /\ nshape f = [2; 3; 2] /\ nshape f' = [4; 3; 1] /\
  forall i j, i < 2 -> j < 2 -> series1 0 3 1 (nvals f') 0 0 <> series1 0 3 2 (nvals f) i j.
Proof.
  exists (Nd [2; 3; 2] (seq 0 12)), (Nd [4; 3; 1] (seq 0 12)). repeat split.
  intros i j Hi Hj. destruct i as [|[|i]]; [| |lia]; (destruct j as [|[|j]]; [| |lia]); vm_compute; discriminate.
Qed.
Print Assumptions C42_axis_refuted.

(** The same with the default arguments: an array of [P] pixels and [n] times is given the shape 1, n, P with
    its values in the same order, so that the time k of the pixel j is the value number k P + j, where it was
    number j n + k. *)
Theorem C42_axis_default_refuted A (d : A) (f : nd A) P n : wf f -> nshape f = [P; n] ->
  (reshape_input f 1 None None = Ok (Nd [1; n; P] (nvals f), [P]) /\ reshape_input f (-1) None None = Ok (Nd [1; n; P] (nvals f), [P])) /\
  (forall j k, k < n -> nth k (series1 d n P (nvals f) 0 j) d = nth (k * P + j) (nvals f) d /\ nth k (series1 d n 1 (nvals f) j 0) d = nth (j * n + k) (nvals f) d).
Proof.
  intros H S. assert (E : forall z, (z = 1)%Z \/ (z = -1)%Z -> reshape_input f z None None = Ok (Nd [1; n; P] (nvals f), [P])).
  { destruct f as [s v]. cbn [nshape nvals] in *. subst s. intros z Hz. unfold reshape_input. cbn [nshape nvals length].
    assert (Z1 : py_index 2 z = Some 1) by (destruct Hz as [E|E]; rewrite E; reflexivity). rewrite Z1.
    cbn [bind nth remove_at firstn skipn app nshape]. unfold thread_frame_shape. cbn [length Nat.eqb negb andb].
    unfold remove_at. cbn [firstn skipn app length Nat.eqb negb andb].
    assert (Pz : prodl [P] = P) by (unfold prodl; cbn [fold_right]; lia). rewrite Pz.
    replace (1 =? 0)%Z with false by reflexivity. rewrite Z.div_1_r, Z.mul_1_l, Z.eqb_refl. cbn [bind].
    unfold insert. cbn [firstn skipn app]. unfold reshape_Z. cbn [existsb].
    replace (1 <? 0)%Z with false by reflexivity.
    replace (Z.of_nat n <? 0)%Z with false by (symmetry; apply Z.ltb_ge; lia).
    replace (Z.of_nat P <? 0)%Z with false by (symmetry; apply Z.ltb_ge; lia). cbn [orb map].
    rewrite !Nat2Z.id. unfold reshape. cbn [nshape nvals]. replace (prodl [Z.to_nat 1; n; P] =? prodl [P; n]) with true; [reflexivity|].
    symmetry. apply Nat.eqb_eq. unfold prodl. cbn [fold_right Z.to_nat Pos.to_nat Pos.iter_op]. lia. }
  split; [split; apply E; auto|]. assert (N : forall g : nat -> A, forall k, k < n -> nth k (map g (seq 0 n)) d = g k).
  { intros g k Hk. rewrite (nth_indep _ d (g 0)) by (rewrite map_length, seq_length; exact Hk). rewrite map_nth, seq_nth by exact Hk. reflexivity. }
  intros j k Hk. unfold series1. rewrite !N by exact Hk. split; f_equal; lia.
Qed.
Print Assumptions C42_axis_default_refuted.
(** Two pixels at three times: the first pixel of the reshaped array starts with the first and the third time of
    the first pixel, followed by the second time of the second. *)
Example axis_default_holds : let f := Nd [2; 3] [10; 11; 12; 20; 21; 22] in wf f /\ reshape_input f (-1) None None = Ok (Nd [1; 3; 2] (nvals f), [2]) /\
  series1 0 3 2 (nvals f) 0 0 = [10; 12; 21] /\ series1 0 3 1 (nvals f) 0 0 = [10; 11; 12].
Proof. vm_compute. repeat split. Qed.
