(** C51 (play and show functions in one thread), C52, C53: videos. *)
From Coq Require Import ZifyBool ZifyNat.
From Verif Require Import Base KernelProofs RegularProofs VideoModel VideoProofs Examples.
Set Implicit Arguments.

(* ------------------------------------------------------------------ *)
(** * C51: play, show_video, show_diff *)
(** For every clock: what is yielded is the beginning of the video, unchanged; all of it, with
    the same ending, if the figures can show every multi-frame; and no figure ever holds more
    than one image. *)
Theorem C51_play (F I : Type) (figs : list (figure F I)) intime (video : gen (list F)) :
  (exists n, map fst (yields (play figs intime video)) = firstn n (yields video)) /\
  (forall frames qs q, In (frames, qs) (yields (play figs intime video)) -> In q qs -> length q <= 1) /\
  ((forall fig frames, In fig figs -> In frames (yields video) -> exists im, fig frames = Ok im) ->
     map fst (yields (play figs intime video)) = yields video /\ ending (play figs intime video) = ending video).
Proof.
  assert (G : forall l e i qs0, (forall q : list I, In q qs0 -> length q <= 1) ->
    (exists n, map fst (yields (play_loop figs intime i l e qs0)) = firstn n l) /\
    (forall frames qs q, In (frames, qs) (yields (play_loop figs intime i l e qs0)) -> In q qs -> length q <= 1) /\
    ((forall fig frames, In fig figs -> In frames l -> exists im, fig frames = Ok im) ->
     map fst (yields (play_loop figs intime i l e qs0)) = l /\ ending (play_loop figs intime i l e qs0) = e)).
  2: { destruct video as [l e]. apply G. intros q Hq; apply in_map_iff in Hq; destruct Hq as (? & <- & _); cbn; lia. }
  intros l e. induction l as [|frames l IH]; intros i qs Q.
  - cbn. split; [exists 0; reflexivity|]. split; [intros ? ? ? []|]. intros _. split; reflexivity.
  - cbn [play_loop]. destruct (offer_all figs frames qs) as [qs1|e1] eqn:E.
    + assert (Q1 : forall q, In q qs1 -> length q <= 1).
      { clear IH. revert qs qs1 Q E. induction figs as [|fig figs' IHf]; intros [|q qs] qs1 Q E; cbn [offer_all] in E; try (injection E as <-; intros ? []).
        destruct (offer fig frames q) as [q1|] eqn:E1; [|discriminate]. cbn [bind] in E. destruct (offer_all figs' frames qs) as [qs1'|] eqn:E2; [|discriminate]. cbn [bind] in E. injection E as <-.
        intros q2 [<-|H]; [|eapply IHf; [|exact E2|exact H]; intros; apply Q; right; assumption]. unfold offer in E1. destruct q as [|x q]; [|injection E1 as <-; apply Q; left; reflexivity].
        destruct (fig frames); [|discriminate]. cbn [bind] in E1. injection E1 as <-. cbn. lia. }
      assert (Q2 : forall q, In q (if intime i then map (@tl I) qs1 else qs1) -> length q <= 1).
      { destruct (intime i); [|exact Q1]. intros q Hq. apply in_map_iff in Hq. destruct Hq as (p & <- & Hp). specialize (Q1 p Hp). destruct p; cbn in *; lia. }
      destruct (IH (S i) _ Q2) as ((n & A) & B & D). cbn [yields ending map fst]. split; [exists (S n); cbn [firstn]; rewrite <- A; reflexivity|]. split.
      * intros fr qq q [X|X] Hq; [injection X as <- <-; apply Q1; exact Hq|eapply B; eassumption].
      * intros H. destruct D as [D1 D2]; [intros; apply H; [assumption|right; assumption]|]. rewrite D1, D2. split; reflexivity.
    + cbn. split; [exists 0; reflexivity|]. split; [intros ? ? ? []|]. intros H. exfalso.
      assert (X : exists r, offer_all figs frames qs = Ok r); [|destruct X as (r & X); rewrite E in X; discriminate]. clear - H. revert qs. induction figs as [|fig figs' IHf]; intros [|q qs]; cbn [offer_all]; try (eexists; reflexivity).
      destruct (IHf ltac:(intros; apply H; [right; assumption|assumption]) qs) as (r & ->). unfold offer. destruct q; [|eexists; reflexivity]. destruct (H fig frames (or_introl eq_refl) (or_introl eq_refl)) as (im & ->). eexists. reflexivity.
Qed.
Print Assumptions C51_play.
(** show_video can show every multi-frame that has a frame [id]; show_diff exactly those with two
    frames. *)
Theorem C51_figures (F I : Type) (image : F -> I) (image2 : F -> F -> I) id (frames : list F) :
  ((- Z.of_nat (length frames) <= id < Z.of_nat (length frames))%Z -> exists im, show_video_image image id frames = Ok im) /\
  (~ (- Z.of_nat (length frames) <= id < Z.of_nat (length frames))%Z -> show_video_image image id frames = Raise IndexError) /\
  (length frames = 2 -> exists im, show_diff_image image2 frames = Ok im) /\ (length frames <> 2 -> show_diff_image image2 frames = Raise ValueError).
Proof.
  unfold show_video_image, show_diff_image, py_index. repeat split.
  - intros H. destruct (Z.ltb_spec id 0) as [C|C].
    + replace ((0 <=? id + Z.of_nat (length frames)) && (id + Z.of_nat (length frames) <? Z.of_nat (length frames)))%Z%bool with true by lia. destruct (nth_error frames _) eqn:E; [eexists; reflexivity|]. apply nth_error_None in E. lia.
    + replace ((0 <=? id) && (id <? Z.of_nat (length frames)))%Z%bool with true by lia. destruct (nth_error frames _) eqn:E; [eexists; reflexivity|]. apply nth_error_None in E. lia.
  - intros H. destruct (Z.ltb_spec id 0) as [C|C].
    + replace ((0 <=? id + Z.of_nat (length frames)) && (id + Z.of_nat (length frames) <? Z.of_nat (length frames)))%Z%bool with false by lia. reflexivity.
    + replace ((0 <=? id) && (id <? Z.of_nat (length frames)))%Z%bool with false by lia. reflexivity.
  - intros H. destruct frames as [|x [|y [|z l]]]; try discriminate. eexists. reflexivity.
  - intros H. destruct frames as [|x [|y [|z l]]]; try reflexivity. destruct (H eq_refl).
Qed.
Print Assumptions C51_figures.
(** With dt the video is cut to the shorter of t1 and t2. *)
Theorem C51_diff_dt (F : Type) (video : gen (list F)) t1 t2 :
  yields (show_diff_dt video (Some t1) (Some t2)) = firstn (Nat.min (length t1) (length t2)) (yields video) /\
  (length (yields video) <= length t1 -> length (yields video) <= length t2 -> show_diff_dt video (Some t1) (Some t2) = video).
Proof.
  assert (A : yields (show_diff_dt video (Some t1) (Some t2)) = firstn (Nat.min (length t1) (length t2)) (yields video)).
  { unfold show_diff_dt. cbn [yields]. rewrite gen_zip_yields, <- combine_length. generalize (combine t1 t2). generalize (yields video). induction l as [|x l IH]; intros [|y m]; try reflexivity. cbn [combine map fst length firstn]. rewrite IH. reflexivity. }
  split; [exact A|]. intros H1 H2. destruct video as [l e]. cbn [yields] in *. rewrite firstn_all2 in A by lia. unfold show_diff_dt in *. cbn [yields ending] in *. rewrite A, gen_zip_ending, combine_length.
  replace (length l <=? Nat.min (length t1) (length t2)) with true by lia. reflexivity.
Qed.
Print Assumptions C51_diff_dt.
Example C51_holds :
  map fst (yields (play [show_video_image (fun x => x) 0; show_diff_image (fun x y => x - y)%Z] (fun i => Nat.even i) (Gen [[1; 2]; [3; 4]; [5; 6]]%Z None))) = [[1; 2]; [3; 4]; [5; 6]]%Z /\
  map snd (yields (play [show_video_image (fun x => x) 0; show_diff_image (fun x y => x - y)%Z] (fun i => Nat.even i) (Gen [[1; 2]; [3; 4]; [5; 6]]%Z None))) = [[[1]; [-1]]; [[3]; [-1]]; [[3]; [-1]]]%Z /\
  play [show_video_image (fun x => x) 2] (fun i => true) (Gen [[1; 2]; [3; 4]]%Z None) = Gen [] (Some IndexError) /\
  show_diff_dt (Gen [[1; 2]; [3; 4]; [5; 6]]%Z None) (Some [1; 2]%Z) (Some [1; 2; 3]%Z) = Gen [[1; 2]; [3; 4]]%Z None.
Proof. repeat split. Qed.

(* ------------------------------------------------------------------ *)
(** * C52: asarrays, asmemmaps, load *)
(** Storing a frame in an array made for the first frame of its camera keeps it. *)
Definition stores (F : Type) (store : F -> F -> res F) (d : F) (m : nat) (l : list (list F)) : Prop :=
  forall k i, k < length l -> i < m -> store (nth i (nth 0 l []) d) (nth i (nth k l []) d) = Ok (nth i (nth k l []) d).
(** A video of multi-frames with m frames each and a count of at least its length: array i holds
    frame i of all multi-frames, followed by whatever was in the memory. *)
Theorem C52_values (F : Type) (store : F -> F -> res F) (d : F) junk l m count len it : l <> [] -> 0 < m -> (forall frames, In frames l -> length frames = m) -> stores store d m l -> length l <= count ->
  exists out, asarrays store junk (VideoLike (Gen l None) len it) (Some (Z.of_nat count)) = Ok out /\ length out = m /\
    forall i, i < m -> length (nth i out []) = count /\ forall j, j < count -> nth j (nth i out []) d = if j <? length l then nth i (nth j l []) d else junk i j.
Proof.
  intros H0 Hm HM HS HC. unfold asarrays. cbn [bind v_gen]. rewrite (@load_arrays_spec F d store junk l None m _ H0 Hm HM HS). replace (Z.of_nat count <? 0)%Z with false by lia. rewrite Nat2Z.id. replace (count <? length l) with false by lia.
  eexists. split; [reflexivity|]. split; [apply table_length|]. intros i Hi. unfold table. rewrite nth_map_seq by exact Hi. split; [rewrite map_length, seq_length; reflexivity|]. intros j Hj. rewrite nth_map_seq by exact Hj. reflexivity.
Qed.
Print Assumptions C52_values.
(** A smaller count, an empty video, a missing count *)
Theorem C52_errors (F : Type) store (d : F) junk l m count len it : 0 < m -> (forall frames, In frames l -> length frames = m) -> stores store d m l ->
  (l <> [] -> (0 <= count < Z.of_nat (length l))%Z -> asarrays store junk (VideoLike (Gen l None) len it) (Some count) = Raise IndexError) /\
  (l <> [] -> (count < 0)%Z -> asarrays store junk (VideoLike (Gen l None) len it) (Some count) = Raise ValueError) /\
  asarrays store junk (VideoLike (Gen (@nil (list F)) None) len it) (Some count) = Raise StopIteration /\
  asarrays store junk (VideoLike (Gen l None) None it) None = Raise ValueError.
Proof.
  intros Hm HM HS. unfold asarrays. cbn [bind v_gen v_len]. repeat split.
  - intros H0 H. rewrite (@load_arrays_spec F d store junk l None m _ H0 Hm HM HS). replace (count <? 0)%Z with false by lia. replace (Z.to_nat count <? length l) with true by lia. reflexivity.
  - intros H0 H. rewrite (@load_arrays_spec F d store junk l None m _ H0 Hm HM HS). replace (count <? 0)%Z with true by lia. reflexivity.
Qed.
Print Assumptions C52_errors.
(** asarrays(fromarrays(arrays), count) gives the arrays back. *)
Theorem C52_inverse (F : Type) (store : F -> F -> res F) (d : F) junk (arrays : list (list F)) n : arrays <> [] -> 0 < n -> (forall a, In a arrays -> length a = n) -> (forall a x y, In a arrays -> In x a -> In y a -> store x y = Ok y) ->
  asarrays store junk (VideoLike (fromarrays arrays) None true) (Some (Z.of_nat n)) = Ok arrays.
Proof.
  intros H0 Hn HL HS. set (l := map (fun j => map (fun a => nth j a d) arrays) (seq 0 n)).
  assert (EG : fromarrays arrays = Gen l None). { unfold fromarrays. f_equal. unfold l. etransitivity; [|apply (zip_all_ok d store H0 HL)]. f_equal. destruct arrays as [|a arr]; [destruct (H0 eq_refl)|]. apply HL. left. reflexivity. }
  rewrite EG. assert (LL : length l = n) by (unfold l; rewrite map_length, seq_length; reflexivity).
  assert (E : forall k i, k < n -> i < length arrays -> nth i (nth k l []) d = nth k (nth i arrays []) d).
  { intros k i Hk Hi. unfold l. rewrite nth_map_seq by exact Hk. rewrite (nth_indep _ d (nth k [] d)) by (rewrite map_length; exact Hi). rewrite (map_nth (fun a => nth k a d)). reflexivity. }
  destruct (@C52_values F store d junk l (length arrays) n None true) as (out & Eo & Lo & No).
  - intros X. rewrite X in LL. cbn in LL. lia.
  - destruct arrays; [destruct (H0 eq_refl)|cbn; lia].
  - intros frames Hf. apply in_map_iff in Hf. destruct Hf as (j & <- & _). apply map_length.
  - intros k i Hk Hi. rewrite LL in Hk. rewrite !E by lia. apply (HS (nth i arrays [])); [apply nth_In; exact Hi| |]; apply nth_In; rewrite HL; try (apply nth_In; exact Hi); lia.
  - lia.
  - rewrite Eo. f_equal. apply list_nth_ext with (d := []); [exact Lo|]. rewrite Lo. intros i Hi. destruct (No i Hi) as [N1 N2]. apply list_nth_ext with (d := d); [rewrite N1; symmetry; apply HL, nth_In; exact Hi|].
    rewrite N1. intros j Hj. rewrite N2 by exact Hj. rewrite LL. replace (j <? n) with true by lia. apply E; assumption.
Qed.
Print Assumptions C52_inverse.
(** load reads a video into memory unchanged. *)
Theorem C52_load (F : Type) store (d : F) junk l m len it : l <> [] -> 0 < m -> (forall frames, In frames l -> length frames = m) -> stores store d m l ->
  load store junk (VideoLike (Gen l None) len it) (Some (Z.of_nat (length l))) = Ok l.
Proof.
  intros H0 Hm HM HS. unfold load. destruct (@C52_values F store d junk l m (length l) len it H0 Hm HM HS (Nat.le_refl _)) as (out & -> & Lo & No). cbn [bind]. f_equal. unfold fromarrays. cbn [yields].
  assert (HO : out <> []) by (intros ->; cbn in Lo; lia). assert (HA : forall a, In a out -> length a = length l). { intros a Ha. apply (In_nth _ _ []) in Ha. destruct Ha as (i & Hi & <-). apply No. lia. }
  replace (match out with [] => 0 | a :: _ => length a end) with (length l) by (destruct out; [destruct (HO eq_refl)|symmetry; apply HA; left; reflexivity]).
  rewrite (zip_all_ok d store HO HA). apply list_nth_ext with (d := []); rewrite map_length, seq_length; [reflexivity|]. intros j Hj. rewrite nth_map_seq by exact Hj.
  apply list_nth_ext with (d := d); rewrite map_length; [rewrite Lo; symmetry; apply HM, nth_In; exact Hj|]. intros i Hi. rewrite (nth_indep _ d (nth j [] d)) by (rewrite map_length; exact Hi). rewrite (map_nth (fun a => nth j a d)).
  destruct (No i ltac:(lia)) as [_ N]. rewrite N by exact Hj. replace (j <? length l) with true by lia. reflexivity.
Qed.
Print Assumptions C52_load.
(** asmemmaps does the same for iterators, but refuses every list or tuple. *)
Theorem C52_memmaps (F : Type) (store : F -> F -> res F) (junk : nat -> nat -> F) g len count : asmemmaps store junk (VideoLike g len true) count = asarrays store junk (VideoLike g len true) count /\
  (forall n, asmemmaps store junk (VideoLike g (Some n) false) count = Raise TypeError) /\ asmemmaps store junk (VideoLike g None true) None = Raise ValueError.
Proof. unfold asmemmaps, asarrays. cbn [v_len v_iterator v_gen]. repeat split. intros n. destruct count; reflexivity. Qed.
Print Assumptions C52_memmaps.
Example C52_holds :
  asarrays (fun _ f => Ok f) (fun i j => 90 + 10 * i + j) (VideoLike (fromarrays [[1; 2; 3]; [4; 5; 6]]) None true) (Some 3%Z) = Ok [[1; 2; 3]; [4; 5; 6]] /\
  asarrays (fun _ f => Ok f) (fun i j => 90 + 10 * i + j) (VideoLike (Gen [[1; 4]; [2; 5]] None) (Some 2) false) (Some 4%Z) = Ok [[1; 2; 92; 93]; [4; 5; 102; 103]] /\
  asarrays (fun _ f => Ok f) (fun i j => 90 + 10 * i + j) (VideoLike (Gen [[1; 4]; [2; 5]] None) (Some 2) false) (Some 1%Z) = Raise IndexError /\
  load (fun _ f => Ok f) (fun i j => 0) (VideoLike (Gen [[1; 4]; [2; 5]] None) (Some 2) false) None = Ok [[1; 4]; [2; 5]] /\
  asmemmaps (fun _ f => Ok f) (fun i j => 0) (VideoLike (Gen [[1; 4]; [2; 5]] None) (Some 2) false) None = Raise TypeError /\
  stores (fun _ f => Ok f) 0 2 [[1; 4]; [2; 5]].
Proof. repeat split. Qed.

(* ------------------------------------------------------------------ *)
(** * C53: frame arithmetic *)
Definition same_shapes (V : Type) (p : list (frame V) * list (frame V)) : Prop := length (fst p) = length (snd p) /\ forall x y, In (x, y) (combine (fst p) (snd p)) -> map (@length V) x = map (@length V) y.
Lemma combine_swap A B (a : list A) (b : list B) x y : In (x, y) (combine a b) -> In (y, x) (combine b a).
Proof. revert b. induction a as [|u a IH]; intros [|v b] H; try destruct H as [E|H]; try contradiction; [left; congruence|right; apply IH; exact H]. Qed.
Definition pw (V : Type) (op : V -> V -> V) (x y : frame V) : frame V := match pointwise op x y with Ok r => r | Raise _ => [] end.
Lemma frames_ok V (op : V -> V -> V) cast inplace (frames arrays : list (frame V)) : same_shapes (frames, arrays) ->
  map_res_v (fun wf => let* r := pointwise op (snd wf) (fst wf) in Ok (if inplace : bool then r else cast r)) (combine arrays frames) = Ok (map (fun p => if inplace then pw op (fst p) (snd p) else cast (pw op (fst p) (snd p))) (combine frames arrays)).
Proof.
  intros [HL HS]. cbn [fst snd] in *. rewrite (@map_res_v_ok _ _ _ (fun wf => if inplace then pw op (snd wf) (fst wf) else cast (pw op (snd wf) (fst wf)))).
  - f_equal. clear. revert frames. induction arrays as [|w arrays IH]; intros [|f frames]; try reflexivity. cbn [combine map fst snd]. rewrite IH. reflexivity.
  - intros [w f] H. cbn [fst snd]. apply combine_swap in H. apply HS in H. unfold pw. destruct (pointwise_ok op f w H) as (r & -> & _). reflexivity.
Qed.
(** The result of one multi-frame: pixel by pixel, camera by camera *)
Theorem C53_values (V : Type) (op : V -> V -> V) cast inplace (x y : gen (list (frame V))) : (forall p, In p (combine (yields x) (yields y)) -> same_shapes p) ->
  two_videos op cast inplace x y =
    Gen (map (fun p => map (fun fw => if inplace then pw op (fst fw) (snd fw) else cast (pw op (fst fw) (snd fw))) (combine (fst p) (snd p))) (combine (yields x) (yields y)))
        (if length (yields x) <=? length (yields y) then ending x else ending y) /\
  (forall a b d i j, map (@length V) a = map (@length V) b -> i < length a -> j < length (nth i a []) -> nth j (nth i (pw op a b) []) d = op (nth j (nth i a []) d) (nth j (nth i b []) d)).
Proof.
  intros H. split.
  - unfold two_videos. rewrite gen_zip_yields, gen_zip_ending. apply gen_each_ok. intros [frames arrays] Hp. pose proof (H _ Hp) as HS. destruct HS as [HL HS]. cbn [fst snd] in *. rewrite HL, Nat.eqb_refl. cbn [negb]. apply frames_ok. split; assumption.
  - intros a b d i j E Hi Hj. unfold pw. destruct (pointwise_ok op a b E) as (r & Hr & _). rewrite Hr. eapply pointwise_nth; eassumption.
Qed.
Print Assumptions C53_values.
(** The first multi-frames with different numbers of frames end the video with ValueError, after
    those before have been yielded. *)
Theorem C53_mismatch (V : Type) (op : V -> V -> V) cast inplace lx ly x y lx' ly' ex ey : length lx = length ly -> (forall p, In p (combine lx ly) -> same_shapes p) -> length x <> length y ->
  let g := two_videos op cast inplace (Gen (lx ++ x :: lx') ex) (Gen (ly ++ y :: ly') ey) in
  ending g = Some ValueError /\ yields g = yields (two_videos op cast inplace (Gen lx None) (Gen ly None)).
Proof.
  intros HL H Hxy. destruct (@C53_values V op cast inplace (Gen lx None) (Gen ly None) H) as [E _]. cbn [yields] in E. rewrite E. cbn [yields].
  unfold two_videos. rewrite gen_zip_yields. cbn [yields ending]. assert (EC : combine (lx ++ x :: lx') (ly ++ y :: ly') = combine lx ly ++ (x, y) :: combine lx' ly').
  { clear - HL. revert ly HL. induction lx as [|a lx IH]; intros [|b ly] HL; try discriminate; [reflexivity|]. cbn [app combine]. rewrite IH by (cbn in HL; lia). reflexivity. }
  rewrite EC. rewrite (@gen_each_fail _ _ _ (fun p => map (fun fw => if inplace then pw op (fst fw) (snd fw) else cast (pw op (fst fw) (snd fw))) (combine (fst p) (snd p))) (combine lx ly) (x, y) (combine lx' ly') _ ValueError).
  - split; reflexivity.
  - intros [frames arrays] Hp. pose proof (H _ Hp) as HS. destruct HS as [HL' HS]. cbn [fst snd] in *. rewrite HL', Nat.eqb_refl. cbn [negb]. apply frames_ok. split; assumption.
  - replace (length x =? length y) with false by lia. reflexivity.
Qed.
Print Assumptions C53_mismatch.
(** add undoes subtract on the common beginning, in exact and in wrap-around arithmetic. *)
Theorem C53_inverse (V : Type) (add sub : V -> V -> V) inplace inplace' (x y : gen (list (frame V))) : (forall frames f row a b, In frames (yields x) -> In f frames -> In row f -> In a row -> add (sub a b) b = a) -> ending x = None -> ending y = None ->
  (forall p, In p (combine (yields x) (yields y)) -> same_shapes p) ->
  two_videos add (fun f => f) inplace' (two_videos sub (fun f => f) inplace x y) y = Gen (firstn (length (yields y)) (yields x)) None.
Proof.
  intros HI Ex Ey H. destruct (@C53_values V sub (fun f => f) inplace x y H) as [E _]. rewrite E. clear E. destruct x as [lx ex], y as [ly ey]. cbn [yields ending] in *. subst ex ey.
  assert (EI : (if length lx <=? length ly then None else None) = @None pyexc) by (destruct (length lx <=? length ly); reflexivity). rewrite EI.
  assert (EB : forall p : list (frame V) * list (frame V), map (fun fw : frame V * frame V => if inplace then pw sub (fst fw) (snd fw) else pw sub (fst fw) (snd fw)) (combine (fst p) (snd p)) = map (fun fw => pw sub (fst fw) (snd fw)) (combine (fst p) (snd p))) by (intros; destruct inplace; reflexivity).
  rewrite (map_ext _ _ EB). clear EB EI. unfold two_videos. rewrite gen_zip_yields, gen_zip_ending. cbn [yields ending]. destruct (_ <=? _).
  all: revert ly H; induction lx as [|fx lx IH]; intros [|fy ly] H; try reflexivity; cbn [combine map fst snd gen_each length firstn].
  all: destruct (H (fx, fy) (or_introl eq_refl)) as [HL HS]; cbn [fst snd] in *; rewrite map_length, combine_length, HL, Nat.min_id, Nat.eqb_refl; cbn [negb].
  all: assert (X : map_res_v (fun wf => let* r := pointwise add (snd wf) (fst wf) in Ok (if inplace' then r else r)) (combine fy (map (fun fw => pw sub (fst fw) (snd fw)) (combine fx fy))) = Ok fx) by
   (assert (HX : forall f row a b, In f fx -> In row f -> In a row -> add (sub a b) b = a) by (intros f row a b; apply (HI fx); left; reflexivity); clear - HL HS HX; revert fy HL HS; induction fx as [|f fx IHf]; intros [|w fy] HL HS; try discriminate; [reflexivity|]; cbn [combine map fst snd map_res_v];
    destruct (pointwise_ok sub f w (HS f w (or_introl eq_refl))) as (r & Hr & _); unfold pw at 1; rewrite Hr; rewrite (@pointwise_inverse V sub add f w r ltac:(intros row a b; apply (HX f); left; reflexivity) Hr); cbn [bind]; rewrite IHf; [destruct inplace'; reflexivity|intros g row a b Hg; apply (HX g); right; exact Hg|cbn in HL; lia|intros; apply HS; right; assumption]).
  all: rewrite X; rewrite IH; [|intros fr f row a b Hf; apply (HI fr); right; exact Hf|intros; apply H; right; assumption]; reflexivity.
Qed.
Print Assumptions C53_inverse.
(** crop and mask act on each frame alone. *)
Theorem C53_crop (V : Type) (video : gen (list (frame V))) h w :
  crop video (Some (h, w)) = Gen (map (map (crop_frame h w)) (yields video)) (ending video) /\ crop video None = Gen [] (Some ValueError) /\
  (forall a b c e (f : frame V) i j d, (0 <= a <= b)%Z -> (b <= Z.of_nat (length f))%Z -> (0 <= c <= e)%Z -> (forall row, In row f -> (e <= Z.of_nat (length row))%Z) -> i < Z.to_nat (b - a) -> j < Z.to_nat (e - c) ->
     length (crop_frame (Some a, Some b) (Some c, Some e) f) = Z.to_nat (b - a) /\ length (nth i (crop_frame (Some a, Some b) (Some c, Some e) f) []) = Z.to_nat (e - c) /\
     nth j (nth i (crop_frame (Some a, Some b) (Some c, Some e) f) []) d = nth (Z.to_nat c + j) (nth (Z.to_nat a + i) f []) d).
Proof.
  split; [|split; [reflexivity|]].
  - unfold crop. apply gen_each_ok. reflexivity.
  - intros a b c e f i j d Ha Hb Hc He Hi Hj. unfold crop_frame.
    assert (S : forall A (l : list A) u v, (0 <= u <= v)%Z -> (v <= Z.of_nat (length l))%Z -> take_slice (Some u, Some v) l = firstn (Z.to_nat (v - u)) (skipn (Z.to_nat u) l)).
    { intros A l u v H1 H2. unfold take_slice, py_slice, py_bound. cbv zeta. cbn [fst snd]. replace (u <? 0)%Z with false by lia. replace (v <? 0)%Z with false by lia. f_equal; [lia|]. f_equal; lia. }
    assert (L1 : length (take_slice (Some a, Some b) f) = Z.to_nat (b - a)) by (rewrite S by lia; rewrite firstn_length, skipn_length; lia).
    rewrite map_length. split; [exact L1|]. rewrite (nth_indep _ [] (take_slice (Some c, Some e) [])) by (rewrite map_length, L1; exact Hi). rewrite map_nth.
    assert (N : nth i (take_slice (Some a, Some b) f) [] = nth (Z.to_nat a + i) f []) by (rewrite S by lia; rewrite nth_firstn by exact Hi; rewrite nth_skipn; f_equal; lia).
    rewrite N. assert (R : (e <= Z.of_nat (length (nth (Z.to_nat a + i) f [])))%Z) by (apply He, nth_In; lia). rewrite S by lia. split.
    + rewrite firstn_length, skipn_length. lia.
    + rewrite nth_firstn by exact Hj. rewrite nth_skipn. f_equal. lia.
Qed.
Print Assumptions C53_crop.
(** mask keeps the pixels of the mask in row-major order, in each frame of each multi-frame alone. *)
Theorem C53_mask (V : Type) (video : gen (list (frame V))) m : (forall frames f, In frames (yields video) -> In f frames -> map (@length V) f = map (@length bool) m) ->
  mask video m = Gen (map (map (fun f => map fst (filter snd (combine (concat f) (concat m))))) (yields video)) (ending video).
Proof.
  intros H. unfold mask. apply gen_each_ok. intros frames Hf. apply map_res_v_ok. intros f Hi. specialize (H _ _ Hf Hi). unfold mask_frame.
  assert (L : length f = length m) by (rewrite <- (map_length (@length V)), H, map_length; reflexivity). rewrite L, Nat.eqb_refl. cbn [andb].
  assert (B : forallb (fun p => length (fst p) =? length (snd p)) (combine f m) = true).
  { clear - H. revert m H. induction f as [|r f IH]; intros [|b m] H; try reflexivity. cbn [map] in H. injection H as H1 H2. cbn [combine forallb fst snd]. rewrite H1, Nat.eqb_refl. apply IH. exact H2. }
  rewrite B. f_equal. clear - H. revert m H. induction f as [|r f IH]; intros [|b m] H; try discriminate; [reflexivity|]. cbn [map] in H. injection H as H1 H2. cbn [combine flat_map concat fst snd]. rewrite IH by exact H2.
  assert (E : forall (p : list V) (q : list bool) p' q', length p = length q -> combine (p ++ p') (q ++ q') = combine p q ++ combine p' q').
  { intros p. induction p as [|x p IHp]; intros [|y q] p' q' E; try discriminate; [reflexivity|]. cbn [app combine]. rewrite IHp by (cbn in E; lia). reflexivity. }
  rewrite E by exact H1. rewrite filter_app, map_app. reflexivity.
Qed.
Print Assumptions C53_mask.
(** normalize_video: a frame with a mean other than zero gets mean 1, and keeps its proportions. *)
Theorem C53_normalize (K : Fld) iszero (video : gen (list (frame K))) : (forall x, iszero x = true <-> x = f0 K) ->
  normalize_video K iszero video = Gen (map (map (normalize_frame K iszero)) (yields video)) (ending video) /\
  forall f, concat f <> [] -> (frame_mean K f = f0 K -> normalize_frame K iszero f = None) /\
    (frame_mean K f <> f0 K -> exists g, normalize_frame K iszero f = Some g /\ frame_mean K g = f1 K /\ forall i j, i < length f -> j < length (nth i f []) -> fmul K (nth j (nth i g []) (f0 K)) (frame_mean K f) = nth j (nth i f []) (f0 K)).
Proof.
  intros HZ. split; [unfold normalize_video; apply gen_each_ok; reflexivity|]. intros f Hf. unfold normalize_frame. split.
  - intros E. rewrite (proj2 (HZ _) E). reflexivity.
  - intros E. destruct (iszero (frame_mean K f)) eqn:Z; [apply HZ in Z; contradiction|]. eexists. split; [reflexivity|]. split.
    + apply normalized_mean; assumption.
    + intros i j Hi Hj. rewrite (nth_indep _ [] (map (fun x => fdiv K x (frame_mean K f)) [])) by (rewrite map_length; exact Hi). rewrite (map_nth (map (fun x => fdiv K x (frame_mean K f)))).
      rewrite (nth_indep _ (f0 K) (fdiv K (f0 K) (frame_mean K f))) by (rewrite map_length; exact Hj). rewrite (map_nth (fun x => fdiv K x (frame_mean K f))). apply div_mul_cancel. exact E.
Qed.
Print Assumptions C53_normalize.
(** uint8: wrap-around subtraction and addition *)
Definition u8 (op : Z -> Z -> Z) (a b : Z) : Z := ((op a b) mod 256)%Z.
Example C53_holds :
  two_videos (u8 Z.sub) (fun f => f) false (Gen [[[[1; 2]; [3; 4]]]; [[[5; 6]; [7; 8]]]]%Z None) (Gen [[[[2; 1]; [4; 4]]]]%Z None) = Gen [[[[255; 1]; [255; 0]]]]%Z None /\
  two_videos (u8 Z.add) (fun f => f) true (Gen [[[[255; 1]; [255; 0]]]]%Z None) (Gen [[[[2; 1]; [4; 4]]]]%Z None) = Gen [[[[1; 2]; [3; 4]]]]%Z None /\
  two_videos Z.mul (fun f => f) false (Gen [[[[2]]; [[3]]]; [[[4]]; [[5]]]]%Z None) (Gen [[[[5]]; [[7]]]; [[[4]]]]%Z None) = Gen [[[[10]]; [[21]]]]%Z (Some ValueError) /\
  crop (Gen [[[[1; 2; 3]; [4; 5; 6]; [7; 8; 9]]]]%Z None) (Some ((Some 1, Some 3), (Some 0, Some 2)))%Z = Gen [[[[4; 5]; [7; 8]]]]%Z None /\
  mask (Gen [[[[1; 2]; [3; 4]]]; [[[5; 6]; [7; 8]]]]%Z None) [[true; false]; [true; true]] = Gen [[[1; 3; 4]]; [[5; 7; 8]]]%Z None.
Proof. repeat split. Qed.
(** The wrap-around operations satisfy the hypothesis of C53_inverse on the values of the type. *)
Example C53_u8 : forall a b, (0 <= a < 256)%Z -> u8 Z.add (u8 Z.sub a b) b = a.
Proof. intros a b H. unfold u8. rewrite Z.add_mod_idemp_l by lia. rewrite Z.sub_add. apply Z.mod_small. exact H. Qed.
