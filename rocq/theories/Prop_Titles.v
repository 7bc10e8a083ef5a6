(** C106: the titles of the figures. *)
From Coq Require Import String Ascii Decimal DecimalString DecimalNat DecimalZ ZifyBool ZifyNat.
From Verif Require Import Base TitleModel.
Set Implicit Arguments.
Local Open Scope nat_scope.

(** The characters of a number are not a colon. *)
Fixpoint no_colon (s : string) : Prop := match s with EmptyString => True | String c s => c <> ":"%char /\ no_colon s end.
Lemma uint_no_colon u : no_colon (NilEmpty.string_of_uint u).
Proof. induction u; cbn; try (split; [discriminate|assumption]). exact I. Qed.
Lemma dec_no_colon i : no_colon (dec i).
Proof. unfold dec. destruct (Nat.to_uint i) eqn:E; cbn; try (split; [discriminate|apply uint_no_colon]). split; [discriminate|exact I]. Qed.
Lemma before_colon a b s t : no_colon a -> no_colon b -> (a ++ ":" ++ s)%string = (b ++ ":" ++ t)%string -> a = b /\ s = t.
Proof.
  revert b. induction a as [|c a IH]; intros [|d b] HA HB E; cbn in *.
  - injection E as <-. split; reflexivity.
  - injection E as X _. destruct HB as [H _]. congruence.
  - injection E as X _. destruct HA as [H _]. congruence.
  - injection E as <- E. destruct (IH b (proj2 HA) (proj2 HB) E) as [<- <-]. split; reflexivity.
Qed.
Lemma to_uint_nonnil n : Nat.to_uint n <> Nil.
Proof. intros E. pose proof (Unsigned.of_to n) as H. rewrite E in H. cbn in H. subst n. discriminate E. Qed.
Lemma dec_inj i j : dec i = dec j -> i = j.
Proof.
  intros E. unfold dec in E. apply (f_equal NilZero.uint_of_string) in E. rewrite !NilZero.usu in E by apply to_uint_nonnil. injection E as E.
  rewrite <- (Unsigned.of_to i), <- (Unsigned.of_to j), E. reflexivity.
Qed.
Lemma to_int_pos z : Z.to_int z <> Pos Nil.
Proof. intros E. pose proof (DecimalZ.of_to z) as H. rewrite E in H. cbn in H. subst z. discriminate E. Qed.
Lemma to_int_neg z : Z.to_int z <> Neg Nil.
Proof. intros E. pose proof (DecimalZ.of_to z) as H. rewrite E in H. cbn in H. subst z. discriminate E. Qed.
Lemma decz_inj i j : decz i = decz j -> i = j.
Proof.
  intros E. unfold decz in E. apply (f_equal NilZero.int_of_string) in E. rewrite !NilZero.isi in E by (apply to_int_pos || apply to_int_neg). injection E as E.
  rewrite <- (DecimalZ.of_to i), <- (DecimalZ.of_to j), E. reflexivity.
Qed.
Lemma append_inj p s t : (p ++ s)%string = (p ++ t)%string -> s = t.
Proof. induction p as [|c p IH]; cbn; intros E; [exact E|]. injection E as E. apply IH. exact E. Qed.

(** Titles tell the number and the name. *)
Theorem C106_injective i j a b : fig_name i a = fig_name j b -> i = j /\ a = b.
Proof.
  unfold fig_name. intros E. apply append_inj in E. apply (before_colon (dec i) (dec j) (" " ++ a) (" " ++ b)) in E; [|apply dec_no_colon|apply dec_no_colon]. destruct E as [E1 E2]. split; [apply dec_inj; exact E1|apply append_inj in E2; exact E2].
Qed.
Print Assumptions C106_injective.

Lemma set_new figs t v : ~ In t (map fst figs) -> set_figure figs t v = figs ++ [(t, v)].
Proof.
  induction figs as [|[t' v'] l IH]; intros H; [reflexivity|]. cbn. destruct (string_dec t' t) as [->|N]; [destruct H; left; reflexivity|]. rewrite IH; [reflexivity|]. intros X. apply H. right. exact X.
Qed.
Lemma set_get figs t v : get_figure (set_figure figs t v) t = Some v.
Proof.
  induction figs as [|[t' v'] l IH]; cbn; [destruct (string_dec t t); [reflexivity|contradiction]|]. destruct (string_dec t' t) as [->|N]; cbn; [destruct (string_dec t t); [reflexivity|contradiction]|]. destruct (string_dec t' t); [contradiction|]. exact IH.
Qed.
Lemma combine_fst A B (g : A -> A) (a : list A) (b : list B) : combine (map g a) b = map (fun p => (g (fst p), snd p)) (combine a b).
Proof. revert b. induction a as [|x a IH]; intros [|y b]; cbn; try reflexivity. rewrite IH. reflexivity. Qed.
Lemma NoDup_both A (l l' : list A) : NoDup l -> NoDup l' -> (forall x, In x l -> ~ In x l') -> NoDup (l ++ l').
Proof.
  induction l as [|a l IH]; intros H1 H2 H; [exact H2|]. inversion H1 as [|? ? N1 N2]; subst. cbn. constructor.
  - rewrite in_app_iff. intros [X|X]; [contradiction|]. exact (H a (or_introl eq_refl) X).
  - apply IH; [exact N2|exact H2|]. intros x Hx. apply H. right. exact Hx.
Qed.
Lemma NoDup_image A B (f : A -> B) l : (forall x y, f x = f y -> x = y) -> NoDup l -> NoDup (map f l).
Proof.
  intros HF. induction l as [|a l IH]; intros H; [constructor|]. inversion H as [|? ? N1 N2]; subst. cbn. constructor; [|apply IH; exact N2]. rewrite in_map_iff. intros (x & E & X). apply HF in E. subst x. contradiction.
Qed.
Lemma NoDup_enumerate A (l : list A) n a : NoDup (combine (seq a n) l).
Proof.
  revert a l. induction n as [|n IH]; intros a l; [constructor|]. destruct l as [|x l]; [constructor|]. cbn. constructor; [|apply IH]. intros X. apply in_combine_l, in_seq in X. lia.
Qed.

(** Titles of the figures that are open have numbers up to their number. *)
Definition numbered (figs : figures) : Prop := forall t, In t (map fst figs) -> exists i name, t = fig_name i name /\ i <= length figs.
Lemma numbered_new figs name : numbered figs -> ~ In (figure_title figs name) (map fst figs).
Proof. intros H X. destruct (H _ X) as (i & n & E & L). apply C106_injective in E. lia. Qed.

(** figure_title "generates a unique title": a title that no open figure has, and every figure of show_video and show_diff without a title gets its own, with the next number, the outermost one first. *)
Theorem C106_unique figs name : numbered figs -> ~ In (figure_title figs name) (map fst figs).
Proof. apply numbered_new. Qed.
Print Assumptions C106_unique.
Definition unnamed (s : show) : option string :=
  match s with ShowVideo id None => Some ("video - camera " ++ decz id)%string | ShowDiff None => Some "difference video"%string | _ => None end.
Lemma start_choose names : forall figs viewer, numbered figs ->
  start_all figs (map Choose names) viewer = figs ++ map (fun p => (fig_name (length figs + 1 + fst p) (snd p), viewer + fst p)) (combine (seq 0 (length names)) names) /\
  numbered (start_all figs (map Choose names) viewer).
Proof.
  induction names as [|n names IH]; intros figs viewer H; [cbn; rewrite app_nil_r; split; [reflexivity|exact H]|].
  cbn [map start_all]. unfold start. rewrite (set_new figs _ viewer (numbered_new n H)).
  assert (N : numbered (figs ++ [(figure_title figs n, viewer)])).
  { intros t Ht. rewrite map_app, in_app_iff in Ht. rewrite app_length. cbn [length]. destruct Ht as [Ht|[<-|[]]]; [destruct (H t Ht) as (i & m & E & L); exists i, m; split; [exact E|lia]|]. exists (length figs + 1), n. split; [reflexivity|lia]. }
  destruct (IH _ (S viewer) N) as [E1 E2]. split; [|exact E2]. rewrite E1, <- app_assoc. f_equal. cbn [length seq combine map app fst snd]. f_equal.
  - unfold figure_title. rewrite !Nat.add_0_r. reflexivity.
  - rewrite <- seq_shift, (combine_fst S). rewrite map_map. apply map_ext. intros [a b]. cbn [fst snd]. rewrite app_length. cbn [length]. f_equal; [apply (f_equal (fun k => fig_name k b)); lia|lia].
Qed.
Theorem C106_numbers figs shows names : numbered figs -> map unnamed (rev shows) = map Some names ->
  first_frame figs shows = figs ++ map (fun p => (fig_name (length figs + 1 + fst p) (snd p), fst p)) (combine (seq 0 (length names)) names) /\
  numbered (first_frame figs shows) /\ (NoDup (map fst figs) -> NoDup (map fst (first_frame figs shows))).
Proof.
  intros H E. assert (L : rev (map (call figs) shows) = map Choose names).
  { rewrite <- map_rev. revert names E. induction (rev shows) as [|s l IH]; intros [|n names] E; try discriminate; [reflexivity|]. cbn in *. injection E as E1 E2. rewrite (IH names E2). f_equal. destruct s as [id [t|]|id [t|]|[t|]]; cbn in E1; try discriminate; injection E1 as <-; reflexivity. }
  unfold first_frame. rewrite L. destruct (start_choose names 0 H) as [A B]. split; [exact A|]. split; [exact B|]. intros ND. rewrite A, map_app, map_map. cbn [fst].
  apply NoDup_both.
  - exact ND.
  - apply NoDup_image; [|apply NoDup_enumerate]. intros [a b] [c d] X. cbn [fst snd] in X. apply C106_injective in X. destruct X as [X <-]. f_equal. lia.
  - intros t T1 T2. destruct (H t T1) as (i & m & -> & Li). apply in_map_iff in T2. destruct T2 as ((a & b) & X & _). cbn [fst snd] in X. apply C106_injective in X. lia.
Qed.
Print Assumptions C106_numbers.
(** The figures of an empty program, and after playing to the end, are numbered. *)
Theorem C106_fresh figs : numbered [] /\ numbered (played figs).
Proof. split; intros t []. Qed.
Print Assumptions C106_fresh.

(** show_fft chooses its title when it is called. Called for different cameras, the figures differ. *)
Theorem C106_fft_cameras figs id id' : id <> id' -> title_of figs (call figs (ShowFft id None)) <> title_of figs (call figs (ShowFft id' None)).
Proof. intros H E. cbn [title_of call] in E. unfold figure_title in E. apply C106_injective in E. destruct E as [_ E]. apply append_inj, decz_inj in E. contradiction. Qed.
Print Assumptions C106_fft_cameras.
(** Called twice for the same camera (the real and the imaginary part, say) both get the same title: there is one figure, and the outer one is lost. *)
Theorem C106_fft_twice_refuted figs id : numbered figs ->
  let t := figure_title figs ("fft - camera " ++ decz id) in
  first_frame figs [ShowFft id None; ShowFft id None] = figs ++ [(t, 1)] /\
  get_figure (first_frame figs [ShowFft id None; ShowFft id None]) t = Some 1.
Proof.
  intros H t. unfold first_frame. cbn [map rev app call start_all]. unfold start. fold t. split; [|apply set_get].
  rewrite (set_new figs t 0 (numbered_new _ H)). pose proof (@numbered_new figs ("fft - camera " ++ decz id) H) as N. fold t in N. clear H. clearbody t.
  induction figs as [|[t' v'] l IH]; cbn; [destruct (string_dec t t); [reflexivity|contradiction]|]. destruct (string_dec t' t) as [->|X]; [destruct N; left; reflexivity|]. f_equal. apply IH. intros Y. apply N. right. exact Y.
Qed.
Print Assumptions C106_fft_twice_refuted.
(** Two figures of the same title of the user: the same. *)
Theorem C106_same_title figs t s s' : (s = ShowVideo s' (Some t) \/ s = ShowFft s' (Some t) \/ s = ShowDiff (Some t)) -> ~ In t (map fst figs) ->
  first_frame figs [s; s] = figs ++ [(t, 1)].
Proof.
  intros HS N. assert (E : call figs s = With t) by (destruct HS as [->|[->| ->]]; reflexivity). unfold first_frame. cbn [map rev app]. rewrite E. cbn [start_all]. unfold start. rewrite (set_new figs t 0 N). clear E HS.
  induction figs as [|[t' v'] l IH]; cbn; [destruct (string_dec t t); [reflexivity|contradiction]|]. destruct (string_dec t' t) as [->|X]; [destruct N; left; reflexivity|]. f_equal. apply IH. intros Y. apply N. right. exact Y.
Qed.
Print Assumptions C106_same_title.

Example C106_example :
  first_frame [] [ShowVideo 0 None; ShowVideo 1 None; ShowDiff None] =
    [("Fig.1: difference video", 0); ("Fig.2: video - camera 1", 1); ("Fig.3: video - camera 0", 2)]%string /\
  first_frame [] [ShowFft 0 None; ShowVideo 0 None; ShowFft 1 None] =
    [("Fig.1: fft - camera 1", 0); ("Fig.2: video - camera 0", 1); ("Fig.1: fft - camera 0", 2)]%string /\
  first_frame [] [ShowFft 0 None; ShowFft 0 None] = [("Fig.1: fft - camera 0", 1)]%string.
Proof. repeat split. Qed.
