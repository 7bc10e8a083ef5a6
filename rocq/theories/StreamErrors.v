(** Frames that are too many or too few, and calls of the streaming functions that never
    succeed. *)
From Verif Require Import Base Kernels PairSpec CoreModel CoreApi CorrModel NormModel MultiModel MultiProofs MultiLevels StreamModel StreamSpec StreamSetup StreamBuffer.
From Coq Require Import String ZifyBool ZifyNat.
Open Scope string_scope.
Open Scope nat_scope.
Open Scope list_scope.
Local Notation length := List.length.
Set Implicit Arguments.

Lemma bind_raise A B (x : res A) (f : A -> res B) e : x = Raise e -> bind x f = Raise e.
Proof. intros ->. reflexivity. Qed.

Section Loop.
  Variable K : Fld.
  Notation C := (Cx K).
  Variable V : CMon.
  Variables complex cross : bool.
  Variable cc : bool -> list C -> list C -> option (list Z) -> option (list Z) -> option nat ->
    option Z -> option string -> option (list K) -> option (list K) -> option (cdata K V) -> res (cdata K V).
  Variable ac : bool -> list C -> option (list Z) -> option (list K) -> option nat ->
    option Z -> option string -> option (cdata K V) -> res (cdata K V).
  Variable w : world K.

  Section Run.
    Variable S0 : setup.
    Variable norm : Z.
    Variables full auto_bg stats : bool.
    Notation loop := (stream_loop cross cc ac (w_aligned w) (w_rs w) (w_rs_bg w) S0 norm full auto_bg stats).

    (** Only the first frames are used. *)
    Lemma loop_firstn frames : forall i st, i <= s_nframes S0 -> loop (firstn (s_nframes S0 - i) frames) i st = loop frames i st.
    Proof.
      induction frames as [|x frames IH]; intros i st Hi; [rewrite firstn_nil; reflexivity|].
      destruct (Nat.eq_dec i (s_nframes S0)) as [E|E].
      - replace (s_nframes S0 - i) with 0 by lia. cbn [firstn stream_loop]. replace (i - 1 <? s_nframes S0 - 1) with false by lia.
        replace (i =? s_nframes S0) with true by lia. reflexivity.
      - replace (s_nframes S0 - i) with (S (s_nframes S0 - S i)) by lia. cbn [firstn stream_loop].
        replace (i =? s_nframes S0) with false by lia.
        destruct (frame_step cross cc ac (w_aligned w) (w_rs w) (w_rs_bg w) S0 norm full auto_bg stats i x st) as [[st' y]|e]; [|reflexivity].
        cbn [bind]. rewrite IH by lia. reflexivity.
    Qed.
    (** Too few frames *)
    Lemma loop_short frames more : forall i st r, loop (frames ++ more) i st = Ok r -> 1 < s_nframes S0 -> i + length frames < s_nframes S0 ->
      loop frames i st = Raise ValueError.
    Proof.
      induction frames as [|x frames IH]; intros i st r H H1 HL; cbn [app stream_loop length] in *.
      - replace (i - 1 <? s_nframes S0 - 1) with true by lia. reflexivity.
      - replace (i =? s_nframes S0) with false in * by lia. apply bind_ok in H. destruct H as ([st' y] & E & H). rewrite E. cbn [bind].
        apply bind_ok in H. destruct H as ([st'' ys] & E2 & H). erewrite IH by (eassumption || lia). reflexivity.
    Qed.
    Lemma loop_never frames : forall i st r, loop frames i st = Ok r -> 1 < s_nframes S0 -> i + length frames < s_nframes S0 -> False.
    Proof.
      induction frames as [|x frames IH]; intros i st r H H1 HL; cbn [app stream_loop length] in *.
      - replace (i - 1 <? s_nframes S0 - 1) with true in H by lia. discriminate.
      - replace (i =? s_nframes S0) with false in * by lia. apply bind_ok in H. destruct H as ([st' y] & E & H).
        apply bind_ok in H. destruct H as ([st'' ys] & E2 & H). apply (IH _ _ _ E2); lia.
    Qed.
    (** Every step of a successful run succeeds. *)
    Lemma loop_steps frames : forall i st r k, loop frames i st = Ok r -> k < length frames -> i + k < s_nframes S0 ->
      exists x st' r', frame_step cross cc ac (w_aligned w) (w_rs w) (w_rs_bg w) S0 norm full auto_bg stats (i + k) x st' = Ok r'.
    Proof.
      induction frames as [|x frames IH]; intros i st r k H HL Hk; cbn [length] in *; [lia|]. cbn [stream_loop] in H.
      replace (i =? s_nframes S0) with false in H by lia. apply bind_ok in H. destruct H as ([st' y] & E & H).
      destruct k as [|k]; [rewrite Nat.add_0_r; eauto|].
      apply bind_ok in H. destruct H as ([st'' ys] & E2 & H). replace (i + S k) with (S i + k) by lia. apply (IH _ _ _ _ E2); lia.
    Qed.
  End Run.

  Variables (t1 t2 : option (list Z)) (period : nat) (level chunk_size : option nat) (binning : option Z) (method : option string) (count len : option nat)
    (auto_bg : bool) (nlevel norm : option Z) (stats : bool) (mode : string).
  Notation iter frames := (multi_iter V complex cc ac w cross frames t1 t2 period level chunk_size binning method count len auto_bg nlevel norm stats mode).
  Notation setup_of := (stream_setup t1 t2 period level chunk_size binning method count len nlevel mode).

  Theorem iter_firstn S0 frames : setup_of = Ok S0 -> 0 < s_nframes S0 -> iter (firstn (s_nframes S0) frames) = iter frames.
  Proof.
    intros HS HP. unfold multi_iter, compute_multi_iter. rewrite HS. cbn [bind].
    destruct frames as [|x frames]; [rewrite firstn_nil; reflexivity|].
    destruct (s_nframes S0) as [|nf] eqn:EN; [lia|].
    cbn [firstn]. destruct (_default_norm norm (s_method S0) cross) as [nm|e]; [|reflexivity]. cbn [bind].
    change (x :: firstn nf frames) with (firstn (S nf) (x :: frames)).
    pose proof (@loop_firstn S0 nm (String.eqb mode "full") auto_bg stats (x :: frames) 0
      (init_state V complex cross (w_e1 w) (w_e2 w) (w_es1 w) (w_es2 w) (w_bg w) (w_var w) S0 nm) ltac:(lia)) as E.
    rewrite Nat.sub_0_r, EN in E. rewrite E. reflexivity.
  Qed.
  Theorem iter_short S0 frames more ys : setup_of = Ok S0 -> iter (frames ++ more) = Ok ys -> 1 < s_nframes S0 -> length frames < s_nframes S0 ->
    iter frames = Raise ValueError.
  Proof.
    intros HS H H1 HL. unfold multi_iter, compute_multi_iter in *. rewrite HS in *. cbn [bind] in *.
    destruct frames as [|x frames]; [replace (0 <? s_nframes S0 - 1) with true by lia; reflexivity|].
    cbn [app] in H. apply bind_ok in H. destruct H as (nm & E & H). rewrite E. cbn [bind].
    apply bind_ok in H. destruct H as ([st y] & E2 & H).
    rewrite (@loop_short S0 nm _ auto_bg stats (x :: frames) more _ _ _ E2 H1 ltac:(cbn [length] in *; lia)). reflexivity.
  Qed.
  Theorem iter_never_short S0 frames ys : setup_of = Ok S0 -> length frames < s_nframes S0 -> iter frames <> Ok ys.
  Proof.
    intros HS HL H. unfold multi_iter, compute_multi_iter in *. rewrite HS in *. cbn [bind] in *.
    destruct frames as [|x frames]; [destruct (0 <? s_nframes S0 - 1); discriminate|].
    apply bind_ok in H. destruct H as (nm & E & H).
    apply bind_ok in H. destruct H as ([st y] & E2 & H). exact (@loop_never S0 nm _ auto_bg stats (x :: frames) 0 _ _ E2 ltac:(cbn [length] in *; lia) ltac:(cbn [length] in *; lia)).
  Qed.
End Loop.

(** The number of frames that are announced by the arguments *)
Definition announced (t1 : option (list Z)) (count len : option nat) : option nat :=
  match count with
  | Some c => Some c
  | None => match t1 with Some t => Some (length t) | None => len end
  end.
Lemma announced_total t1 t2 level chunk_size count len T1 T2 total h D :
  stream_args t1 t2 level chunk_size count len T1 T2 total h D -> announced t1 count len = Some total.
Proof.
  intros (H & _). unfold announced. destruct t1, count; cbn in H; try (destruct H as [_ H]; subst; reflexivity).
  - destruct H as [_ [H|[H _]]]; congruence.
  - destruct H as [_ [H|[_ H]]]; congruence.
Qed.
Theorem setup_frames t1 t2 period level chunk_size binning method count len nlevel mode S0 : 0 < level ->
  stream_setup t1 t2 period (Some level) chunk_size binning method count len nlevel mode = Ok S0 ->
  exists total D, announced t1 count len = Some total /\ s_nframes S0 = s_half S0 * 2 ^ D /\ s_nframes S0 <= total < 2 * s_nframes S0 /\
    s_level S0 = level /\ level <= s_half S0 /\ chunk_of chunk_size total level (s_half S0).
Proof.
  intros HL HS. apply setup_ok in HS; [|exact HL]. destruct HS as (T1 & T2 & total & h & D & m & bin & _ & _ & HA & H).
  exists total, D. split; [eapply announced_total; exact HA|]. destruct HA as (_ & _ & _ & _ & HC & Hn & Hh & HD).
  cbv zeta in H. destruct nlevel as [l|]; [destruct H as (_ & _ & H)|]; subst S0; cbn [s_nframes s_half s_level]; (split; [reflexivity|]); (split; [exact HD|]);
    (split; [reflexivity|]); (split; [lia|exact HC]).
Qed.

(** ** Calls that never succeed *)
Lemma setup_no_level t1 t2 period chunk_size binning method count len nlevel mode S0 :
  stream_setup t1 t2 period None chunk_size binning method count len nlevel mode <> Ok S0.
Proof.
  intros H. unfold stream_setup in H. destruct (negb _); [discriminate|]. apply bind_ok in H. destruct H as ([m b] & _ & H).
  apply bind_ok in H. destruct H as ([[a c] d] & _ & H). discriminate.
Qed.
Lemma setup_no_level_raises t1 t2 period chunk_size binning method count len nlevel mode : forall T m,
  (mode = "full" \/ mode = "chunk") -> _default_method_and_binning method binning = Ok m -> _inspect_t1_t2_count t1 t2 count len = Ok T ->
  stream_setup t1 t2 period None chunk_size binning method count len nlevel mode = Raise TypeError.
Proof.
  intros [[T1 T2] total] [m b] HM HB HT. unfold stream_setup.
  replace (negb (String.eqb mode "full" || String.eqb mode "chunk")) with false by (destruct HM as [->| ->]; reflexivity).
  rewrite HB. cbn [bind]. rewrite HT. reflexivity.
Qed.
Lemma zero_norm m : _default_norm (Some 0%Z) m false = Raise ValueError.
Proof. unfold _default_norm. destruct (String.eqb m "diff"); reflexivity. Qed.

Section Diff.
  Variable K : Fld.
  Notation C := (Cx K).
  Variable V : CMon.
  Variable complex : bool.
  Variable cc : bool -> list C -> list C -> option (list Z) -> option (list Z) -> option nat ->
    option Z -> option string -> option (list K) -> option (list K) -> option (cdata K V) -> res (cdata K V).
  Variable ac : bool -> list C -> option (list Z) -> option (list K) -> option nat ->
    option Z -> option string -> option (cdata K V) -> res (cdata K V).
  Variable w : world K.
  (** The auto-correlation with method "diff" returns differences. *)
  Hypothesis Hdiff : forall al f t fs n norm aout d, ac al f t fs n norm (Some "diff") aout = Ok d ->
    match d with DDiff _ _ _ _ => True | _ => False end.
  Lemma merge_diff n out o d : match out : cdata K V with DDiff _ _ _ _ => True | _ => False end -> merge_auto V n out o <> Ok d.
  Proof.
    destruct out as [v c sq s1 s2|v c s1 s2|]; intros []; cbn [merge_auto]. destruct o as [v' c' sq' s1' s2'|v' c' s1' s2'|]; try discriminate.
    intros H. apply bind_ok in H. destruct H as (x & _ & H). apply bind_ok in H. destruct H as (y & _ & H). discriminate.
  Qed.
  Lemma second_chunk S0 norm auto_bg stats x st r : s_method S0 = "diff" -> 0 < s_half S0 ->
    frame_step false cc ac (w_aligned w) (w_rs w) (w_rs_bg w) S0 norm true auto_bg stats (2 * s_half S0 - 1) x st <> Ok r.
  Proof.
    intros HM HH H. unfold frame_step in H.
    assert (E1 : (2 * s_half S0 - 1) mod s_half S0 = s_half S0 - 1).
    { replace (2 * s_half S0 - 1) with (s_half S0 - 1 + 1 * s_half S0) by lia. rewrite Nat.mod_add by lia. apply Nat.mod_small. lia. }
    assert (E2 : (2 * s_half S0 - 1) / s_half S0 = 1).
    { symmetry. apply (Nat.div_unique _ _ 1 (s_half S0 - 1)); lia. }
    rewrite E1, E2, Nat.eqb_refl in H. apply bind_ok in H. destruct H as (fast & HF & _).
    unfold fast_update, chunk_update in HF. rewrite HM in HF. apply bind_ok in HF. destruct HF as (out & HO & HF).
    replace (0 <? 1) with true in HF by reflexivity. cbn [andb] in HF. apply bind_ok in HF. destruct HF as (o & _ & HF).
    exact (@merge_diff _ _ _ _ (Hdiff HO) HF).
  Qed.
  Theorem diff_never frames t period level chunk_size binning count len auto_bg nlevel norm stats ys S0 :
    0 < level -> stream_setup t None period (Some level) chunk_size binning (Some "diff") count len nlevel "full" = Ok S0 -> 2 * s_half S0 <= s_nframes S0 ->
    multi_iter V complex cc ac w false frames t None period (Some level) chunk_size binning (Some "diff") count len auto_bg nlevel norm stats "full" <> Ok ys.
  Proof.
    intros HL HS H2 H. destruct (@setup_frames _ _ _ _ _ _ _ _ _ _ _ S0 HL HS) as (total & D & _ & EN & _ & _ & HLv & _).
    assert (HM : s_method S0 = "diff").
    { unfold stream_setup in HS. cbn [negb String.eqb Ascii.eqb Bool.eqb orb] in HS. apply bind_ok in HS. destruct HS as ([m b] & HB & HS).
      assert (m = "diff"). { apply bind_ok in HB. destruct HB as (b' & _ & HB). cbv zeta in HB. match type of HB with (if ?c then _ else _) = _ => destruct c end; congruence. }
      subst m. apply bind_ok in HS. destruct HS as ([[a b2] c] & _ & HS). apply bind_ok in HS. destruct HS as (hf & _ & HS).
      cbv zeta in HS. destruct (hf =? 0); [discriminate|]. apply bind_ok in HS. destruct HS as ([x y] & _ & HS). injection HS as <-. reflexivity. }
    destruct (le_lt_dec (s_nframes S0) (length frames)) as [HF|HF].
    - unfold multi_iter, compute_multi_iter in H. rewrite HS in H. cbn [bind] in H. destruct frames as [|x frames]; [cbn in HF; lia|].
      apply bind_ok in H. destruct H as (nm & E & H). apply bind_ok in H. destruct H as ([st y] & E2 & H).
      destruct (@loop_steps K V false cc ac w S0 nm (String.eqb "full" "full") auto_bg stats (x :: frames) 0 _ _ (2 * s_half S0 - 1) E2) as (x' & st' & r' & HX);
        [lia|lia|]. cbn [Nat.add] in HX. exact (@second_chunk S0 nm auto_bg stats x' st' r' HM ltac:(lia) HX).
    - exact (@iter_never_short K V complex false cc ac w t None period (Some level) chunk_size binning (Some "diff") count len auto_bg nlevel norm stats "full" S0 frames ys HS HF H).
  Qed.
End Diff.

Section DiffInstances.
  Variable K : Fld.
  Variable W : nat -> Cx K.
  Lemma acorr_gen_diff (V : CMon) fft corr diff f t fs n norm aout d : @acorr_gen K W V fft corr diff f t fs n norm (Some "diff") aout = Ok d ->
    match d with DDiff _ _ _ _ => True | _ => False end.
  Proof.
    unfold acorr_gen. intros H. apply bind_ok in H. destruct H as (m & Hm & H).
    assert (m = "diff"). { destruct n; cbn in Hm; congruence. } subst m.
    apply bind_ok in H. destruct H as (nm & _ & H). apply bind_ok in H. destruct H as ([[[[a b] c] e] g] & _ & H).
    apply bind_ok in H. destruct H as ([t' n'] & _ & H). apply bind_ok in H. destruct H as (cor & _ & H). apply bind_ok in H. destruct H as (cnt & _ & H).
    apply bind_ok in H. destruct H as (sq & _ & H). apply bind_ok in H. destruct H as (ds & _ & H). injection H as <-. exact I.
  Qed.
End DiffInstances.
