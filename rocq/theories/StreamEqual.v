(** iccorr and iacorr compared with ccorr and acorr on the frames in memory. *)
From Verif Require Import Base Kernels PairSpec KernelProofs PairLemmas RegularProofs CoreModel FftModel FftProofs CoreProofs CoreProofs2 CoreProofs3 CoreApi
  NormModel CorrModel CorrSpec CorrProofs CorrProofs2 PairAcc PairTuple MultiModel MultiSpec MultiProofs StreamModel CallPairs CallFresh StreamBuffer StreamLoop StreamChunk StreamSpec StreamSetup StreamFits StreamIter StreamSingle StreamInst.
From Coq Require Import String ZifyBool ZifyNat.
Open Scope string_scope.
Open Scope nat_scope.
Open Scope list_scope.
Local Notation length := List.length.
Set Implicit Arguments.

(** ** Lists *)
Lemma nth_map_seq_from A (f : nat -> A) a n i d : i < n -> nth i (map f (seq a n)) d = f (a + i).
Proof. intros H. rewrite (nth_indep _ d (f 0)) by (rewrite map_length, seq_length; exact H). rewrite map_nth, seq_nth by exact H. reflexivity. Qed.
Lemma map_nth_seq A B (g : A -> B) (l : list A) d a n : a + n <= length l -> map (fun k => g (nth k l d)) (seq a n) = map g (firstn n (skipn a l)).
Proof.
  intros H. apply list_nth_ext with (d := g d); [rewrite !map_length, seq_length, firstn_length, skipn_length; lia|].
  rewrite map_length, seq_length. intros i Hi. rewrite nth_map_seq_from by exact Hi. rewrite map_nth, nth_firstn by exact Hi. rewrite nth_skipn. do 2 f_equal. lia.
Qed.
Lemma arange_firstn n total : n <= total -> firstn n (arange total) = arange n.
Proof.
  intros H. apply list_nth_ext with (d := 0%Z); [rewrite firstn_length, !arange_length; lia|].
  rewrite firstn_length, arange_length. intros i Hi. rewrite nth_firstn by lia. unfold arange. rewrite !nth_map_seq_from by lia. reflexivity.
Qed.
Lemma nth_arange k n : k < n -> nth k (arange n) 0%Z = Z.of_nat k.
Proof. intros H. unfold arange. rewrite nth_map_seq_from by exact H. reflexivity. Qed.
Lemma samples_nth A (s : nat -> A) (T : list Z) n : n <= length T -> samples (map s (seq 0 n)) (Some (firstn n T)) = ser s (fun k => nth k T 0%Z) 0 n.
Proof. intros H. rewrite <- ser_samples. rewrite (@map_nth_seq Z Z (fun x => x) T 0%Z 0 n) by lia. rewrite map_id. reflexivity. Qed.

(** ** Norms and methods *)
Lemma norm_resolved norm nm m c : _default_norm norm m c = Ok nm -> _default_norm (Some nm) m c = Ok nm.
Proof.
  unfold _default_norm. cbv zeta. destruct norm as [z|].
  - match goal with |- (if ?b then _ else _) = _ -> _ => destruct b eqn:E end; [|discriminate]. intros H. injection H as <-. rewrite E. reflexivity.
  - destruct (String.eqb m "diff"); [destruct c|]; cbn; intros H; injection H as <-; reflexivity.
Qed.
Lemma norm_method norm m m' c : (m = "diff" <-> m' = "diff") -> _default_norm norm m c = _default_norm norm m' c.
Proof.
  intros H. unfold _default_norm. replace (String.eqb m' "diff") with (String.eqb m "diff"); [reflexivity|].
  destruct (String.eqb_spec m "diff") as [E|E], (String.eqb_spec m' "diff") as [E'|E']; auto; exfalso; tauto.
Qed.
(** The method is looked up before its default is known. *)
Lemma norm_early method m norm c : method_arg method m -> _default_norm norm (match method with Some m => m | None => "" end) c = _default_norm norm m c.
Proof. intros [_ [->|[-> ->]]]; reflexivity. Qed.

Section Equal.
  Variable K : Fld.
  Notation C := (Cx K).
  Variable W : nat -> Cx K.
  Add Field Kequal : (flaw K).

  Lemma ccorr_norm al (f1 f2 : list C) t1 t2 n norm nm m s1 s2 d : m = "corr" \/ m = "fft" \/ m = "diff" -> _default_norm norm m true = Ok nm ->
    ccorr W al f1 f2 t1 t2 n norm (Some m) s1 s2 d = ccorr W al f1 f2 t1 t2 n (Some nm) (Some m) s1 s2 d.
  Proof.
    intros Hm HN. unfold ccorr, ccorr_gen. replace (_default_method (Some m) n) with (@Ok string m) by (destruct Hm as [->|[->| ->]]; reflexivity).
    cbn [bind]. rewrite HN, (norm_resolved _ _ _ HN). reflexivity.
  Qed.
  Lemma ccorr_complex_norm al (f1 f2 : list C) t1 t2 n norm nm m s1 s2 d : m = "corr" \/ m = "fft" \/ m = "diff" -> _default_norm norm m true = Ok nm ->
    ccorr_complex W al f1 f2 t1 t2 n norm (Some m) s1 s2 d = ccorr_complex W al f1 f2 t1 t2 n (Some nm) (Some m) s1 s2 d.
  Proof.
    intros Hm HN. unfold ccorr_complex, ccorr_gen. replace (_default_method (Some m) n) with (@Ok string m) by (destruct Hm as [->|[->| ->]]; reflexivity).
    cbn [bind]. rewrite HN, (norm_resolved _ _ _ HN). reflexivity.
  Qed.
  Lemma acorr_norm al (f : list C) t n norm nm m s d : m = "corr" \/ m = "fft" \/ m = "diff" -> _default_norm norm m false = Ok nm ->
    acorr W al f t s n norm (Some m) d = acorr W al f t s n (Some nm) (Some m) d.
  Proof.
    intros Hm HN. unfold acorr, acorr_gen. replace (_default_method (Some m) n) with (@Ok string m) by (destruct Hm as [->|[->| ->]]; reflexivity).
    cbn [bind]. rewrite HN, (norm_resolved _ _ _ HN). reflexivity.
  Qed.
  Lemma acorr_complex_norm al (f : list C) t n norm nm m s d : m = "corr" \/ m = "fft" \/ m = "diff" -> _default_norm norm m false = Ok nm ->
    acorr_complex W al f t s n norm (Some m) d = acorr_complex W al f t s n (Some nm) (Some m) d.
  Proof.
    intros Hm HN. unfold acorr_complex, acorr_gen. replace (_default_method (Some m) n) with (@Ok string m) by (destruct Hm as [->|[->| ->]]; reflexivity).
    cbn [bind]. rewrite HN, (norm_resolved _ _ _ HN). reflexivity.
  Qed.
  Lemma rprod_kind m m' : (m = "diff" <-> m' = "diff") -> @rprod K m = @rprod K m'.
  Proof.
    intros H. unfold rprod. replace (String.eqb m' "diff") with (String.eqb m "diff"); [reflexivity|].
    destruct (String.eqb_spec m "diff") as [E|E], (String.eqb_spec m' "diff") as [E'|E']; auto; exfalso; tauto.
  Qed.

  (** ** The mean and the variance *)
  Lemma Sum_im A (l : list A) (f : A -> C) : cim (Sum (cmon K) l f) = Sum (fmon K) l (fun x => cim (f x)).
  Proof. induction l as [|x l IH]; [reflexivity|]. rewrite !Sum_cons. unfold cim at 1. simpl. f_equal. exact IH. Qed.
  Lemma mean_map n (f : nat -> C) : mean_of n f = list_mean (map f (seq 0 n)).
  Proof.
    unfold mean_of, list_mean. cbv zeta. rewrite cre_Sum, Sum_im, !Sum_map, map_length, seq_length. reflexivity.
  Qed.
  (** mean |x - mean|^2 = mean |x|^2 - |mean|^2 *)
  Lemma variance_shift (l : list C) : l <> [] ->
    list_variance l = fsub K (fdiv K (Sum (fmon K) l (@cnorm2 K)) (fnat K (length l))) (cnorm2 (list_mean l)).
  Proof.
    intros H. assert (HN : fnat K (length l) <> f0 K) by (apply fnat_neq0; destruct l; [contradiction|discriminate]).
    unfold list_variance. set (mu := list_mean l).
    assert (E : forall l' : list C, Sum (fmon K) l' (fun x => cnorm2 (csub x mu)) =
      fadd K (fsub K (Sum (fmon K) l' (@cnorm2 K)) (fmul K (fadd K (f1 K) (f1 K)) (fadd K (fmul K (cre mu) (Sum (fmon K) l' (@cre K))) (fmul K (cim mu) (Sum (fmon K) l' (@cim K))))))
             (fmul K (fnat K (length l')) (cnorm2 mu))).
    { induction l' as [|x l' IH].
      - cbn. match goal with |- @eq _ ?a ?b => change (@eq (fcar K) a b) end. ring.
      - rewrite !Sum_cons, IH. cbn [length]. rewrite fnat_S. cbn [madd fmon]. destruct x as [a b], mu as [c d]. unfold cnorm2, csub, cre, cim. cbn [fst snd]. match goal with |- @eq _ ?a ?b => change (@eq (fcar K) a b) end. cbn [mcar fmon]. ring. }
    rewrite E. clear E. unfold mu, list_mean, cre at 1 4, cim at 1 4. unfold cnorm2, cre, cim. cbn [fst snd].
    match goal with |- @eq _ ?a ?b => change (@eq (fcar K) a b) end.
    generalize (Sum (fmon K) l (fun x => fst x)). generalize (Sum (fmon K) l (fun x => snd x)). generalize (Sum (fmon K) l (@cnorm2 K)).
    cbn [mcar fmon]. intros A B D. field. exact HN.
  Qed.
  Lemma var_map n (f : nat -> C) : 0 < n -> var_of n f = list_variance (map f (seq 0 n)).
  Proof.
    intros H. rewrite variance_shift by (destruct n; [lia|discriminate]). unfold var_of. rewrite mean_map, Sum_map, map_length, seq_length. reflexivity.
  Qed.

  (** ** Fitting calls on whole streams *)
  Definition kept (n : nat) (t : option (list Z)) : option (list Z) := option_map (firstn n) t.
  Lemma okc_regular m (v1 v2 : list (C * K)) N : length v1 = length v2 -> N <= length v1 + 1 ->
    okc W m v1 v2 (Some (arange (length v1))) (Some (arange (length v2))) N -> okc W m v1 v2 None None N.
  Proof.
    intros HL HN (H1 & H2 & H3 & _). split; [exact H1|]. split; [split; auto|]. split; [|intros _; exact HN].
    destruct H3 as [H3|[H3|[H3 H4]]]; [left; exact H3|right; left; exact H3|right; right; split; [exact H3|]].
    unfold fft_ok in *. rewrite <- (map_length fst v1), <- (map_length fst v2), !samples_arange in H4. exact H4.
  Qed.
  Lemma oka_regular m (v : list (C * K)) N : N <= length v + 1 -> oka W m v (Some (arange (length v))) N -> oka W m v None N.
  Proof.
    intros HN (H1 & H2 & HD & H3 & _). split; [exact H1|]. split; [exact I|]. rewrite samples_arange in HD. split; [exact HD|]. split; [|intros _; exact HN].
    destruct H3 as [H3|[H3|[H3 H4]]]; [left; exact H3|right; left; exact H3|right; right; split; [exact H3|]].
    unfold fft_ok_auto in *. rewrite <- (map_length fst v), !samples_arange in H4. exact H4.
  Qed.

  Section Call.
    Variables (t1 t2 : option (list Z)) (n : nat) (chunk_size count len : option nat) (method : option string) (mode : string).
    Variables (T1 T2 : list Z) (total h D : nat) (m : string).
    Hypothesis Hcall : stream_call t1 t2 n chunk_size count len method mode T1 T2 total h D m.
    Notation nf := (h * 2 ^ D).

    Lemma given_times : match t1 with Some t => T1 = t | None => T1 = arange total end /\ match t2 with Some t => T2 = t | None => T2 = T1 end /\ nf <= total.
    Proof.
      destruct (sc_args Hcall) as (H1 & H2 & _ & _ & _ & _ & _ & H). split; [|split; [|lia]].
      - destruct t1; apply H1.
      - destruct t2; exact H2.
    Qed.
    Lemma kept_okc m' (v1 v2 : list (C * K)) : given t1 = given t2 -> length v1 = nf -> length v2 = nf -> call_fits W m' (firstn nf T1) (firstn nf T2) n ->
      okc W m' v1 v2 (kept nf t1) (kept nf t2) n.
    Proof.
      intros HG L1 L2 HF. destruct (call_facts Hcall) as (F1 & F2 & F3 & F4 & F5 & F6). destruct given_times as (G1 & G2 & G3).
      assert (Hne : v1 <> []) by (destruct v1; [cbn in L1; lia|discriminate]).
      assert (Hh : h <= nf) by (pose proof (pow_pos D); nia).
      assert (HO : okc W m' v1 v2 (Some (firstn nf T1)) (Some (firstn nf T2)) n).
      { apply okc_times; auto; rewrite ?firstn_length; lia. }
      destruct t1 as [u1|], t2 as [u2|]; try discriminate HG.
      - subst. exact HO.
      - subst T2 T1. rewrite arange_firstn in HO by exact G3. apply okc_regular; [lia|lia|]. rewrite L1, L2. exact HO.
    Qed.
    Lemma kept_oka m' (v : list (C * K)) : length v = nf -> NoDup (firstn nf T1) -> call_fits W m' (firstn nf T1) (firstn nf T1) n -> oka W m' v (kept nf t1) n.
    Proof.
      intros L1 HN HF. destruct (call_facts Hcall) as (F1 & F2 & F3 & F4 & F5 & F6). destruct given_times as (G1 & G2 & G3).
      assert (Hne : v <> []) by (destruct v; [cbn in L1; lia|discriminate]).
      assert (Hh : h <= nf) by (pose proof (pow_pos D); nia).
      assert (HO : oka W m' v (Some (firstn nf T1)) n).
      { apply oka_times; auto; rewrite ?firstn_length; lia. }
      destruct t1 as [u1|].
      - subst. exact HO.
      - subst T1. rewrite arange_firstn in HO by exact G3. apply oka_regular; [lia|]. rewrite L1. exact HO.
    Qed.
    Lemma kept_samples1 A (s : nat -> A) : samples (map s (seq 0 nf)) (kept nf t1) = ser s (fun k => nth k T1 0%Z) 0 nf.
    Proof.
      destruct (call_facts Hcall) as (F1 & F2 & F3 & F4 & F5 & F6). destruct given_times as (G1 & G2 & G3). rewrite <- samples_nth by exact F2.
      destruct t1; [subst; reflexivity|]. subst T1. rewrite arange_firstn by exact G3. cbn [kept option_map].
      rewrite <- samples_arange. rewrite map_length, seq_length. reflexivity.
    Qed.
    Lemma kept_samples2 A (s : nat -> A) : given t1 = given t2 -> samples (map s (seq 0 nf)) (kept nf t2) = ser s (fun k => nth k T2 0%Z) 0 nf.
    Proof.
      intros HG. destruct (call_facts Hcall) as (F1 & F2 & F3 & F4 & F5 & F6). destruct given_times as (G1 & G2 & G3). rewrite <- samples_nth by exact F3.
      destruct t1, t2; try discriminate HG; [subst; reflexivity|]. subst T2 T1. rewrite arange_firstn by exact G3. cbn [kept option_map].
      rewrite <- samples_arange. rewrite map_length, seq_length. reflexivity.
    Qed.

    (** The frames that are correlated *)
    Variables (cross auto_bg : bool) (bin : Z) (rs rs_bg : nat -> bool).
    Variable frames : list (C * C).
    Hypothesis Hframes : nf <= length frames.
    Notation S0 := (single m bin T1 T2 h n nf).
    Notation X := (fun k => nth k frames (c0 K, c0 K)).
    Notation value1 := (val1 cross rs rs_bg S0 auto_bg X 0).
    Notation value2 := (val2 cross rs rs_bg S0 auto_bg X 0).

    Lemma stream_signal_length (f : list C) k : k <= length f -> length (stream_signal auto_bg h k f) = k.
    Proof. intros H. unfold stream_signal. destruct auto_bg; rewrite ?map_length, firstn_length; lia. Qed.
    Lemma signal_values1 k : k <= length frames -> map (fst_signal cross S0 auto_bg X) (seq 0 k) = stream_signal auto_bg h k (map fst frames).
    Proof.
      intros Hk. destruct (call_facts Hcall) as (F1 & F2 & F3 & F4 & F5 & F6). assert (Hh : h <= nf) by (pose proof (pow_pos D); nia).
      unfold fst_signal, signal, stream_signal, background. destruct auto_bg.
      - cbn [fst]. rewrite mean_map. cbn [s_half]. rewrite (map_nth_seq (@fst C C) frames (c0 K, c0 K)) by (cbn; lia).
        rewrite (map_nth_seq (fun x => csub (fst x) (list_mean (map fst (firstn h (skipn 0 frames))))) frames (c0 K, c0 K)) by (cbn; lia).
        cbn [skipn]. rewrite !firstn_map, map_map. reflexivity.
      - rewrite (map_nth_seq (@fst C C) frames (c0 K, c0 K)) by (cbn; lia). cbn [skipn]. rewrite firstn_map. reflexivity.
    Qed.
    Lemma signal_values2 k : cross = true -> k <= length frames -> map (snd_signal cross S0 auto_bg X) (seq 0 k) = stream_signal auto_bg h k (map snd frames).
    Proof.
      intros -> Hk. destruct (call_facts Hcall) as (F1 & F2 & F3 & F4 & F5 & F6). assert (Hh : h <= nf) by (pose proof (pow_pos D); nia).
      unfold snd_signal, signal, stream_signal, background. destruct auto_bg.
      - cbn [snd]. rewrite mean_map. cbn [s_half]. rewrite (map_nth_seq (@snd C C) frames (c0 K, c0 K)) by (cbn; lia).
        rewrite (map_nth_seq (fun x => csub (snd x) (list_mean (map snd (firstn h (skipn 0 frames))))) frames (c0 K, c0 K)) by (cbn; lia).
        cbn [skipn]. rewrite !firstn_map, map_map. reflexivity.
      - rewrite (map_nth_seq (@snd C C) frames (c0 K, c0 K)) by (cbn; lia). cbn [skipn]. rewrite firstn_map. reflexivity.
    Qed.
    Lemma values1 : map fst (map value1 (seq 0 nf)) = stream_signal auto_bg h nf (map fst frames) /\
      map snd (map value1 (seq 0 nf)) = abs2 (stream_signal auto_bg h nf (map fst frames)).
    Proof. rewrite <- signal_values1 by exact Hframes. unfold abs2. rewrite !map_map. split; reflexivity. Qed.
    Lemma values2 : cross = true -> map fst (map value2 (seq 0 nf)) = stream_signal auto_bg h nf (map snd frames) /\
      map snd (map value2 (seq 0 nf)) = abs2 (stream_signal auto_bg h nf (map snd frames)).
    Proof. intros HX. rewrite <- signal_values2 by auto. unfold abs2. rewrite !map_map. split; reflexivity. Qed.

    (** The statistics are those of the frames *)
    Lemma statistics_lists k b v : 0 < k -> k <= length frames -> statistics cross S0 auto_bg X k b v ->
      let s := stream_signal auto_bg h k in
      fst b = list_mean (s (map fst frames)) /\ fst v = list_variance (s (map fst frames)) /\
      (cross = true -> snd b = list_mean (s (map snd frames)) /\ snd v = list_variance (s (map snd frames))).
    Proof.
      intros Hk Hk2 (H1 & H2 & H3). cbv zeta. rewrite mean_map, signal_values1 in H1 by exact Hk2.
      rewrite var_map, signal_values1 in H2 by assumption. split; [exact H1|]. split; [exact H2|].
      intros HX. destruct (H3 HX) as [H4 H5]. rewrite mean_map, signal_values2 in H4 by assumption.
      rewrite var_map, signal_values2 in H5 by assumption. auto.
    Qed.
  End Call.
End Equal.
