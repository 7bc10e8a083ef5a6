(** iccorr and iacorr in terms of the pairs that they sum. *)
From Verif Require Import Base Kernels PairSpec KernelProofs PairLemmas RegularProofs CoreModel FftModel FftProofs CoreProofs CoreProofs2 CoreApi
  NormModel CorrModel CorrSpec CorrProofs CorrProofs2 PairAcc PairTuple MultiModel MultiSpec MultiProofs StreamModel CallPairs CallFresh StreamBuffer StreamLoop StreamChunk StreamSpec StreamSetup StreamFits StreamIter StreamSingle.
From Coq Require Import String ZifyBool ZifyNat.
Open Scope string_scope.
Open Scope nat_scope.
Open Scope list_scope.
Local Notation length := List.length.
Set Implicit Arguments.

Lemma last_yield_app K (V : CMon) (ys : list (yielded K V)) y : last_yield (ys ++ [y]) = Ok y.
Proof. unfold last_yield. rewrite rev_app_distr. reflexivity. Qed.

(** ** Invariance of the products *)
Section Inv.
  Variable K : Fld.
  Add Field Kinst : (flaw K).
  Lemma inv_re sym : invariant sym (@re_prod K).
  Proof.
    split; [intros c p; reflexivity|].
    intros _ [[[a b] t] [[c d] u]]. unfold swap, re_prod, cmul, conj, cre, cim. cbn [fst snd]. change (@eq (fcar K)) with (@eq K). ring.
  Qed.
  Lemma inv_sq_diff sym : invariant sym (@sq_diff K).
  Proof.
    split; [intros c p; reflexivity|].
    intros _ [[[a b] t] [[c d] u]]. unfold swap, sq_diff, cnorm2, csub, cre, cim. cbn [fst snd]. ring.
  Qed.
  Lemma inv_rprod sym m : invariant sym (@rprod K m).
  Proof. unfold rprod. destruct (String.eqb m "diff"); [apply inv_sq_diff|apply inv_re]. Qed.
  Lemma inv_cx : invariant false (@cx_prod K).
  Proof. split; [intros c p; reflexivity|discriminate]. Qed.
  Lemma inv_ordered : invariant false (@cx_prod_ordered K).
  Proof.
    split; [|discriminate]. intros c [[x t] [y u]]. unfold cx_prod_ordered, map_pair, shift_time, cx_prod. cbn [fst snd].
    replace (t - c <=? u - c)%Z with (t <=? u)%Z by lia. reflexivity.
  Qed.
  Lemma inv_first : invariant false (@first K).
  Proof. split; [intros c p; reflexivity|discriminate]. Qed.
  Lemma inv_second : invariant false (@second K).
  Proof. split; [intros c p; reflexivity|discriminate]. Qed.
  Lemma inv_halfsum sym : invariant sym (@halfsum K).
  Proof.
    split; [intros c p; reflexivity|]. intros _ [[[a b] t] [[c d] u]]. unfold swap, halfsum, first, second, cadd, cre, cim. cbn [fst snd]. f_equal. f_equal; ring.
  Qed.
End Inv.

Lemma norm_both nm m : m <> "diff" -> _default_norm (Some nm) m false = Ok nm -> _default_norm (Some nm) m true = Ok nm.
Proof. intros Hm. unfold _default_norm. apply String.eqb_neq in Hm. rewrite Hm. auto. Qed.

(** The frame arguments, the same for all functions *)
Record stream_call (t1 t2 : option (list Z)) (n : nat) (chunk_size count len : option nat) (method : option string) (mode : string)
    (T1 T2 : list Z) (total h D : nat) (m : string) : Prop := {
  sc_args : stream_args t1 t2 n chunk_size count len T1 T2 total h D;
  sc_method : method_arg method m;
  sc_mode : mode = "full" \/ mode = "chunk" }.

Section Facts.
  Variables (t1 t2 : option (list Z)) (n : nat) (chunk_size count len : option nat) (method : option string) (mode : string).
  Variables (T1 T2 : list Z) (total h D : nat) (m : string).
  Hypothesis Hcall : stream_call t1 t2 n chunk_size count len method mode T1 T2 total h D m.
  Notation nf := (h * 2 ^ D).
  Lemma call_facts : 0 < n <= h /\ nf <= length T1 /\ nf <= length T2 /\ (exists k, nf = k * h) /\ 0 < nf /\ nf / h = 2 ^ D.
  Proof.
    destruct (sc_args Hcall) as (_ & _ & HT & HL & _ & Hn & Hh & HD). pose proof (pow_pos D) as HP.
    split; [exact Hn|]. split; [lia|]. split; [lia|]. split; [exists (2 ^ D); lia|]. split; [nia|].
    rewrite Nat.mul_comm. apply Nat.div_mul. lia.
  Qed.
End Facts.

Section Instances.
  Variable K : Fld.
  Notation C := (Cx K).
  Variable W : nat -> Cx K.
  Variable w : world K.
  Variables (t1 t2 : option (list Z)) (n : nat) (chunk_size count len : option nat) (method : option string) (mode : string).
  Variables (T1 T2 : list Z) (total h D : nat) (m : string) (norm : Z) (auto_bg stats : bool).
  Hypothesis Hcall : stream_call t1 t2 n chunk_size count len method mode T1 T2 total h D m.
  Notation nf := (h * 2 ^ D).
  Notation full := (String.eqb mode "full").

  Lemma call_setup : exists bin, stream_setup t1 t2 1 (Some n) chunk_size None method count len (Some 0%Z) mode = Ok (single m bin T1 T2 h n nf).
  Proof.
    destruct (method_binning (sc_method Hcall)) as [bin HB]. exists bin.
    exact (@single_setup t1 t2 n chunk_size method count len mode T1 T2 total h D m bin (sc_mode Hcall) HB (sc_args Hcall)).
  Qed.
  Lemma fits_neighbours (HF : method_fits W m T1 T2 h nf n) c c' : (c + 1) * h <= nf -> (c' + 1) * h <= nf -> c <= c' + 1 -> c' <= c + 1 ->
    call_fits W m (chunk_times h c T1) (chunk_times h c' T2) n.
  Proof. intros H1 H2 H3 H4. destruct HF as [E|[E|[E HF]]]; [left; exact E|right; left; exact E|right; right; split; [exact E|apply HF; assumption]]. Qed.

  (** The value of frame [k] at the first level *)
  Definition frame1 (cross : bool) (bin : Z) (frames : list (C * C)) (k : nat) : C :=
    fst_signal cross (single m bin T1 T2 h n nf) auto_bg (fun k => nth k frames (c0 K, c0 K)) k.
  Definition frame2 (cross : bool) (bin : Z) (frames : list (C * C)) (k : nat) : C :=
    snd_signal cross (single m bin T1 T2 h n nf) auto_bg (fun k => nth k frames (c0 K, c0 K)) k.

  Section Outcome.
    Variables (V : CMon) (cross : bool) (prod : sample C * sample C -> V) (g1 g2 : sample C * sample C -> C).
    Variables (lag : nat -> nat -> Z -> bool) (len' : nat -> nat) (lost : bool).
    Variable frames : list (C * C).
    Variable iter : res (list (yielded K V)).
    (** The values yielded, in terms of pairs; [P] describes what is correlated after [c]
        chunks. *)
    Definition outcome : Prop := exists bin,
      let S0 := single m bin T1 T2 h n nf in
      let X := fun k => nth k frames (c0 K, c0 K) in
      let out := single_row V cross w norm full auto_bg m bin T1 T2 h n nf prod g1 g2 lag len' lost frames (c0 K, c0 K) in
      exists ys y, iter = Ok (ys ++ [y]) /\ length ys = nf / h /\ fst (fst y) = (out (nf / h), []) /\
        (forall c, c < length ys -> let y := nth c ys ((DBad, []), w_bg w, w_var w) in
          fst (fst (fst y)) = out (c + 1) /\ (stats = true -> statistics cross S0 auto_bg X ((c + 1) * h) (snd (fst y)) (snd y))) /\
        (stats = true -> statistics cross S0 auto_bg X nf (snd (fst y)) (snd y)).
  End Outcome.


  Theorem cross_real frames : method_fits W m T1 T2 h nf n -> _default_norm (Some norm) m true = Ok norm -> nf <= length frames ->
    outcome (V := fmon K) true (@rprod K m) (@first K) (@second K) (fun _ => lag_real) (fun n => n) false frames
      (multi_iter (fmon K) false (ccorr W) (acorr W) w true frames t1 t2 1 (Some n) chunk_size None method count len auto_bg (Some 0%Z) (Some norm) stats mode).
  Proof.
    intros HF HN HL. destruct (call_facts Hcall) as (F1 & F2 & F3 & F4 & F5 & F6). destruct call_setup as [bin HS]. exists bin. cbv zeta.
    apply (@single_run K (fmon K) W false true (ccorr W) (acorr W) w norm full auto_bg stats m bin T1 T2 h n nf (@rprod K m) (@first K) (@second K)
      (fun _ => lag_real) (fun n => n) false); auto; try discriminate.
    - intros _ al v1 v2 u1 u2 n' N d HO _ HSh. exact (@call_ccorr K W al m norm v1 v2 u1 u2 n' N d HO HN HSh).
    - split; [apply inv_rprod|]. split; [apply inv_first|intros _; apply inv_second].
    - intros _ c c' H1 H2 H3. apply fits_neighbours; auto; lia.
  Qed.
  Theorem cross_complex frames : m <> "diff" -> method_fits W m T1 T2 h nf n -> _default_norm (Some norm) m true = Ok norm -> nf <= length frames ->
    outcome (V := cmon K) true (@cx_prod K) (@first K) (@second K) lag_cx (fun n => 2 * n - 1) false frames
      (multi_iter (cmon K) true (ccorr_complex W) (acorr_complex W) w true frames t1 t2 1 (Some n) chunk_size None method count len auto_bg (Some 0%Z) (Some norm) stats mode).
  Proof.
    intros Hm HF HN HL. destruct (call_facts Hcall) as (F1 & F2 & F3 & F4 & F5 & F6). destruct call_setup as [bin HS]. exists bin. cbv zeta.
    apply (@single_run K (cmon K) W true true (ccorr_complex W) (acorr_complex W) w norm full auto_bg stats m bin T1 T2 h n nf (@cx_prod K) (@first K) (@second K)
      lag_cx (fun n => 2 * n - 1) false); auto; try discriminate.
    - intros _ al v1 v2 u1 u2 n' N d HO H0 HSh. exact (@call_ccorr_complex K W al m norm v1 v2 u1 u2 n' N d HO Hm H0 HN HSh).
    - split; [apply inv_cx|]. split; [apply inv_first|intros _; apply inv_second].
    - intros _ c c' H1 H2 H3. apply fits_neighbours; auto; lia.
  Qed.
  Lemma chunk_nodup c : NoDup (firstn nf T1) -> (c + 1) * h <= nf -> NoDup (chunk_times h c T1).
  Proof.
    intros HD H. destruct (call_facts Hcall) as (F1 & F2 & _). unfold chunk_times. apply NoDup_nth with (d := 0%Z). rewrite firstn_length, skipn_length.
    intros i j Hi Hj E. rewrite !nth_firstn, !nth_skipn in E by lia.
    assert (i + c * h = j + c * h); [|lia]. apply (proj1 (NoDup_nth _ 0%Z) HD); rewrite ?firstn_length, ?nth_firstn by lia; try lia; exact E.
  Qed.
  Theorem auto_real frames : m <> "diff" \/ mode = "chunk" -> T2 = T1 -> NoDup (firstn nf T1) -> method_fits W m T1 T2 h nf n ->
    _default_norm (Some norm) m false = Ok norm -> nf <= length frames ->
    outcome (V := fmon K) false (@rprod K m) (@halfsum K) (@halfsum K) (fun _ => lag_real) (fun n => n) false frames
      (multi_iter (fmon K) false (ccorr W) (acorr W) w false frames t1 t2 1 (Some n) chunk_size None method count len auto_bg (Some 0%Z) (Some norm) stats mode).
  Proof.
    intros Hm HT HD HF HN HL. destruct (call_facts Hcall) as (F1 & F2 & F3 & F4 & F5 & F6). destruct call_setup as [bin HS]. exists bin. cbv zeta.
    apply (@single_run K (fmon K) W false false (ccorr W) (acorr W) w norm full auto_bg stats m bin T1 T2 h n nf (@rprod K m) (@halfsum K) (@halfsum K)
      (fun _ => lag_real) (fun n => n) false); auto; try discriminate.
    - intros _ al v u n' d HO HSh. exact (@call_acorr K W al m norm v u n' d HO HN HSh).
    - intros _ Hfull al v1 v2 u1 u2 n' crop d HO _ Hc HSh.
      assert (Hm' : m <> "diff"). { destruct Hm as [Hm|Hm]; [exact Hm|]. rewrite Hm in Hfull. discriminate Hfull. }
      assert (Ed : String.eqb m "diff" = false) by (apply String.eqb_neq; exact Hm'). rewrite Ed in HSh.
      exact (@call_merge K W al m norm v1 v2 u1 u2 n' crop d HO Hm' (@norm_both norm m Hm' HN) ltac:(lia) HSh).
    - split; [apply inv_rprod|]. split; [apply inv_halfsum|discriminate].
    - intros _ c Hc. split; [apply chunk_nodup; auto|]. rewrite HT in HF. split; [|intros _ Hc0].
      + pose proof (fits_neighbours) as FN. rewrite HT in FN. apply FN; auto; lia.
      + pose proof (fits_neighbours) as FN. rewrite HT in FN. apply FN; auto; nia.
  Qed.
  Theorem auto_complex frames : m <> "diff" -> T2 = T1 -> (forall a b, a < b -> b < nf -> (nth a T1 0 < nth b T1 0)%Z) -> method_fits W m T1 T2 h nf n ->
    _default_norm (Some norm) m false = Ok norm -> nf <= length frames ->
    outcome (V := cmon K) false (@cx_prod_ordered K) (@halfsum K) (@halfsum K) (fun _ => lag_real) (fun n => n) true frames
      (multi_iter (cmon K) true (ccorr_complex W) (acorr_complex W) w false frames t1 t2 1 (Some n) chunk_size None method count len auto_bg (Some 0%Z) (Some norm) stats mode).
  Proof.
    intros Hm HT HI HF HN HL. destruct (call_facts Hcall) as (F1 & F2 & F3 & F4 & F5 & F6). destruct call_setup as [bin HS]. exists bin. cbv zeta.
    assert (HD : NoDup (firstn nf T1)).
    { apply NoDup_nth with (d := 0%Z). rewrite firstn_length. intros i j Hi Hj E. rewrite !nth_firstn in E by lia.
      destruct (lt_eq_lt_dec i j) as [[H|H]|H]; [|exact H|]; [pose proof (HI i j H ltac:(lia))|pose proof (HI j i H ltac:(lia))]; lia. }
    apply (@single_run K (cmon K) W true false (ccorr_complex W) (acorr_complex W) w norm full auto_bg stats m bin T1 T2 h n nf (@cx_prod_ordered K) (@halfsum K) (@halfsum K)
      (fun _ => lag_real) (fun n => n) true); auto; try discriminate.
    - intros _ al v u n' d HO HSh. exact (@call_acorr_complex K W al m norm v u n' d HO Hm HN HSh).
    - intros _ Hfull al v1 v2 u1 u2 n' crop d HO HO' Hc HSh.
      assert (Ed : String.eqb m "diff" = false) by (apply String.eqb_neq; exact Hm). rewrite Ed in HSh.
      exact (@call_merge_complex K W al m norm v1 v2 u1 u2 n' crop d HO Hm (@norm_both norm m Hm HN) (HO' eq_refl) Hc HSh).
    - split; [apply inv_ordered|]. split; [apply inv_halfsum|discriminate].
    - intros _ c Hc. split; [apply chunk_nodup; auto|]. rewrite HT in HF. split; [|intros _ Hc0].
      + pose proof (fits_neighbours) as FN. rewrite HT in FN. apply FN; auto; lia.
      + pose proof (fits_neighbours) as FN. rewrite HT in FN. apply FN; auto; nia.
  Qed.
End Instances.
