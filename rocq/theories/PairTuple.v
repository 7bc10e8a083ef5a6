(** The calls of ccorr and acorr as accumulators of pairs (PairAcc.v). *)
From Verif Require Import Base Kernels PairSpec KernelProofs PairLemmas RegularProofs CoreModel FftModel CoreProofs CoreProofs2 CoreApi
  NormModel CorrModel CorrSpec CorrProofs CorrProofs2 PairAcc.
From Coq Require Import String ZifyBool ZifyNat.
Open Scope string_scope.
Open Scope nat_scope.
Open Scope list_scope.
Local Notation length := List.length.
Set Implicit Arguments.

Section Tuple.
  Variable K : Fld.
  Notation C := (Cx K).
  Variable V : CMon.
  Notation pair := (sample C * sample C)%type.
  Notation S2 := (sample (C * K)).
  Notation pair2 := (S2 * S2)%type.

  (** Pairs of samples that carry a value and its square. *)
  Definition val (p : pair2) : pair := map_pair (map_val fst) (map_val fst) p.
  Definition sqv (p : pair2) : sample K * sample K := map_pair (map_val snd) (map_val snd) p.

  Variable prod : pair -> V.
  Variables g1 g2 : pair -> C.

  (** Adding the pairs [P i] to cell [i] of all arrays of a tuple. *)
  Definition add_pairs (d : cdata K V) (P : nat -> list pair2) : cdata K V :=
    let av v := plus_cells V v (fun i => Sum V (P i) (fun p => prod (val p))) in
    let an c := plus_cells natmon c (fun i => length (P i)) in
    let aq := option_map (fun q => plus_cells (fmon K) q (fun i => Sum (fmon K) (P i) (fun p => sqsum K (sqv p)))) in
    let as1 := option_map (fun q => plus_cells (cmon K) q (fun i => Sum (cmon K) (P i) (fun p => g1 (val p)))) in
    let as2 := option_map (fun q => plus_cells (cmon K) q (fun i => Sum (cmon K) (P i) (fun p => g2 (val p)))) in
    match d with
    | DCorr v c sq s1 s2 => DCorr (av v) (an c) (aq sq) (as1 s1) (as2 s2)
    | DDiff v c s1 s2 => DDiff (av v) (an c) (as1 s1) (as2 s2)
    | DBad => DBad
    end.

  Definition opt_shaped {A} (b : bool) (L : nat) (o : option (list A)) : Prop :=
    match o with Some q => b = true /\ length q = L | None => b = false end.
  (** Arrays of length [L], those that the norm [nm] asks for. *)
  Definition shaped (diff cross : bool) (nm : Z) (L : nat) (d : cdata K V) : Prop :=
    match d with
    | DCorr v c sq s1 s2 => diff = false /\ length v = L /\ length c = L /\ opt_shaped (has_flag nm NORM_STRUCTURED) L sq /\
        opt_shaped (has_flag nm NORM_SUBTRACTED) L s1 /\ opt_shaped (has_flag nm NORM_SUBTRACTED && cross) L s2
    | DDiff v c s1 s2 => diff = true /\ length v = L /\ length c = L /\
        opt_shaped (has_flag nm NORM_SUBTRACTED) L s1 /\ opt_shaped (has_flag nm NORM_SUBTRACTED && cross) L s2
    | DBad => False
    end.

  Lemma opt_shaped_map (M : CMon) b L (o : option (list M)) f : opt_shaped b L o -> opt_shaped b L (option_map (fun q => plus_cells M q f) o).
  Proof. destruct o; cbn; [|auto]. intros [H1 H2]. split; [exact H1|]. rewrite plus_cells_length. exact H2. Qed.
  Lemma add_pairs_shaped diff cross nm L d P : shaped diff cross nm L d -> shaped diff cross nm L (add_pairs d P).
  Proof.
    destruct d as [v c sq s1 s2|v c s1 s2|]; cbn [shaped add_pairs]; [| |auto]; intros H; repeat split; try apply H;
      rewrite ?plus_cells_length; try apply H; apply opt_shaped_map; apply H.
  Qed.

  Lemma add_pairs_twice d P Q : add_pairs (add_pairs d P) Q = add_pairs d (fun i => P i ++ Q i).
  Proof.
    assert (H : forall (M : CMon) q (g : pair2 -> M), plus_cells M (plus_cells M q (fun i => Sum M (P i) g)) (fun i => Sum M (Q i) g) =
      plus_cells M q (fun i => Sum M (P i ++ Q i) g)).
    { intros. rewrite plus_cells_twice. apply plus_cells_eq. intros. symmetry. apply Sum_app. }
    assert (HN : forall q, plus_cells natmon (plus_cells natmon q (fun i => length (P i))) (fun i => length (Q i)) =
      plus_cells natmon q (fun i => length (P i ++ Q i))).
    { intros. rewrite plus_cells_twice. apply plus_cells_eq. intros. symmetry. apply app_length. }
    destruct d as [v c [sq|] [s1|] [s2|]|v c [s1|] [s2|]|]; cbn [add_pairs option_map]; rewrite ?H, ?HN; reflexivity.
  Qed.

  Definition inv_fun {X} (sym : bool) (g : pair -> X) : Prop := invariant sym g.
  Lemma inv_val (M : Type) sym (g : pair -> M) : invariant sym g -> invariant sym (fun p => g (val p)).
  Proof.
    intros [H1 H2]. split.
    - intros c [[x t] [y u]]. specialize (H1 c (val ((x, t), (y, u)))). exact H1.
    - intros E [[x t] [y u]]. specialize (H2 E (val ((x, t), (y, u)))). exact H2.
  Qed.
  Lemma inv_sq sym : invariant sym (fun p => sqsum K (sqv p)).
  Proof.
    split; intros; destruct p as [[x t] [y u]]; [reflexivity|]. unfold swap, sqv, map_pair, map_val, sqsum; cbn [fst snd]. apply fadd_comm.
  Qed.

  Lemma add_pairs_same sym diff cross nm L d P Q : shaped diff cross nm L d ->
    invariant sym prod -> invariant sym g1 -> (cross = true -> invariant sym g2) ->
    (forall i, i < L -> same sym (P i) (Q i)) -> add_pairs d P = add_pairs d Q.
  Proof.
    intros HS Hp H1 H2 H.
    assert (HM : forall (M : CMon) (q : list M) (g : pair2 -> M), length q = L -> invariant sym g ->
      plus_cells M q (fun i => Sum M (P i) g) = plus_cells M q (fun i => Sum M (Q i) g)).
    { intros M q g E Hg. apply plus_cells_ext. intros i Hi. apply (H i); [lia|exact Hg]. }
    assert (HN : forall q, length q = L -> plus_cells natmon q (fun i => length (P i)) = plus_cells natmon q (fun i => length (Q i))).
    { intros q E. apply plus_cells_ext. intros i Hi. apply (@same_length _ sym), H. cbn [mcar natmon] in *. lia. }
    pose proof (inv_val Hp) as IP. pose proof (inv_val H1) as I1. pose proof (inv_sq sym) as IQ.
    assert (I2 : cross = true -> invariant sym (fun p => g2 (val p))) by (intros E; apply inv_val; auto).
    destruct d as [v c sq s1 s2|v c s1 s2|]; cbn [shaped add_pairs] in *; [| |reflexivity].
    - destruct HS as (_ & Lv & Lc & Hq & Hs1 & Hs2). f_equal; auto.
      + destruct sq; [|reflexivity]. cbn. f_equal. apply HM; [apply Hq|exact IQ].
      + destruct s1; [|reflexivity]. cbn. f_equal. apply (HM (cmon K)); [apply Hs1|exact I1].
      + destruct s2; [|reflexivity]. cbn. f_equal. apply (HM (cmon K)); [apply Hs2|].
        apply I2. destruct Hs2 as [E _]. destruct cross; [reflexivity|]. rewrite andb_false_r in E. discriminate.
    - destruct HS as (_ & Lv & Lc & Hs1 & Hs2). f_equal; auto.
      + destruct s1; [|reflexivity]. cbn. f_equal. apply (HM (cmon K)); [apply Hs1|exact I1].
      + destruct s2; [|reflexivity]. cbn. f_equal. apply (HM (cmon K)); [apply Hs2|].
        apply I2. destruct Hs2 as [E _]. destruct cross; [reflexivity|]. rewrite andb_false_r in E. discriminate.
  Qed.
End Tuple.
Arguments add_pairs {K V} prod g1 g2 d P.
Arguments add_pairs_twice {K V}.

(** ** The length argument is not used when a complete output is given *)
Section Irrelevant.
  Variable K : Fld.
  Notation C := (Cx K).
  Variable W : nat -> Cx K.

  Lemma bind_eq A B (x y : res A) (f g : A -> res B) : x = y -> (forall a, f a = g a) -> bind x f = bind y g.
  Proof. intros -> H. destruct y; [apply H|reflexivity]. Qed.
  Lemma inspect_cross_n l1 l2 t1 t2 n n' al full :
    _inspect_cross_arguments l1 l2 t1 t2 (Some n) al full =
    (let* (ts, _) := _inspect_cross_arguments l1 l2 t1 t2 (Some n') al full in Ok (ts, n)).
  Proof.
    unfold _inspect_cross_arguments. destruct t1, t2; cbn [bind]; try reflexivity; destruct (negb (l1 =? l2)); try reflexivity; cbn [bind].
    destruct (_shift_cross l l0); reflexivity.
  Qed.
  Ltac irr n n' := rewrite (@inspect_cross_n _ _ _ _ n n');
    destruct (_inspect_cross_arguments _ _ _ _ (Some n') _ _) as [[[[? ?]|] ?]|]; reflexivity.
  Lemma run_cross_n A B (zero : B) complex (kr : list A -> list A -> list B -> res (list B)) k f1 f2 t1 t2 n n' al o :
    run_cross zero complex kr k f1 f2 t1 t2 (Some n) al (Some o) = run_cross zero complex kr k f1 f2 t1 t2 (Some n') al (Some o).
  Proof. unfold run_cross. irr n n'. Qed.
  Lemma run_cross_fft_n B (zero : B) complex kr k (f1 f2 : list C) t1 t2 n n' o :
    run_cross_fft zero complex kr k f1 f2 t1 t2 (Some n) (Some o) = run_cross_fft zero complex kr k f1 f2 t1 t2 (Some n') (Some o).
  Proof. unfold run_cross_fft. irr n n'. Qed.
  Lemma cross_sum_n G f t t' n n' complex inv o :
    cross_sum G f t t' (Some n) complex inv (Some o) = cross_sum G f t t' (Some n') complex inv (Some o).
  Proof. unfold cross_sum. irr n n'. Qed.
  Lemma cross_sum_fft_n G toC back f t t' n n' complex inv o :
    run_cross_sum_fft W G toC back f t t' (Some n) complex inv (Some o) = run_cross_sum_fft W G toC back f t t' (Some n') complex inv (Some o).
  Proof. unfold run_cross_sum_fft. irr n n'. Qed.

  Lemma ccorr_gen_n (V : CMon) complex fft corr diff f1 f2 t1 t2 n n' nm m f1s f2s (d : cdata K V) isdiff L :
    (forall f1 f2 t1 t2 o, fft f1 f2 t1 t2 (Some n) (Some o) = fft f1 f2 t1 t2 (Some n') (Some o)) ->
    (forall f1 f2 t1 t2 o, corr f1 f2 t1 t2 (Some n) (Some o) = corr f1 f2 t1 t2 (Some n') (Some o)) ->
    (forall f1 f2 t1 t2 o, diff f1 f2 t1 t2 (Some n) (Some o) = diff f1 f2 t1 t2 (Some n') (Some o)) ->
    shaped V isdiff true nm L d ->
    ccorr_gen W complex fft corr diff f1 f2 t1 t2 (Some n) (Some nm) (Some m) f1s f2s (Some d) =
    ccorr_gen W complex fft corr diff f1 f2 t1 t2 (Some n') (Some nm) (Some m) f1s f2s (Some d).
  Proof.
    intros Hf Hc Hd HS. unfold ccorr_gen.
    replace (_default_method (Some m) (Some n)) with (_default_method (Some m) (Some n')) by reflexivity.
    destruct (_default_method (Some m) (Some n')) as [m'|]; [|reflexivity]. cbn [bind].
    assert (EN : _default_norm (Some nm) m' true = Ok nm \/ exists e, _default_norm (Some nm) m' true = Raise e).
    { unfold _default_norm. match goal with |- context [in_list nm ?l] => destruct (in_list nm l) end; [left|right; eexists]; reflexivity. }
    destruct EN as [->|[e ->]]; [|reflexivity]. cbn [bind].
    destruct (String.eqb m' "diff" && complex)%bool; [reflexivity|].
    destruct (unpack_aout (String.eqb m' "diff") (Some d)) as [[[[[cor cnt] sq] ds1] ds2]|] eqn:EU; [|reflexivity]. cbn [bind].
    assert (HU : cor <> None /\ cnt <> None /\ (has_flag nm NORM_STRUCTURED && negb (String.eqb m' "diff") = true -> sq <> None)%bool /\
      (has_flag nm NORM_SUBTRACTED = true -> ds1 <> None /\ ds2 <> None)).
    { unfold unpack_aout in EU. destruct d as [v c q s1 s2|v c s1 s2|]; [| |discriminate]; destruct (String.eqb m' "diff"); try discriminate;
        injection EU as <- <- <- <- <-; cbn [shaped] in HS; (split; [discriminate|]); (split; [discriminate|]);
        destruct HS as (_ & _ & _ & HS); unfold opt_shaped in HS.
      - destruct HS as (H1 & H2 & H3). split; [intros E ->; rewrite andb_true_r in E; congruence|].
        intros E. split; intros ->; rewrite ?E in *; discriminate.
      - destruct HS as (H2 & H3). split; [rewrite andb_false_r; discriminate|].
        intros E. split; intros ->; rewrite ?E in *; discriminate. }
    destruct HU as (U1 & U2 & U3 & U4).
    destruct cor as [cor|]; [clear U1|congruence]. destruct cnt as [cnt|]; [clear U2|congruence]. cbn [option_map].
    rewrite (@inspect_cross_n _ _ _ _ n n'). destruct (_inspect_cross_arguments _ _ _ _ (Some n') _ _) as [[ts n0]|] eqn:EI; [|reflexivity].
    cbn [bind].
    assert (n0 = n'). { unfold _inspect_cross_arguments in EI. destruct t1, t2; cbn [bind] in EI; try discriminate;
      destruct (negb (length f1 =? length f2)); try discriminate; cbn [bind] in EI; [|congruence].
      destruct (_shift_cross l l0); [|discriminate]. cbn [bind] in EI. congruence. }
    subst n0.
    assert (EF : forall u v, (if String.eqb m' "fft" then fft else if String.eqb m' "corr" then corr else diff) f1 f2 u v (Some n) (Some cor) =
      (if String.eqb m' "fft" then fft else if String.eqb m' "corr" then corr else diff) f1 f2 u v (Some n') (Some cor)).
    { intros u v. destruct (String.eqb m' "fft"); [apply Hf|]. destruct (String.eqb m' "corr"); [apply Hc|apply Hd]. }
    rewrite EF. destruct ((if String.eqb m' "fft" then fft else if String.eqb m' "corr" then corr else diff) _ _ _ _ _ _) as [cor'|]; [|reflexivity]. cbn [bind].
    match goal with |- bind ?x ?f = bind ?y ?g => assert (EC : x = y) by (destruct ts as [[? ?]|]; reflexivity); rewrite EC; destruct y as [c'|] end; [|reflexivity].
    cbn [bind]. clear EC EF EI Hf Hc Hd.
    set (uf := (String.eqb m' "fft" && given ts)%bool) in *.
    assert (ES : forall f u v inv o, (if uf then cross_sum_fft_real W else cross_sum (fgrp K)) f u v (Some n) complex inv (Some o) =
      (if uf then cross_sum_fft_real W else cross_sum (fgrp K)) f u v (Some n') complex inv (Some o)).
    { intros. destruct uf; [apply cross_sum_fft_n|apply cross_sum_n]. }
    assert (ES2 : forall f u v inv o, (if uf then cross_sum_fft_complex W else cross_sum (cgrp K)) f u v (Some n) complex inv (Some o) =
      (if uf then cross_sum_fft_complex W else cross_sum (cgrp K)) f u v (Some n') complex inv (Some o)).
    { intros. destruct uf; [apply cross_sum_fft_n|apply cross_sum_n]. }
    match goal with |- bind ?x ?f = bind ?y ?g => assert (EQ : x = y); [|rewrite EQ; destruct y as [sq'|]; [|reflexivity]] end.
    { destruct (has_flag nm NORM_STRUCTURED && negb (String.eqb m' "diff"))%bool; [|reflexivity].
      destruct sq as [sq|]; [|exfalso; apply U3; reflexivity].
      apply bind_eq; [apply ES|]. intros s'. apply bind_eq; [apply ES|]. reflexivity. }
    cbn [bind]. clear EQ.
    match goal with |- bind ?x ?f = bind ?y ?g => assert (EQ : x = y); [|rewrite EQ; reflexivity] end.
    destruct (has_flag nm NORM_SUBTRACTED); [|reflexivity].
    destruct (U4 eq_refl) as [U5 U6]. destruct ds1 as [ds1|]; [|congruence]. destruct ds2 as [ds2|]; [|congruence].
    apply bind_eq; [apply ES2|]. intros s'. apply bind_eq; [apply ES2|]. reflexivity.
  Qed.
  Lemma ccorr_n al f1 f2 t1 t2 n n' nm m f1s f2s (d : cdata K K) isdiff L :
    shaped (fmon K) isdiff true nm L d ->
    ccorr W al f1 f2 t1 t2 (Some n) (Some nm) (Some m) f1s f2s (Some d) = ccorr W al f1 f2 t1 t2 (Some n') (Some nm) (Some m) f1s f2s (Some d).
  Proof. intros H. apply ccorr_gen_n with (isdiff := isdiff) (L := L); [| | |exact H]; intros; [apply run_cross_fft_n|apply run_cross_n|apply run_cross_n]. Qed.
  Lemma ccorr_complex_n al f1 f2 t1 t2 n n' nm m f1s f2s (d : cdata K C) isdiff L :
    shaped (cmon K) isdiff true nm L d ->
    ccorr_complex W al f1 f2 t1 t2 (Some n) (Some nm) (Some m) f1s f2s (Some d) = ccorr_complex W al f1 f2 t1 t2 (Some n') (Some nm) (Some m) f1s f2s (Some d).
  Proof. intros H. apply ccorr_gen_n with (isdiff := isdiff) (L := L); [| | |exact H]; intros; [apply run_cross_fft_n|apply run_cross_n|reflexivity]. Qed.
End Irrelevant.
