(** The results of ccorr and acorr followed by normalize. *)
From Verif Require Import Base Kernels PairSpec KernelProofs PairLemmas CoreModel CoreProofs CoreProofs3 NormModel NormSpec
  FftModel CorrModel CorrSpec CorrProofs CorrProofs2 NormProofs NormProofs2.
From Coq Require Import String Field ZifyBool ZifyNat.
Open Scope string_scope.
Open Scope nat_scope.
Local Notation length := List.length.
Set Implicit Arguments.

Section Api.
  Variable K : Fld.
  Notation C := (Cx K).
  Notation pair := (sample C * sample C)%type.
  Variable W : nat -> C.

  Lemma call_method f1 f2 t1 t2 n method N : cross_call W f1 f2 t1 t2 n method N ->
    exists m, _default_method method n = Ok m /\ method_ok W m f1 f2 t1 t2 N /\
      forall norm nm, norm_arg norm nm -> _default_norm norm m true = Ok nm.
  Proof.
    intros (HV & HN & HL & HM).
    assert (G : forall m, m = "corr" \/ m = "fft" -> forall norm nm, norm_arg norm nm -> _default_norm norm m true = Ok nm).
    { intros m Hm norm nm [[-> HI]|[-> ->]]; [|destruct Hm as [->| ->]; reflexivity].
      destruct Hm as [->| ->]; cbn [In] in HI; decompose [or] HI; try subst nm; try reflexivity; contradiction. }
    destruct HM as [[->|[-> Hn]]|[[->|[-> ->]] HF]].
    - exists "corr". split; [reflexivity|]. split; [left; reflexivity|auto].
    - exists "corr". destruct n; [|congruence]. split; [reflexivity|]. split; [left; reflexivity|auto].
    - exists "fft". split; [reflexivity|]. split; [right; auto|auto].
    - exists "fft". split; [reflexivity|]. split; [right; auto|auto].
  Qed.
  Lemma auto_call_method f t n method N : auto_call W f t n method N ->
    exists m, _default_method method n = Ok m /\ method_ok_auto W m f t N /\
      forall norm nm, norm_arg norm nm -> _default_norm norm m false = Ok nm.
  Proof.
    intros (HV & HD & HN & HL & HM).
    assert (G : forall m, m = "corr" \/ m = "fft" -> forall norm nm, norm_arg norm nm -> _default_norm norm m false = Ok nm).
    { intros m Hm norm nm [[-> HI]|[-> ->]]; [|destruct Hm as [->| ->]; reflexivity].
      destruct Hm as [->| ->]; cbn [In] in HI; decompose [or] HI; try subst nm; try reflexivity; contradiction. }
    destruct HM as [[->|[-> Hn]]|[[->|[-> ->]] HF]].
    - exists "corr". split; [reflexivity|]. split; [left; reflexivity|auto].
    - exists "corr". destruct n; [|congruence]. split; [reflexivity|]. split; [left; reflexivity|auto].
    - exists "fft". split; [reflexivity|]. split; [right; auto|auto].
    - exists "fft". split; [reflexivity|]. split; [right; auto|auto].
  Qed.

  Lemma ccorr_call aligned (f1 f2 : list C) t1 t2 n norm nm method N :
    cross_call W f1 f2 t1 t2 n method N -> norm_arg norm nm ->
    ccorr W aligned f1 f2 t1 t2 n norm method None None None =
    Ok (cross_real_data (fun i => pairs_at i (samples f1 t1) (samples f2 t2)) N nm).
  Proof.
    intros HC HN. destruct (call_method HC) as (m & Hm & HM & HNm). destruct HC as (HV & HN' & HL & _).
    apply (@ccorr_tuple K W aligned f1 f2 t1 t2 n norm nm method m None None None None None None None None N); auto; try exact I; try discriminate.
    split; [|exact I]. destruct n; auto.
  Qed.
  Lemma ccorr_complex_call aligned (f1 f2 : list C) t1 t2 n norm nm method N : 0 < N ->
    cross_call W f1 f2 t1 t2 n method N -> norm_arg norm nm ->
    ccorr_complex W aligned f1 f2 t1 t2 n norm method None None None =
    Ok (cross_complex_data (fun i => pairs_signed (lag_at N i) (samples f1 t1) (samples f2 t2)) (2 * N - 1) nm).
  Proof.
    intros H0 HC HN. destruct (call_method HC) as (m & Hm & HM & HNm). destruct HC as (HV & HN' & HL & _).
    apply (@ccorr_complex_tuple K W aligned f1 f2 t1 t2 n norm nm method m None None None None None None None None N); auto; try exact I; try discriminate.
    split; [|exact I]. destruct n; auto.
  Qed.
  Lemma diff_norm norm nm cross : norm_arg_diff cross norm nm -> _default_norm norm "diff" cross = Ok nm.
  Proof.
    destruct cross; intros HN.
    - destruct HN as [[-> HI]|[-> ->]]; [|reflexivity]. cbn [In] in HI. decompose [or] HI; try subst nm; try reflexivity; contradiction.
    - destruct HN as [-> [->| ->]]; reflexivity.
  Qed.
  Lemma ccorr_diff_call aligned (f1 f2 : list C) t1 t2 n norm nm N :
    cross_diff_call f1 f2 t1 t2 n N -> norm_arg_diff true norm nm ->
    ccorr W aligned f1 f2 t1 t2 n norm (Some "diff") None None None =
    Ok (cross_diff_data (fun i => pairs_at i (samples f1 t1) (samples f2 t2)) N nm).
  Proof.
    intros (HV & HN' & HL) HN.
    apply (@ccorr_diff_tuple K W aligned f1 f2 t1 t2 n norm nm None None None None None None None None N); auto; try exact I.
    - apply diff_norm. exact HN.
    - split; [|exact I]. destruct n; auto.
  Qed.

  Definition auto_real_data (P : nat -> list pair) (N : nat) (nm : Z) : cdata K K :=
    acorr_tuple (plus_cells (fmon K) (repeat (f0 K) N) (fun i => Sum (fmon K) (P i) (@re_prod K))) None None None N nm P.
  Definition auto_complex_data (P : nat -> list pair) (N : nat) (nm : Z) : cdata K C :=
    acorr_tuple (plus_cells (cmon K) (repeat (c0 K) N) (fun i => Sum (cmon K) (P i) (@cx_prod_ordered K))) None None None N nm P.
  Definition auto_diff_data (P : nat -> list pair) (N : nat) : cdata K K :=
    DDiff (plus_cells (fmon K) (repeat (f0 K) N) (fun i => Sum (fmon K) (P i) (@sq_diff K)))
      (plus_cells natmon (repeat O N) (fun i => length (P i))) None None.

  Lemma acorr_call aligned (f : list C) t n norm nm method N :
    auto_call W f t n method N -> norm_arg norm nm ->
    acorr W aligned f t None n norm method None =
    Ok (auto_real_data (fun i => upairs_at i (samples f t)) N nm).
  Proof.
    intros HC HN. destruct (auto_call_method HC) as (m & Hm & HM & HNm). destruct HC as (HV & HD & HN' & HL & _).
    apply (@acorr_tuple_real K W aligned f t None n norm nm method m None None None None None None N); auto; try exact I; try discriminate.
    split; [|exact I]. destruct n; auto.
  Qed.
  Lemma acorr_complex_call aligned (f : list C) t n norm nm method N :
    auto_call W f t n method N -> norm_arg norm nm ->
    acorr_complex W aligned f t None n norm method None =
    Ok (auto_complex_data (fun i => upairs_at i (samples f t)) N nm).
  Proof.
    intros HC HN. destruct (auto_call_method HC) as (m & Hm & HM & HNm). destruct HC as (HV & HD & HN' & HL & _).
    apply (@acorr_tuple_complex K W aligned f t None n norm nm method m None None None None None None N); auto; try exact I; try discriminate.
    split; [|exact I]. destruct n; auto.
  Qed.
  Lemma acorr_diff_call aligned (f : list C) t n norm nm N :
    auto_diff_call f t n N -> norm_arg_diff false norm nm ->
    acorr W aligned f t None n norm (Some "diff") None =
    Ok (auto_diff_data (fun i => upairs_at i (samples f t)) N).
  Proof.
    intros (HV & HN' & HL) HN.
    apply (@acorr_diff_tuple K W aligned f t None n norm nm None None None N); auto; try exact I.
    - apply diff_norm. exact HN.
    - split; [|exact I]. destruct n; auto.
  Qed.
End Api.
