(** The data tuples computed by ccorr and acorr (CorrModel.v), as sums over pairs. *)
From Verif Require Import Base Kernels PairSpec KernelProofs PairLemmas RegularProofs SumProofs CoreModel
  CoreProofs CoreProofs2 CoreProofs3 CoreApi CoreApi2 FftModel FftProofs FftProofs2 FftProofs3 FftApi NormModel CorrModel CorrSpec.
From Coq Require Import String ZifyBool ZifyNat.
Open Scope string_scope.
Open Scope nat_scope.
Local Notation length := List.length.
Set Implicit Arguments.

(** The shift of all times done by the inspection of arguments *)
Definition sh (c : Z) : option (list Z) -> option (list Z) := option_map (map (fun t => t - c)%Z).

Ltac opt := solve [congruence | match goal with H : Some _ = Some _ |- _ => injection H as ->; reflexivity end].
(** What the inspection returns for admissible arguments. *)
Lemma inspect_cross_ok A B (f1 : list A) (f2 : list B) t1 t2 n al full :
  valid_cross f1 f2 t1 t2 -> exists c ts N,
    _inspect_cross_arguments (length f1) (length f2) t1 t2 n al full = Ok (ts, N) /\
    option_map fst ts = sh c t1 /\ option_map snd ts = sh c t2 /\ given ts = given t1 /\
    (forall m, n = Some m -> N = m) /\
    (n = None -> forall l, al = Some l -> N = if full then (l + 1) / 2 else l) /\
    (n = None -> al = None -> f1 <> [] -> covers (samples f1 t1) (samples f2 t2) N).
Proof.
  intros [HL HV]. unfold _inspect_cross_arguments. rewrite HL, Nat.eqb_refl. cbn [negb].
  assert (HC : f1 <> [] -> exists N, _determine_full_length_cross (length f2)
      match t1, t2 with Some t1, Some t2 => Some (t1, t2) | _, _ => None end = Ok N /\
      covers (samples f1 t1) (samples f2 t2) N).
  { intros Hne. destruct (@covers_samples A B f1 f2 t1 t2 (Logic.conj HL HV) Hne) as (N & E & HC & _).
    exists N. rewrite <- HL. auto. }
  destruct t1 as [t1|], t2 as [t2|]; try contradiction; cbn [bind].
  - destruct HV as (H1 & H2 & Hne). destruct (HC Hne) as (N0 & EN & HC0). clear HC.
    assert (exists N, match n with Some n => Ok n | None => match al with Some l => Ok (if full then ((l + 1) / 2) else l)
        | None => _determine_full_length_cross (length f2) (Some (t1, t2)) end end = Ok N /\
        (forall m, n = Some m -> N = m) /\ (n = None -> forall l, al = Some l -> N = if full then (l + 1) / 2 else l) /\
        (n = None -> al = None -> N = N0)) as (N & E & P1 & P2 & P3).
    { destruct n as [n|]; [exists n|destruct al as [l|]; [eexists|exists N0]]; (split; [first [reflexivity|exact EN]|]);
        (split; [intros; opt|]); (split; intros; opt). }
    rewrite E. cbn [bind]. unfold _shift_cross.
    destruct (@zmin_list_ok t1) as [m1 E1]; [eapply nonnil_len; [exact H1|exact Hne]|].
    destruct (@zmin_list_ok t2) as [m2 E2]; [eapply nonnil_len; [exact (eq_trans H2 (eq_sym HL))|exact Hne]|].
    rewrite E1, E2. cbn [bind].
    exists (Z.min m1 m2). do 2 eexists. split; [reflexivity|]. do 3 (split; [reflexivity|]).
    split; [exact P1|]. split; [exact P2|]. intros Hn Ha _. rewrite (P3 Hn Ha). exact HC0.
  - exists 0%Z.
    assert (exists N, match n with Some n => Ok n | None => match al with Some l => Ok (if full then ((l + 1) / 2) else l)
        | None => _determine_full_length_cross (length f2) None end end = Ok N /\
        (forall m, n = Some m -> N = m) /\ (n = None -> forall l, al = Some l -> N = if full then (l + 1) / 2 else l) /\
        (n = None -> al = None -> N = length f2)) as (N & E & P1 & P2 & P3).
    { destruct n as [n|]; [exists n|destruct al as [l|]; [eexists|exists (length f2)]]; (split; [reflexivity|]);
        (split; [intros; opt|]); (split; intros; opt). }
    rewrite E. cbn [bind]. do 2 eexists. split; [reflexivity|]. do 5 (split; auto).
    intros Hn Ha Hne. destruct (HC Hne) as (N0 & EN & HC0). cbn in EN. injection EN as <-. rewrite (P3 Hn Ha). exact HC0.
Qed.

Lemma inspect_auto_ok A (f : list A) t n al :
  valid_auto f t -> exists c t' N,
    _inspect_auto_arguments (length f) t n al = Ok (t', N) /\ t' = sh c t /\
    (forall m, n = Some m -> N = m) /\ (n = None -> forall l, al = Some l -> N = l) /\
    (n = None -> al = None -> f <> [] -> covers (samples f t) (samples f t) N).
Proof.
  intros HV. unfold _inspect_auto_arguments.
  assert (HC : f <> [] -> exists N, _determine_full_length_auto (length f) t = Ok N /\
      covers (samples f t) (samples f t) N).
  { intros Hne. destruct (@covers_samples_auto A f t HV Hne) as (N & E & HC & _). eauto. }
  destruct t as [t|].
  - destruct HV as (H1 & Hne). destruct (HC Hne) as (N0 & EN & HC0). clear HC.
    assert (exists N, match n with Some n => Ok n | None => match al with Some l => Ok l
        | None => _determine_full_length_auto (length f) (Some t) end end = Ok N /\
        (forall m, n = Some m -> N = m) /\ (n = None -> forall l, al = Some l -> N = l) /\
        (n = None -> al = None -> N = N0)) as (N & E & P1 & P2 & P3).
    { destruct n as [n|]; [exists n|destruct al as [l|]; [eexists|exists N0]]; (split; [first [reflexivity|exact EN]|]);
        (split; [intros; opt|]); (split; intros; opt). }
    rewrite E. cbn [bind].
    destruct (@zmin_list_ok t) as [m1 E1]; [eapply nonnil_len; [exact H1|exact Hne]|].
    rewrite E1. cbn [bind].
    exists m1. do 2 eexists. split; [reflexivity|]. split; [reflexivity|].
    split; [exact P1|]. split; [exact P2|]. intros Hn Ha _. rewrite (P3 Hn Ha). exact HC0.
  - exists 0%Z.
    assert (exists N, match n with Some n => Ok n | None => match al with Some l => Ok l
        | None => _determine_full_length_auto (length f) None end end = Ok N /\
        (forall m, n = Some m -> N = m) /\ (n = None -> forall l, al = Some l -> N = l) /\
        (n = None -> al = None -> N = length f)) as (N & E & P1 & P2 & P3).
    { destruct n as [n|]; [exists n|destruct al as [l|]; [eexists|exists (length f)]]; (split; [reflexivity|]);
        (split; [intros; opt|]); (split; intros; opt). }
    rewrite E. cbn [bind]. do 2 eexists. split; [reflexivity|]. do 3 (split; auto).
    intros Hn Ha Hne. destruct (HC Hne) as (N0 & EN & HC0). cbn in EN. injection EN as <-. rewrite (P3 Hn Ha). exact HC0.
Qed.

Lemma sh_valid A B (f1 : list A) (f2 : list B) c t1 t2 :
  valid_cross f1 f2 t1 t2 -> valid_cross f1 f2 (sh c t1) (sh c t2).
Proof.
  intros [HL HT]. split; [exact HL|]. destruct t1, t2; cbn [sh option_map]; try exact HT. rewrite !map_length. exact HT.
Qed.
Lemma sh_valid_auto A (f : list A) c t : valid_auto f t -> valid_auto f (sh c t).
Proof. destruct t; cbn [sh option_map valid_auto]; [rewrite map_length|]; auto. Qed.
Lemma sh_samples A (f : list A) c t : exists c', samples f (sh c t) = map (shift_time c') (samples f t) /\
   (t <> None -> c' = c) /\ (t = None -> c' = 0%Z).
Proof.
  destruct t as [t|]; cbn [sh option_map samples].
  - exists c. rewrite combine_shift. repeat split; congruence.
  - exists 0%Z. split; [|split; congruence]. symmetry. rewrite <- (map_id (regular f)) at 2. apply map_ext.
    intros [v x]. unfold shift_time; cbn [fst snd]. f_equal. lia.
Qed.
Lemma sh_samples2 A B (f1 : list A) (f2 : list B) c t1 t2 : given t1 = given t2 -> exists c',
  samples f1 (sh c t1) = map (shift_time c') (samples f1 t1) /\
  samples f2 (sh c t2) = map (shift_time c') (samples f2 t2).
Proof.
  intros HG. destruct (sh_samples f1 c t1) as (c1 & E1 & P1 & Q1), (sh_samples f2 c t2) as (c2 & E2 & P2 & Q2).
  exists c1. split; [exact E1|]. replace c1 with c2; [exact E2|].
  destruct t1, t2; try discriminate HG; [rewrite P1, P2 by discriminate|rewrite Q1, Q2 by reflexivity]; reflexivity.
Qed.
Lemma valid_given A B (f1 : list A) (f2 : list B) t1 t2 : valid_cross f1 f2 t1 t2 -> given t1 = given t2.
Proof. intros [_ H]. destruct t1, t2; easy. Qed.

Lemma covers_snd A B A' B' (d1 : list (sample A)) (d2 : list (sample B)) (e1 : list (sample A')) (e2 : list (sample B')) c L :
  map snd e1 = map (fun t => t - c)%Z (map snd d1) -> map snd e2 = map (fun t => t - c)%Z (map snd d2) ->
  covers d1 d2 L -> covers e1 e2 L.
Proof.
  intros E1 E2 [H1 (p & Hp & Ep)]. split.
  - intros [a b] Hab. apply in_prod_iff in Hab. destruct Hab as [Ha Hb].
    apply (in_map snd) in Ha. apply (in_map snd) in Hb. rewrite E1 in Ha. rewrite E2 in Hb.
    apply in_map_iff in Ha. apply in_map_iff in Hb. destruct Ha as (x & Ex & Ha), Hb as (y & Ey & Hb).
    apply in_map_iff in Ha. apply in_map_iff in Hb. destruct Ha as (u & Eu & Ha), Hb as (v & Ev & Hb).
    specialize (H1 (u, v)). unfold delay in *; cbn [fst snd] in *. rewrite <- Ex, <- Ey. subst.
    replace (snd v - c - (snd u - c))%Z with (snd v - snd u)%Z by lia. apply H1. apply in_prod_iff. auto.
  - destruct p as [u v]. apply in_prod_iff in Hp. destruct Hp as [Hu Hv].
    assert (Hu' : In (snd u - c)%Z (map snd e1)) by (rewrite E1; apply (in_map (fun t => t - c)%Z), in_map, Hu).
    assert (Hv' : In (snd v - c)%Z (map snd e2)) by (rewrite E2; apply (in_map (fun t => t - c)%Z), in_map, Hv).
    apply in_map_iff in Hu'. apply in_map_iff in Hv'. destruct Hu' as (a & Ea & Ha), Hv' as (b & Eb & Hb).
    exists (a, b). split; [apply in_prod_iff; auto|]. unfold delay in *; cbn [fst snd] in *. rewrite Ea, Eb.
    rewrite <- Ep. f_equal. lia.
Qed.
Lemma snd_shift A c (d : list (sample A)) : map snd (map (shift_time c) d) = map (fun t => t - c)%Z (map snd d).
Proof. rewrite !map_map. reflexivity. Qed.
Lemma distinct_shift A c (d : list (sample A)) : distinct d -> distinct (map (shift_time c) d).
Proof.
  unfold distinct. rewrite snd_shift. apply FinFun.Injective_map_NoDup. intros x y. lia.
Qed.

(** ** Sums over pairs, with arrays to add to *)
Definition start {A} (zero : A) (o : option (list A)) (len : nat) : list A :=
  match o with Some l => l | None => repeat zero len end.
Definition right_length {A} (o : option (list A)) (len : nat) : Prop :=
  match o with Some l => length l = len | None => True end.
Lemma start_length A (z : A) o len : right_length o len -> length (start z o len) = len.
Proof. destruct o; simpl; [auto|intros _; apply repeat_length]. Qed.

Lemma plus_cells_eq (M : CMon) (out : list M) f g : (forall i, f i = g i) -> plus_cells M out f = plus_cells M out g.
Proof. intros H. apply plus_cells_ext. intros i _. apply H. Qed.
Lemma plus_cells_twice (M : CMon) (out : list M) f g :
  plus_cells M (plus_cells M out f) g = plus_cells M out (fun i => madd M (f i) (g i)).
Proof.
  unfold plus_cells at 1. rewrite plus_cells_length. unfold plus_cells at 2. apply map_ext_in. intros i Hi. apply in_seq in Hi.
  rewrite nth_plus_cells by lia. apply eq_sym, madd_assoc.
Qed.

Section Data.
  Variable K : Fld.
  Notation C := (Cx K).
  Variable W : nat -> Cx K.
  Notation pair := (sample C * sample C)%type.

  Definition first (p : pair) : C := fst (fst p).
  Definition second (p : pair) : C := fst (snd p).
  Definition squares (p : pair) : K := fadd K (cnorm2 (first p)) (cnorm2 (second p)).

  (** The tuple computed from the pairs [P i] that contribute to cell [i], [cor] being
      the correlation. *)
  Definition corr_tuple {V} (cor : list V) (count : option (list nat)) (sq : option (list K))
      (ds1 ds2 : option (list C)) (len : nat) (norm : Z) (P : nat -> list pair) : cdata K V :=
    DCorr cor
      (plus_cells natmon (start 0 count len) (fun i => length (P i)))
      (if has_flag norm NORM_STRUCTURED
       then Some (plus_cells (fmon K) (start (f0 K) sq len) (fun i => Sum (fmon K) (P i) squares)) else sq)
      (if has_flag norm NORM_SUBTRACTED
       then Some (plus_cells (cmon K) (start (c0 K) ds1 len) (fun i => Sum (cmon K) (P i) first)) else ds1)
      (if has_flag norm NORM_SUBTRACTED
       then Some (plus_cells (cmon K) (start (c0 K) ds2 len) (fun i => Sum (cmon K) (P i) second)) else ds2).

  (** The same with squares that were passed as f1s and f2s, of which [Q i] are the pairs. *)
  Definition sqsum (p : sample K * sample K) : K := fadd K (fst (fst p)) (fst (snd p)).
  Definition corr_tuple_sq {V} (cor : list V) (count : option (list nat)) (sq : option (list K))
      (ds1 ds2 : option (list C)) (len : nat) (norm : Z) (P : nat -> list pair) (Q : nat -> list (sample K * sample K)) : cdata K V :=
    DCorr cor
      (plus_cells natmon (start 0 count len) (fun i => length (P i)))
      (if has_flag norm NORM_STRUCTURED
       then Some (plus_cells (fmon K) (start (f0 K) sq len) (fun i => Sum (fmon K) (Q i) sqsum)) else sq)
      (if has_flag norm NORM_SUBTRACTED
       then Some (plus_cells (cmon K) (start (c0 K) ds1 len) (fun i => Sum (cmon K) (P i) first)) else ds1)
      (if has_flag norm NORM_SUBTRACTED
       then Some (plus_cells (cmon K) (start (c0 K) ds2 len) (fun i => Sum (cmon K) (P i) second)) else ds2).

  Lemma start_fresh_sum (G : QGrp) (f : list G) t t_other n (complex inv : bool) aout len :
    (complex = true -> 0 < n) -> (aout = None -> len = if complex then 2 * n - 1 else n) ->
    cross_sum G f t t_other (Some n) complex inv aout =
    cross_sum G f t t_other (Some n) complex inv (Some (start (m0 G) aout len)).
  Proof.
    intros H0 HL. destruct aout as [o|]; [reflexivity|]. rewrite (HL eq_refl). cbn [start].
    apply cross_sum_fresh_arr. exact H0.
  Qed.

  Lemma Sum_first (G : CMon) A B (h : B -> G) (d1 : list (sample B)) (d2 : list (sample A)) k :
    sum_spec G (map (map_val h) d1) d2 k = Sum G (pairs_at k d1 d2) (fun p => h (fst (fst p))).
  Proof.
    unfold sum_spec. rewrite <- (map_id d2) at 1.
    rewrite (@pairs_at_map _ _ _ _ (map_val h) (fun x => x)) by reflexivity. apply Sum_map.
  Qed.
  Lemma Sum_first_signed (G : CMon) A B (h : B -> G) (d1 : list (sample B)) (d2 : list (sample A)) k :
    sum_signed_spec G (map (map_val h) d1) d2 k = Sum G (pairs_signed k d1 d2) (fun p => h (fst (fst p))).
  Proof.
    unfold sum_signed_spec. rewrite <- (map_id d2) at 1.
    rewrite (@pairs_signed_map _ _ _ _ (map_val h) (fun x => x)) by reflexivity. apply Sum_map.
  Qed.

  (** One sum of the first, and one of the second signal, for real data *)
  Section Sums.
    Variable G : QGrp.
    Variable A : Type.
    Variable h : A -> G.
    Variables f1 f2 : list A.
    Variables t1 t2 : option (list Z).
    Hypothesis HV : valid_cross f1 f2 t1 t2.
    Let d1 := samples f1 t1.
    Let d2 := samples f2 t2.

    Lemma V1 : valid_sum (map h f1) t1 t2.
    Proof. eapply valid_cross_sum; [exact HV|apply map_length]. Qed.
    Lemma V2 : valid_sum (map h f2) t2 t1.
    Proof. eapply valid_cross_sum; [exact (valid_cross_swap HV)|apply map_length]. Qed.
    Lemma none2 n : (t1 = None -> n <= length f1 + 1) -> (t2 = None -> n <= length f2 + 1).
    Proof.
      destruct HV as [HL HT]. intros H E. destruct t1, t2; try contradiction; try discriminate.
      rewrite <- HL. auto.
    Qed.

    Lemma sum_first n inv out : (t1 = None -> length out <= length f1 + 1) ->
      cross_sum G (map h f1) t1 t2 n false inv (Some out) =
      Ok (plus_cells G out (fun i => Sum G (pairs_at i d1 d2) (fun p => h (fst (fst p))))).
    Proof.
      intros Hn. rewrite cross_sum_real_aout; [|apply V1|rewrite map_length; exact Hn].
      f_equal. apply plus_cells_eq. intros i. destruct (valid_cross_lens HV) as [L1 L2].
      rewrite samples_map. etransitivity; [|apply (Sum_first G h d1 d2 i)].
      apply (sum_other (amon G)); [rewrite map_length; apply HV|exact L2].
    Qed.
    Lemma sum_second n inv out : (t1 = None -> length out <= length f1 + 1) ->
      cross_sum G (map h f2) t2 t1 n false inv (Some out) =
      Ok (plus_cells G out (fun i => Sum G (pairs_at i d1 d2) (fun p => h (fst (snd p))))).
    Proof.
      intros Hn. rewrite cross_sum_real_aout; [|apply V2|rewrite map_length; apply none2; exact Hn].
      f_equal. apply plus_cells_eq. intros i. destruct (valid_cross_lens HV) as [L1 L2].
      rewrite samples_map. etransitivity; [|etransitivity; [apply (Sum_first G h d2 d1 i)|]].
      - apply (sum_other (amon G)); [rewrite map_length; symmetry; apply HV|exact L1].
      - exact (Sum_pairs_at_swap G i d1 d2 (fun p => h (fst (fst p)))).
    Qed.
    Lemma sum_first_signed n out m : (0 < m) -> length out = 2 * m - 1 -> (t1 = None -> m <= length f1 + 1) ->
      cross_sum G (map h f1) t1 t2 n true false (Some out) =
      Ok (plus_cells G out (fun i => Sum G (pairs_signed (lag_at m i) d1 d2) (fun p => h (fst (fst p))))).
    Proof.
      intros Hm HL Hn. rewrite (@cross_sum_complex_aout G _ t1 t2 n false out m); [|apply V1|exact HL|exact Hm|rewrite map_length; exact Hn].
      f_equal. apply plus_cells_eq. intros i. destruct (valid_cross_lens HV) as [L1 L2].
      rewrite samples_map. etransitivity; [|apply (Sum_first_signed G h d1 d2)].
      apply (sum_signed_other (amon G)); [rewrite map_length; apply HV|exact L2].
    Qed.
    Lemma sum_second_signed n out m : (0 < m) -> length out = 2 * m - 1 -> (t1 = None -> m <= length f1 + 1) ->
      cross_sum G (map h f2) t2 t1 n true true (Some out) =
      Ok (plus_cells G out (fun i => Sum G (pairs_signed (lag_at m i) d1 d2) (fun p => h (fst (snd p))))).
    Proof.
      intros Hm HL Hn. rewrite (@cross_sum_complex_aout G _ t2 t1 n true out m); [|apply V2|exact HL|exact Hm|rewrite map_length; apply none2; exact Hn].
      f_equal. apply plus_cells_eq. intros i. destruct (valid_cross_lens HV) as [L1 L2].
      rewrite samples_map. etransitivity; [|etransitivity; [apply (Sum_first_signed G h d2 d1)|]].
      - apply (sum_signed_other (amon G)); [rewrite map_length; symmetry; apply HV|exact L1].
      - etransitivity; [apply (Sum_pairs_signed_swap G)|]. rewrite Z.opp_involutive. reflexivity.
    Qed.
  End Sums.

  (** ** ccorr *)
  Notation fft_ok := (fft_ok W).
  Definition method_ok (method : string) (f1 f2 : list C) (t1 t2 : option (list Z)) (N : nat) : Prop :=
    method = "corr" \/ (method = "fft" /\ fft_ok f1 f2 t1 t2 N).
  Definition given_squares (f : list C) (fs : option (list K)) (s : list K) : Prop :=
    (fs = Some s /\ length s = length f) \/ (fs = None /\ s = abs2 f).
  Definition squares_ok (f : list C) (fs : option (list K)) : Prop := forall s, fs = Some s -> s = abs2 f.

  Lemma fft_ok_shift f1 f2 c t1 t2 N : valid_cross f1 f2 t1 t2 ->
    fft_ok f1 f2 t1 t2 N -> fft_ok f1 f2 (sh c t1) (sh c t2) N.
  Proof.
    intros HV (Hne & D1 & D2 & L & HC & Hw & HN).
    destruct (sh_samples2 f1 f2 c t1 t2 (valid_given HV)) as (c' & E1 & E2). unfold CorrSpec.fft_ok. rewrite E1, E2.
    split; [exact Hne|]. split; [apply distinct_shift, D1|]. split; [apply distinct_shift, D2|].
    exists L. split; [|auto]. apply (@covers_snd _ _ _ _ (samples f1 t1) (samples f2 t2) _ _ c'); [apply snd_shift|apply snd_shift|exact HC].
  Qed.

  Lemma fft_ok_nodup f1 f2 t1 t2 N : valid_cross f1 f2 (Some t1) (Some t2) -> fft_ok f1 f2 (Some t1) (Some t2) N ->
    NoDup t1 /\ NoDup t2.
  Proof.
    intros (HL & H1 & H2 & _) (_ & D1 & D2 & _). unfold distinct in *. cbn [samples] in *.
    rewrite snd_combine in D1, D2 by lia. auto.
  Qed.
  Lemma fft_covers f1 f2 t1 t2 N : valid_cross f1 f2 (Some t1) (Some t2) -> fft_ok f1 f2 (Some t1) (Some t2) N ->
    exists L, is_root (L * 2) (W (L * 2)) /\ 0 < N <= L + 1 /\
      (forall A (f : list A), length f = length t1 -> covers (combine f t1) (times t2) L) /\
      (forall A (f : list A), length f = length t2 -> covers (combine f t2) (times t1) L).
  Proof.
    intros (HL & H1 & H2 & _) (_ & _ & _ & L & HC & Hw & HN). exists L. split; [exact Hw|]. split; [exact HN|].
    assert (E : forall t : list Z, t = map (fun t => t - 0)%Z t)
      by (intros t; rewrite <- map_id at 1; apply map_ext; intros; lia).
    split; intros A f Hf.
    - apply (@covers_snd _ _ _ _ (combine f1 t1) (combine f2 t2) _ _ 0%Z); cbn [samples] in HC;
        rewrite ?snd_combine, ?snd_times by lia; auto.
    - apply (@covers_snd _ _ _ _ (combine f2 t2) (combine f1 t1) _ _ 0%Z); cbn [samples] in HC;
        rewrite ?snd_combine, ?snd_times by lia; auto.
      destruct HC as [A1 (p & Hp & Ep)]. split.
      + intros [a b] Hab. apply in_prod_iff in Hab. specialize (A1 (b, a)). unfold delay in *; cbn [fst snd] in *.
        replace (snd b - snd a)%Z with (- (snd a - snd b))%Z by lia. rewrite Z.abs_opp. apply A1, in_prod_iff. tauto.
      + exists (snd p, fst p). destruct p as [a b]. apply in_prod_iff in Hp. split; [apply in_prod_iff; tauto|].
        rewrite <- Ep. unfold delay; cbn [fst snd]. lia.
  Qed.

  Definition out_len (complex : bool) (N : nat) : nat := if complex then 2 * N - 1 else N.

  Lemma out_length_ok (A : Type) (complex : bool) N (aout : option (list A)) L :
    right_length aout (out_len complex N) ->
    output_length (Some N) aout L = match aout with Some _ => if complex then 2 * N - 1 else N | None => N end.
  Proof. destruct aout; cbn [right_length output_length out_len]; auto. Qed.

  Section Chain.
    Variables f1 f2 : list C.
    Variables t1 t2 : option (list Z).
    Variable method : string.
    Variable N : nat.
    Hypothesis HV : valid_cross f1 f2 t1 t2.
    Hypothesis HM : method_ok method f1 f2 t1 t2 N.
    Let use := (String.eqb method "fft" && given t1)%bool.

    Lemma use_cases : use = false \/ (exists u v, t1 = Some u /\ t2 = Some v /\ fft_ok f1 f2 t1 t2 N).
    Proof.
      unfold use. destruct HM as [->|[-> HF]]; [left; reflexivity|].
      destruct t1 as [u|], t2 as [v|]; try (destruct (proj2 HV)); cbn [given]; [|left; reflexivity].
      right. exists u, v. auto.
    Qed.

    Lemma any_sum_sq (f : list K) complex (inv : bool) aout :
      length f = length f1 -> right_length aout (out_len complex N) ->
      (if use then cross_sum_fft_real W else cross_sum (fgrp K)) f t1 t2 (Some N) complex inv aout =
      cross_sum (fgrp K) f t1 t2 (Some N) complex inv aout /\
      (if use then cross_sum_fft_real W else cross_sum (fgrp K)) f t2 t1 (Some N) complex inv aout =
      cross_sum (fgrp K) f t2 t1 (Some N) complex inv aout.
    Proof.
      intros Hf Ho. destruct use_cases as [->|(u & v & E1 & E2 & HF)]; [split; reflexivity|].
      destruct use; [|split; reflexivity]. subst t1 t2.
      destruct (fft_ok_nodup HV HF) as [N1 N2]. destruct (fft_covers HV HF) as (L & Hw & HN & C1 & C2).
      assert (V1 : valid_sum f (Some u) (Some v)) by (eapply (@valid_cross_sum _ _ _ f1 f2); eauto).
      assert (V2 : valid_sum f (Some v) (Some u)).
      { eapply (@valid_cross_sum _ _ _ f2 f1); [exact (valid_cross_swap HV)|]. destruct HV. congruence. }
      split.
      - exact (@cross_sum_fft_direct K W (fgrp K) (@cofre K) (@cre K) eq_refl (fun _ _ => eq_refl) (fun _ => eq_refl)
           f u v L V1 N1 N2 (C1 _ f ltac:(symmetry; apply V1)) Hw (Some N) complex inv aout N (@out_length_ok _ complex N aout L Ho) HN).
      - exact (@cross_sum_fft_direct K W (fgrp K) (@cofre K) (@cre K) eq_refl (fun _ _ => eq_refl) (fun _ => eq_refl)
           f v u L V2 N2 N1 (C2 _ f ltac:(symmetry; apply V2)) Hw (Some N) complex inv aout N (@out_length_ok _ complex N aout L Ho) HN).
    Qed.
    Lemma any_sum_f (f : list C) complex (inv : bool) aout :
      length f = length f1 -> right_length aout (out_len complex N) ->
      (if use then cross_sum_fft_complex W else cross_sum (cgrp K)) f t1 t2 (Some N) complex inv aout =
      cross_sum (cgrp K) f t1 t2 (Some N) complex inv aout /\
      (if use then cross_sum_fft_complex W else cross_sum (cgrp K)) f t2 t1 (Some N) complex inv aout =
      cross_sum (cgrp K) f t2 t1 (Some N) complex inv aout.
    Proof.
      intros Hf Ho. destruct use_cases as [->|(u & v & E1 & E2 & HF)]; [split; reflexivity|].
      destruct use; [|split; reflexivity]. subst t1 t2.
      destruct (fft_ok_nodup HV HF) as [N1 N2]. destruct (fft_covers HV HF) as (L & Hw & HN & C1 & C2).
      assert (V1 : valid_sum f (Some u) (Some v)) by (eapply (@valid_cross_sum _ _ _ f1 f2); eauto).
      assert (V2 : valid_sum f (Some v) (Some u)).
      { eapply (@valid_cross_sum _ _ _ f2 f1); [exact (valid_cross_swap HV)|]. destruct HV. congruence. }
      split.
      - exact (@cross_sum_fft_direct K W (cgrp K) (fun z => z) (@conj K) (@conj_0 K) (@conj_add K) (@conj_conj K)
           f u v L V1 N1 N2 (C1 _ f ltac:(symmetry; apply V1)) Hw (Some N) complex inv aout N (@out_length_ok _ complex N aout L Ho) HN).
      - exact (@cross_sum_fft_direct K W (cgrp K) (fun z => z) (@conj K) (@conj_0 K) (@conj_add K) (@conj_conj K)
           f v u L V2 N2 N1 (C2 _ f ltac:(symmetry; apply V2)) Hw (Some N) complex inv aout N (@out_length_ok _ complex N aout L Ho) HN).
    Qed.

    Hypothesis HN : t1 = None -> N <= length f1 + 1.
    Variable aligned : bool.
    Let d1 := samples f1 t1.
    Let d2 := samples f2 t2.

    Lemma any_corr aout : right_length aout N ->
      (if String.eqb method "fft" then cross_correlate_fft W
       else if String.eqb method "corr" then (fun f1 f2 t1 t2 n aout => cross_correlate f1 f2 t1 t2 n aligned aout)
       else (fun f1 f2 t1 t2 n aout => cross_difference f1 f2 t1 t2 n aligned aout)) f1 f2 t1 t2 (Some N) aout =
      Ok (plus_cells (fmon K) (start (f0 K) aout N) (fun i => Sum (fmon K) (pairs_at i d1 d2) (@re_prod K))).
    Proof.
      intros Ho.
      assert (E : cross_correlate f1 f2 t1 t2 (Some N) aligned aout =
        Ok (plus_cells (fmon K) (start (f0 K) aout N) (fun i => Sum (fmon K) (pairs_at i d1 d2) (@re_prod K)))).
      { destruct aout as [o|].
        - apply cross_correlate_aout; [exact HV|]. cbn in Ho. intros E _. exact (eq_ind_r (fun x => x <= length f1 + 1) (HN E) Ho).
        - rewrite cross_correlate_fresh by auto. f_equal. symmetry. exact (plus_cells_zero (fmon K) N _). }
      destruct HM as [->|[-> (Hne & D1 & D2 & L & HC & Hw & HL)]]; [exact E|]. cbn [String.eqb Ascii.eqb Bool.eqb].
      etransitivity; [|exact E]. apply (@cross_correlate_fft_direct K W f1 f2 t1 t2 L); auto.
      destruct aout as [o|]; cbn [output_length]; [|exact HL]. cbn [right_length] in Ho. exact (eq_ind_r (fun x => 0 < x <= L + 1) HL Ho).
    Qed.
    Lemma any_corr_complex aout : 0 < N -> right_length aout (2 * N - 1) ->
      (if String.eqb method "fft" then cross_correlate_fft_complex W
       else if String.eqb method "corr" then (fun f1 f2 t1 t2 n aout => cross_correlate_complex f1 f2 t1 t2 n aligned aout)
       else (fun _ _ _ _ _ _ => Raise ValueError)) f1 f2 t1 t2 (Some N) aout =
      Ok (plus_cells (cmon K) (start (c0 K) aout (2 * N - 1))
            (fun i => Sum (cmon K) (pairs_signed (lag_at N i) d1 d2) (@cx_prod K))).
    Proof.
      intros H0 Ho.
      assert (E : cross_correlate_complex f1 f2 t1 t2 (Some N) aligned aout =
        Ok (plus_cells (cmon K) (start (c0 K) aout (2 * N - 1))
            (fun i => Sum (cmon K) (pairs_signed (lag_at N i) d1 d2) (@cx_prod K)))).
      { destruct aout as [o|].
        - apply (@cross_correlate_complex_aout K f1 f2 t1 t2 (Some N) aligned o N); auto.
        - rewrite cross_correlate_complex_fresh by auto. f_equal. symmetry. exact (plus_cells_zero (cmon K) (2 * N - 1) _). }
      destruct HM as [->|[-> (Hne & D1 & D2 & L & HC & Hw & HL)]]; [exact E|]. cbn [String.eqb Ascii.eqb Bool.eqb].
      etransitivity; [|exact E]. apply (@cross_correlate_fft_complex_direct K W f1 f2 t1 t2 L) with (m := N); auto.
      destruct aout as [o|]; cbn [output_length]; [exact Ho|reflexivity].
    Qed.

    Lemma count_real aout : right_length aout N ->
      match t1, t2 with
      | Some t1, Some t2 => cross_count (TArray t1) (Some (TArray t2)) (Some N) false aout
      | _, _ => let t := TArray (arange (length f1)) in cross_count t (Some t) (Some N) false aout
      end = Ok (plus_cells natmon (start 0 aout N) (fun i => length (pairs_at i d1 d2))).
    Proof.
      clear use HM HN. intros Ho.
      assert (G : forall a b, times a = map (map_val (fun _ => tt)) d1 -> times b = map (map_val (fun _ => tt)) d2 ->
        cross_count (TArray a) (Some (TArray b)) (Some N) false aout =
        Ok (plus_cells natmon (start 0 aout N) (fun i => length (pairs_at i d1 d2)))).
      { intros a b Ea Eb.
        assert (X : forall i, length (pairs_at i (times a) (times b)) = length (pairs_at i d1 d2)).
        { intros i. rewrite Ea, Eb. rewrite pairs_at_map by reflexivity. apply map_length. }
        destruct aout as [o|].
        - rewrite cross_count_real_aout. f_equal. apply plus_cells_eq. exact X.
        - rewrite cross_count_real_fresh. apply (f_equal (@Ok (list nat))). etransitivity; [|symmetry; exact (plus_cells_zero natmon N _)].
          apply map_ext. exact X. }
      destruct HV as [HL HT]. unfold d1, d2 in *. destruct t1 as [u|], t2 as [v|]; try contradiction; cbn [samples] in *.
      - destruct HT as (H1 & H2 & _). apply G; [exact (@times_of_samples _ f1 (Some u) H1)|exact (@times_of_samples _ f2 (Some v) H2)].
      - cbn zeta. apply G; [|rewrite HL]; [exact (@times_of_samples _ f1 None I)|exact (@times_of_samples _ f2 None I)].
    Qed.
    Lemma count_complex aout : 0 < N -> right_length aout (2 * N - 1) ->
      match t1, t2 with
      | Some t1, Some t2 => cross_count (TArray t1) (Some (TArray t2)) (Some N) true aout
      | _, _ => let t := TArray (arange (length f1)) in cross_count t (Some t) (Some N) true aout
      end = Ok (plus_cells natmon (start 0 aout (2 * N - 1)) (fun i => length (pairs_signed (lag_at N i) d1 d2))).
    Proof.
      clear use HM HN. intros H0 Ho.
      assert (G : forall a b, times a = map (map_val (fun _ => tt)) d1 -> times b = map (map_val (fun _ => tt)) d2 ->
        cross_count (TArray a) (Some (TArray b)) (Some N) true aout =
        Ok (plus_cells natmon (start 0 aout (2 * N - 1)) (fun i => length (pairs_signed (lag_at N i) d1 d2)))).
      { intros a b Ea Eb.
        assert (X : forall i, length (pairs_signed (lag_at N i) (times a) (times b)) = length (pairs_signed (lag_at N i) d1 d2)).
        { intros i. rewrite Ea, Eb. rewrite pairs_signed_map by reflexivity. apply map_length. }
        destruct aout as [o|].
        - rewrite (@cross_count_complex_aout _ _ _ o N) by assumption. f_equal. apply plus_cells_eq. exact X.
        - rewrite cross_count_complex_fresh by assumption. apply (f_equal (@Ok (list nat))). etransitivity; [|symmetry; exact (plus_cells_zero natmon (2 * N - 1) _)].
          apply map_ext. exact X. }
      destruct HV as [HL HT]. unfold d1, d2 in *. destruct t1 as [u|], t2 as [v|]; try contradiction; cbn [samples] in *.
      - destruct HT as (H1 & H2 & _). apply G; [exact (@times_of_samples _ f1 (Some u) H1)|exact (@times_of_samples _ f2 (Some v) H2)].
      - cbn zeta. apply G; [|rewrite HL]; [exact (@times_of_samples _ f1 None I)|exact (@times_of_samples _ f2 None I)].
    Qed.
  End Chain.

  (** Which number of cells the inspection of arguments settles on *)
  Definition cells_ok {A} (complex : bool) (f1 f2 : list C) (t1 t2 : option (list Z)) (n : option nat)
      (cor : option (list A)) (N : nat) : Prop :=
    match n, cor with
    | Some n, _ => N = n
    | None, Some o => True
    | None, None => f1 <> [] /\ covers (samples f1 t1) (samples f2 t2) N
    end /\ right_length cor (out_len complex N).

  Lemma shift_pairs_sum (M : CMon) A B c (h : sample A * sample B -> M) d1 d2 k :
    (forall p, h (map_pair (shift_time c) (shift_time c) p) = h p) ->
    Sum M (pairs_at k (map (shift_time c) d1) (map (shift_time c) d2)) h = Sum M (pairs_at k d1 d2) h.
  Proof.
    intros H. rewrite pairs_at_map by (intros; apply delay_shift). rewrite Sum_map. apply Sum_ext. intros p _. apply H.
  Qed.
  Lemma shift_signed_sum (M : CMon) A B c (h : sample A * sample B -> M) d1 d2 k :
    (forall p, h (map_pair (shift_time c) (shift_time c) p) = h p) ->
    Sum M (pairs_signed k (map (shift_time c) d1) (map (shift_time c) d2)) h = Sum M (pairs_signed k d1 d2) h.
  Proof.
    intros H. rewrite pairs_signed_map by (intros; apply delay_shift). rewrite Sum_map. apply Sum_ext. intros p _. apply H.
  Qed.

  Lemma squares_given f fs : squares_ok f fs -> match fs with Some s => s | None => abs2 f end = abs2 f.
  Proof. intros H. destruct fs as [s|]; [apply H|]; reflexivity. Qed.
  Lemma squares_given_sq f fs s : given_squares f fs s -> match fs with Some s => s | None => abs2 f end = s.
  Proof. intros [[-> _]|[-> ->]]; reflexivity. Qed.
  Lemma given_length f fs s : given_squares f fs s -> length s = length f.
  Proof. intros [[_ H]|[_ ->]]; [exact H|]. apply map_length. Qed.
  Lemma squares_ok_given f fs : squares_ok f fs -> given_squares f fs (abs2 f).
  Proof. intros H. destruct fs as [s|]; [left|right]; rewrite ?(H s eq_refl); split; auto. apply map_length. Qed.
  Lemma same_length_valid A A' (f1 f2 : list A) (g1 g2 : list A') t1 t2 :
    length g1 = length f1 -> length g2 = length f2 -> valid_cross f1 f2 t1 t2 -> valid_cross g1 g2 t1 t2.
  Proof.
    intros E1 E2 [HL HT]. split; [congruence|]. destruct t1, t2; auto.
    destruct HT as (A1 & A2 & A3). repeat split; try congruence. intros ->. destruct f1; cbn in *; congruence.
  Qed.

  Lemma resolve_N A (f1 f2 : list C) t1 t2 n (cor : option (list A)) N (complex : bool) (N' : nat) :
    cells_ok complex f1 f2 t1 t2 n cor N -> (complex = true -> 0 < N) ->
    (forall m, n = Some m -> N' = m) ->
    (n = None -> forall l, option_map (@length A) cor = Some l -> N' = if complex then (l + 1) / 2 else l) ->
    (n = None -> option_map (@length A) cor = None -> f1 <> [] -> covers (samples f1 t1) (samples f2 t2) N') ->
    valid_cross f1 f2 t1 t2 -> N' = N.
  Proof.
    intros [H HL] H0 P1 P2 P3 HV. destruct n as [n|]; [rewrite (P1 n eq_refl); auto|].
    destruct cor as [o|]; cbn [option_map right_length] in *.
    - rewrite (P2 eq_refl _ eq_refl), HL. destruct complex; cbn [out_len]; [|reflexivity].
      specialize (H0 eq_refl). replace (2 * N - 1 + 1) with (N * 2) by lia. apply Nat.div_mul. lia.
    - destruct H as [Hne HC]. specialize (P3 eq_refl eq_refl Hne).
      destruct (covers_samples HV Hne) as (L & _ & HC' & HL' & _).
      rewrite (covers_unique HC HC' HL'). exact (covers_unique P3 HC' HL').
  Qed.

  Theorem ccorr_tuple_sq aligned (f1 f2 : list C) t1 t2 n norm nm method m f1s f2s s1 s2 aout cor count sq ds1 ds2 N :
    valid_cross f1 f2 t1 t2 ->
    _default_method method n = Ok m -> method_ok m f1 f2 t1 t2 N -> _default_norm norm m true = Ok nm ->
    given_squares f1 f1s s1 -> given_squares f2 f2s s2 ->
    unpack_aout false aout = Ok (cor, count, sq, ds1, ds2) ->
    cells_ok false f1 f2 t1 t2 n cor N ->
    right_length count N -> right_length sq N -> right_length ds1 N -> right_length ds2 N ->
    (t1 = None -> N <= length f1 + 1) ->
    ccorr W aligned f1 f2 t1 t2 n norm method f1s f2s aout =
    Ok (corr_tuple_sq (plus_cells (fmon K) (start (f0 K) cor N)
                      (fun i => Sum (fmon K) (pairs_at i (samples f1 t1) (samples f2 t2)) (@re_prod K)))
          count sq ds1 ds2 N nm (fun i => pairs_at i (samples f1 t1) (samples f2 t2))
          (fun i => pairs_at i (samples s1 t1) (samples s2 t2))).
  Proof.
    intros HV HD HM HNm HS1 HS2 HU HC Hcount Hsq Hd1 Hd2 HN.
    unfold ccorr, ccorr_gen. rewrite HD. cbn [bind]. rewrite HNm. cbn [bind].
    assert (Ed : String.eqb m "diff" = false) by (destruct HM as [->|[-> _]]; reflexivity). rewrite Ed.
    cbn [andb]. rewrite HU. cbn [bind].
    destruct (@inspect_cross_ok C C f1 f2 t1 t2 n (option_map (@length K) cor) false HV)
      as (c & ts & N' & EI & E1 & E2 & EG & P1 & P2 & P3).
    cbn [mcar fmon] in *. rewrite EI. cbn [bind].
    assert (EN : N' = N) by (eapply (@resolve_N K); eauto; discriminate). subst N'.
    rewrite E1, E2.
    assert (HV' := sh_valid c HV).
    assert (HM' : method_ok m f1 f2 (sh c t1) (sh c t2) N).
    { destruct HM as [->|[-> HF]]; [left; reflexivity|right; split; [reflexivity|apply fft_ok_shift; auto]]. }
    assert (HN' : sh c t1 = None -> N <= length f1 + 1) by (destruct t1; [discriminate|auto]).
    etransitivity; [apply f_equal2; [|reflexivity]; exact (@any_corr f1 f2 (sh c t1) (sh c t2) m N HV' HM' HN' aligned cor (proj2 HC))|].
    cbn [bind].
    match goal with |- bind ?x ?f = _ => transitivity (bind (Ok (plus_cells natmon (start 0 count N)
       (fun i => length (pairs_at i (samples f1 (sh c t1)) (samples f2 (sh c t2)))))) f) end.
    { f_equal. rewrite <- (@count_real f1 f2 (sh c t1) (sh c t2) N HV' count Hcount).
      destruct ts as [[u v]|]; cbn [option_map fst snd] in E1, E2; rewrite <- E1, <- E2; reflexivity. }
    cbn [bind].
    assert (EU : given ts = given (sh c t1)) by (rewrite EG; destruct t1; reflexivity). rewrite EU.
    rewrite (squares_given_sq HS1), (squares_given_sq HS2).
    destruct HV as [HLen HT].
    pose proof (given_length HS1) as L1.
    assert (HVs : valid_cross s1 s2 (sh c t1) (sh c t2)) by (apply (@same_length_valid C K f1 f2); [exact L1|exact (given_length HS2)|exact HV']).
    assert (L2 : length s2 = length f1) by (rewrite (given_length HS2); auto).
    destruct (sh_samples2 f1 f2 c t1 t2 (valid_given (Logic.conj HLen HT))) as (c' & S1 & S2).
    destruct (sh_samples2 s1 s2 c t1 t2 (valid_given (Logic.conj HLen HT))) as (c'' & S1' & S2').
    match goal with |- bind ?x ?f = _ => transitivity (bind (Ok
      (if has_flag nm NORM_STRUCTURED
       then Some (plus_cells (fmon K) (start (f0 K) sq N) (fun i => Sum (fmon K) (pairs_at i (samples s1 t1) (samples s2 t2)) sqsum)) else sq)) f) end.
    { f_equal. rewrite andb_true_r. destruct (has_flag nm NORM_STRUCTURED); [|reflexivity].
      rewrite (proj1 (@any_sum_sq f1 f2 (sh c t1) (sh c t2) m N HV' HM' s1 false false sq L1 Hsq)).
      rewrite (@start_fresh_sum (fgrp K) s1 _ _ N false false sq N) by (auto; discriminate).
      rewrite <- (map_id s1) at 1.
      rewrite (@sum_first (fgrp K) K (fun z => z) s1 s2 (sh c t1) (sh c t2) HVs) by (intros E; rewrite start_length by assumption; rewrite L1; auto).
      cbn [bind].
      match goal with |- context [Some (plus_cells ?M ?o ?g)] =>
        rewrite (proj2 (@any_sum_sq f1 f2 (sh c t1) (sh c t2) m N HV' HM' s2 false true (Some (plus_cells M o g)) L2
         (eq_trans (plus_cells_length M o g) (@start_length _ (f0 K) sq N Hsq)))) end.
      rewrite <- (map_id s2) at 1.
      rewrite (@sum_second (fgrp K) K (fun z => z) s1 s2 (sh c t1) (sh c t2) HVs)
        by (intros E; rewrite plus_cells_length; erewrite start_length by eassumption; rewrite L1; auto).
      cbn [bind]. do 2 f_equal. rewrite plus_cells_twice. apply plus_cells_eq. intros i.
      rewrite <- Sum_madd. rewrite S1', S2'. apply shift_pairs_sum. reflexivity. }
    cbn [bind].
    match goal with |- bind ?x ?f = _ => transitivity (bind (Ok
      ((if has_flag nm NORM_SUBTRACTED
       then Some (plus_cells (cmon K) (start (c0 K) ds1 N) (fun i => Sum (cmon K) (pairs_at i (samples f1 t1) (samples f2 t2)) first)) else ds1),
       (if has_flag nm NORM_SUBTRACTED
       then Some (plus_cells (cmon K) (start (c0 K) ds2 N) (fun i => Sum (cmon K) (pairs_at i (samples f1 t1) (samples f2 t2)) second)) else ds2))) f) end.
    { f_equal. destruct (has_flag nm NORM_SUBTRACTED); [|reflexivity].
      rewrite (proj1 (@any_sum_f f1 f2 (sh c t1) (sh c t2) m N HV' HM' f1 false false ds1 eq_refl Hd1)).
      rewrite (@start_fresh_sum (cgrp K) f1 _ _ N false false ds1 N) by (auto; discriminate).
      rewrite <- (map_id f1) at 1.
      rewrite (@sum_first (cgrp K) C (fun z => z) f1 f2 (sh c t1) (sh c t2) HV') by (intros E; rewrite start_length by assumption; auto).
      cbn [bind].
      rewrite (proj2 (@any_sum_f f1 f2 (sh c t1) (sh c t2) m N HV' HM' f2 false true ds2 (eq_sym HLen) Hd2)).
      rewrite (@start_fresh_sum (cgrp K) f2 _ _ N false true ds2 N) by (auto; discriminate).
      rewrite <- (map_id f2) at 1.
      rewrite (@sum_second (cgrp K) C (fun z => z) f1 f2 (sh c t1) (sh c t2) HV') by (intros E; rewrite start_length by assumption; auto).
      cbn [bind]. apply (f_equal (@Ok _)), f_equal2; apply (f_equal (@Some _)); apply plus_cells_eq; intros i; rewrite S1, S2; apply shift_pairs_sum; reflexivity. }
    cbn [bind]. unfold corr_tuple_sq. f_equal. f_equal.
    - apply plus_cells_eq. intros i. rewrite S1, S2. apply shift_pairs_sum. reflexivity.
    - apply plus_cells_eq. intros i. rewrite S1, S2. rewrite pairs_at_map by (intros; apply delay_shift). apply map_length.
  Qed.

  Theorem ccorr_tuple aligned (f1 f2 : list C) t1 t2 n norm nm method m f1s f2s aout cor count sq ds1 ds2 N :
    valid_cross f1 f2 t1 t2 ->
    _default_method method n = Ok m -> method_ok m f1 f2 t1 t2 N -> _default_norm norm m true = Ok nm ->
    squares_ok f1 f1s -> squares_ok f2 f2s ->
    unpack_aout false aout = Ok (cor, count, sq, ds1, ds2) ->
    cells_ok false f1 f2 t1 t2 n cor N ->
    right_length count N -> right_length sq N -> right_length ds1 N -> right_length ds2 N ->
    (t1 = None -> N <= length f1 + 1) ->
    ccorr W aligned f1 f2 t1 t2 n norm method f1s f2s aout =
    Ok (corr_tuple (plus_cells (fmon K) (start (f0 K) cor N)
                      (fun i => Sum (fmon K) (pairs_at i (samples f1 t1) (samples f2 t2)) (@re_prod K)))
          count sq ds1 ds2 N nm (fun i => pairs_at i (samples f1 t1) (samples f2 t2))).
  Proof.
    intros HV HD HM HNm HS1 HS2 HU HC Hcount Hsq Hd1 Hd2 HN.
    rewrite (@ccorr_tuple_sq aligned f1 f2 t1 t2 n norm nm method m f1s f2s (abs2 f1) (abs2 f2) aout cor count sq ds1 ds2 N)
      by (auto using squares_ok_given).
    unfold corr_tuple_sq, corr_tuple. do 2 f_equal. destruct (has_flag nm NORM_STRUCTURED); [|reflexivity].
    f_equal. apply plus_cells_eq. intros i. unfold abs2. rewrite !samples_map. rewrite pairs_at_map by reflexivity. apply Sum_map.
  Qed.
End Data.
