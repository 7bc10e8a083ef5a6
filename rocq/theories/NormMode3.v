(** Accepted norms, norm flags and strings, fold_data. *)
From Verif Require Import Base Kernels PairSpec KernelProofs PairLemmas CoreModel CoreProofs CoreProofs3 NormModel NormSpec
  FftModel CorrModel CorrSpec CorrProofs CorrProofs2 NormProofs NormProofs2 NormApi NormAuto NormMap NormApi2 NormMode NormMode2.
From Coq Require Import String Ascii Field ZifyBool ZifyNat.
Open Scope string_scope.
Open Scope nat_scope.
Local Notation length := List.length.
Set Implicit Arguments.

(* ------------------------------------------------------------------ *)
(** * Which norms normalize accepts *)
Section Accept.
  Variable K : Fld.
  Notation C := (Cx K).
  Variable V : Type.
  Variable O : NormOps K V.
  Variable dn : list (fval V) -> list (fval V).

  Definition opt_len {A} (x : option (list A)) (N : nat) : Prop := match x with Some l => length l = N | None => True end.
  (** All arrays of the data have [N] cells. *)
  Definition well_formed (data : cdata K V) (N : nat) : Prop :=
    match data with
    | DCorr d c sq s1 s2 => length d = N /\ length c = N /\ opt_len sq N /\ opt_len s1 N /\ opt_len s2 N
    | DDiff d c s1 s2 => length d = N /\ length c = N /\ opt_len s1 N /\ opt_len s2 N
    | DBad => False
    end.
  (** The norms that the arrays of the data support. *)
  Definition supports (data : cdata K V) (z : Z) : bool :=
    match data with
    | DCorr _ _ sq s1 _ => data_supports (given sq) (given s1) z
    | DDiff _ _ s1 s2 => ((z =? 2) || ((z =? 6) && given s1 && given s2))%Z
    | DBad => false
    end.
  (** difference data can only be normalized if the formulas for it exist *)
  Definition has_diff (data : cdata K V) : Prop := is_corr data = false -> op_cdiff_1 O <> None /\ op_cdiff_3 O <> None.

  Lemma default_norm_spec (data : cdata K V) z : _default_norm_from_data data (Some z) = if supports data z then Ok z else Raise ValueError.
  Proof.
    destruct data; cbn [_default_norm_from_data supports]; [apply norm_from_ccorr_data_spec|apply norm_from_cdiff_data_spec|reflexivity].
  Qed.
  Lemma cells_some lens n (f : nat -> fval V) : (forall m, In m lens -> m = n) -> cells lens n f = Ok (map f (seq 0 n)).
  Proof.
    intros H. unfold cells. replace (forallb (Nat.eqb n) lens) with true; [reflexivity|]. symmetry. apply forallb_forall.
    intros m Hm. rewrite (H m Hm). apply Nat.eqb_refl.
  Qed.
  Lemma mode_some (b : bool) r var v : scale_factor K var = Ok v ->
    (exists l, (if b then _corr2diff O r var else Ok r) = Ok l /\ length l = length r) /\
    (exists l, (if b then _diff2corr O r var else Ok r) = Ok l /\ length l = length r).
  Proof.
    intros E. unfold _corr2diff, _diff2corr. rewrite E. destruct b; cbn [bind]; split; eexists; (split; [reflexivity|]); rewrite ?map_length; reflexivity.
  Qed.
  Lemma unweighted_cases z : In z supported_norms -> (Z.land z 3 <> 3)%Z -> In z [1; 2; 5; 6; 9; 10; 13; 14]%Z.
  Proof.
    unfold supported_norms. intros H HW. cbn [In] in *. decompose [or] H; subst; auto 10; try contradiction; exfalso; apply HW; reflexivity.
  Qed.
  Lemma supports_In b1 b2 z : data_supports b1 b2 z = true -> In z supported_norms.
  Proof. unfold data_supports. intros H. apply andb_prop in H as [H _]. apply andb_prop in H as [H _]. apply in_list_In. exact H. Qed.

  Lemma formula_some data N b1 b2 var v z mode :
    has_diff data -> well_formed data N -> supports data z = true -> (Z.land z 3 <> 3)%Z -> scale_factor K var = Ok v ->
    exists l, normalize_formula O data b1 b2 var z mode = Ok l /\ length l = N.
  Proof.
    intros Hops HF HS HW HV. destruct data as [d c sq s1 s2|d c s1 s2|]; [| |destruct HF].
    - cbn [well_formed supports] in HF, HS. destruct HF as (H1 & H2 & H3 & H4 & H5).
      pose proof HS as HS'. unfold data_supports in HS'. apply andb_prop in HS'. destruct HS' as [HSa HSb]. apply andb_prop in HSa. destruct HSa as [_ HSa].
      assert (HI := @unweighted_cases z (@supports_In _ _ z HS) HW).
      cbn [In] in HI. repeat (destruct HI as [<-|HI]; [|]); [..|contradiction]; unfold normalize_formula; cbn [Z.eqb Pos.eqb orb];
        cbn [Z.testbit Pos.testbit Pos.pred_N negb orb andb N.testbit Pos.pred_double] in HSa, HSb;
        rewrite ?HV; cbn [bind];
        try (destruct s1 as [s1|]; [|discriminate HSb]); try (destruct sq as [sq|]; [|discriminate HSa]); cbn [need bind];
        (rewrite cells_some;
         [cbn [bind]; match goal with |- context [map ?f (seq 0 ?n)] => destruct (@mode_some (String.eqb mode "diff") (map f (seq 0 n)) var v HV) as [(l & -> & Hl) _] end;
          exists l; split; [reflexivity|]; rewrite Hl, map_length, seq_length; exact H1
         |cbn [In opt_len] in *; try (destruct s2 as [s2|]; cbn [opt_len] in *); intros m Hm; decompose [or] Hm; try contradiction; subst; congruence]).
    - cbn [well_formed supports] in HF, HS. destruct HF as (H1 & H2 & H4 & H5).
      destruct (Hops eq_refl) as [O1 O2].
      unfold normalize_formula. destruct (Z.eqb_spec z 2) as [->|N2].
      + destruct (op_cdiff_1 O); [|congruence]. cbn [need bind]. rewrite cells_some.
        * cbn [bind]. match goal with |- context [map ?f (seq 0 ?n)] => destruct (@mode_some (String.eqb mode "corr") (map f (seq 0 n)) var v HV) as [_ (l & -> & Hl)] end.
          exists l. split; [reflexivity|]. rewrite Hl, map_length, seq_length. exact H1.
        * intros m [<-|[]]. congruence.
      + cbn [orb] in HS. apply andb_prop in HS as [HS E2]. apply andb_prop in HS as [E E1]. apply Z.eqb_eq in E. subst z. cbn [Z.eqb Pos.eqb orb].
        destruct (op_cdiff_3 O); [|congruence]. destruct s1 as [s1|]; [|discriminate]. destruct s2 as [s2|]; [|discriminate]. cbn [need bind opt_len] in *. rewrite cells_some.
        * cbn [bind]. match goal with |- context [map ?f (seq 0 ?n)] => destruct (@mode_some (String.eqb mode "corr") (map f (seq 0 n)) var v HV) as [_ (l & -> & Hl)] end.
          exists l. split; [reflexivity|]. rewrite Hl, map_length, seq_length. exact H1.
        * intros m [<-|[<-|[<-|[]]]]; congruence.
  Qed.

  Lemma weighted_parts (data : cdata K V) z : supports data z = true -> (Z.land z 3 = 3)%Z ->
    supports data (Z.lor (Z.land z (Z.lor 4 8)) 2) = true /\ (Z.land (Z.lor (Z.land z (Z.lor 4 8)) 2) 3 <> 3)%Z /\
    supports data (Z.lor (Z.land z (Z.lor 4 8)) 1) = true /\ (Z.land (Z.lor (Z.land z (Z.lor 4 8)) 1) 3 <> 3)%Z.
  Proof.
    intros HS HW. destruct data as [d c sq s1 s2|d c s1 s2|]; cbn [supports] in *.
    - assert (HI := @supports_In _ _ z HS). unfold supported_norms in HI. cbn [In] in HI.
      repeat (destruct HI as [<-|HI]; [|]); [..|contradiction]; try discriminate HW; destruct (given sq), (given s1); try discriminate HS;
        repeat split; discriminate.
    - exfalso. destruct (Z.eqb_spec z 2) as [E2|N2]; [subst z; discriminate HW|]. cbn [orb] in HS. apply andb_prop in HS as [HS _]. apply andb_prop in HS as [HS _].
      apply Z.eqb_eq in HS. subst z. discriminate.
    - discriminate.
  Qed.

  Lemma inspect_bg_some (bg : statarg C) z : bg <> SNone -> exists b1 b2, _inspect_background bg z = Ok (b1, b2).
  Proof. destruct bg as [|b|b1 b2]; [congruence| |]; intros _; eexists; eexists; reflexivity. Qed.

  Lemma body_accepts rec data N bg var v z mode scale w :
    has_diff data -> well_formed data N -> (mode = "corr" \/ mode = "diff") -> bg <> SNone -> scale_factor K var = Ok v ->
    supports data z = true -> ((Z.land z 3 = 3)%Z -> forall z', supports data z' = true -> (Z.land z' 3 <> 3)%Z -> exists l, rec z' = Ok l) ->
    exists l, normalize_body O dn rec data bg var (Some (NInt z)) mode scale w = Ok l /\ ((Z.land z 3 <> 3)%Z -> length l = N).
  Proof.
    intros Hops HF HM HB HV HS HR. unfold normalize_body.
    assert (E1 : exists m, _method_from_data data = Ok m) by (destruct data; [eexists; reflexivity|eexists; reflexivity|destruct HF]).
    destruct E1 as [mm ->]. cbn [bind].
    assert (E2 : _inspect_mode mode = Ok mode) by (destruct HM as [->| ->]; reflexivity). rewrite E2. cbn [bind].
    rewrite default_norm_spec, HS. cbn [bind]. rewrite HV. cbn [bind].
    assert (E3 : (if scale then Ok v else Ok (f1 K)) = Ok (if scale then v else f1 K)) by (destruct scale; reflexivity). rewrite E3. cbn [bind].
    destruct (inspect_bg_some z HB) as (b1 & b2 & ->). cbn [bind]. change NORM_WEIGHTED with 3%Z.
    destruct (Z.eqb_spec (Z.land z 3) 3) as [EW|EW].
    - destruct (@weighted_parts data z HS EW) as (P1 & P2 & P3 & P4).
      destruct (HR EW _ P1 P2) as [l1 E1]. destruct (HR EW _ P3 P4) as [l2 E4].
      change (Z.lor NORM_SUBTRACTED NORM_COMPENSATED) with (Z.lor 4 8). change NORM_STRUCTURED with 2%Z. change NORM_STANDARD with 1%Z.
      rewrite E1. cbn [bind]. rewrite E4. cbn [bind].
      assert (E5 : (if scale then Ok (f1 K) else Ok v) = Ok (if scale then f1 K else v)) by (destruct scale; reflexivity). rewrite E5. cbn [bind].
      assert (EX : forall x d s, exists l, weight_from_data O dn x d s mode = Ok l) by (intros; destruct HM as [->| ->]; eexists; reflexivity).
      destruct w as [w|]; [eexists; split; [reflexivity|]; intros; contradiction|].
      destruct (EX l2 (noise_delta K var scale) (if scale then f1 K else v)) as [w1 ->]. cbn [bind].
      destruct (EX (weighted_sum O l1 l2 w1) (noise_delta K var scale) (if scale then f1 K else v)) as [w2 ->]. cbn [bind].
      destruct (EX (weighted_sum O l1 l2 w2) (noise_delta K var scale) (if scale then f1 K else v)) as [w3 ->]. cbn [bind].
      eexists; split; [reflexivity|]; intros; contradiction.
    - destruct (@formula_some data N b1 b2 var v z mode Hops HF HS EW HV) as (l & -> & Hl). cbn [bind].
      eexists. split; [reflexivity|]. intros _. destruct scale; rewrite ?map_length; exact Hl.
  Qed.
  Theorem normalize_accepts data N bg var v z mode scale w :
    has_diff data -> well_formed data N -> (mode = "corr" \/ mode = "diff") -> bg <> SNone -> scale_factor K var = Ok v ->
    (supports data z = true -> exists l, normalize O dn data bg var (Some (NInt z)) mode scale w = Ok l) /\
    (supports data z = false -> normalize O dn data bg var (Some (NInt z)) mode scale w = Raise ValueError).
  Proof.
    intros Hops HF HM HB HV. split; intros HS.
    - edestruct body_accepts with (rec := fun z => normalize_body O dn (fun _ => Raise ValueError) data bg var (Some (NInt z)) mode scale None) as (l & E & _); eauto.
      intros _ z' HS' HW'. edestruct body_accepts with (rec := fun _ : Z => @Raise (list (fval V)) ValueError) (z := z') as (l & E & _); eauto.
      intros; contradiction.
    - unfold normalize, normalize_body.
      assert (E1 : exists m, _method_from_data data = Ok m) by (destruct data; [eexists; reflexivity|eexists; reflexivity|destruct HF]).
      destruct E1 as [mm ->]. cbn [bind].
      assert (E2 : _inspect_mode mode = Ok mode) by (destruct HM as [->| ->]; reflexivity). rewrite E2. cbn [bind].
      rewrite default_norm_spec, HS. reflexivity.
  Qed.
  (** Without a norm, the data decides, and the norm it decides on is supported. *)
  Lemma default_supported data N : well_formed data N -> exists z, _default_norm_from_data data None = Ok z /\ supports data z = true.
  Proof.
    intros HF. destruct data as [d c sq s1 s2|d c s1 s2|]; cbn [supports _default_norm_from_data]; [| |destruct HF].
    - destruct (given sq), (given s1); eexists; (split; [reflexivity|reflexivity]).
    - destruct (given s1), (given s2); eexists; (split; [reflexivity|reflexivity]).
  Qed.
End Accept.

Lemma real_has_diff K (data : cdata K K) : has_diff (@real_ops K) data.
Proof. intros _. split; discriminate. Qed.

(* ------------------------------------------------------------------ *)
(** * Flags and strings *)
Lemma norm_flags_supported a b c d : In (norm_flags a b c d) supported_norms.
Proof. destruct a, b, c, d; cbn; auto 20. Qed.

Fixpoint join_bar (ws : list string) : string :=
  match ws with
  | [] => ""
  | [w] => w
  | w :: ws => w ++ "|" ++ join_bar ws
  end.
Fixpoint no_bar (s : string) : Prop :=
  match s with EmptyString => True | String c s => c <> "|"%char /\ no_bar s end.

Lemma split_word w : no_bar w -> split_bar w = [w].
Proof.
  induction w as [|c w IH]; [reflexivity|]. intros [Hc Hw]. cbn. destruct (Ascii.eqb_spec c "|"%char); [contradiction|].
  rewrite IH by exact Hw. reflexivity.
Qed.
Lemma split_app w s : no_bar w -> split_bar (w ++ "|" ++ s) = w :: split_bar s.
Proof.
  induction w as [|c w IH]; [reflexivity|]. intros [Hc Hw]. change (split_bar (String c (w ++ "|" ++ s)) = String c w :: split_bar s). cbn [split_bar]. destruct (Ascii.eqb_spec c "|"%char); [contradiction|].
  rewrite IH by exact Hw. reflexivity.
Qed.
Lemma split_join ws : ws <> [] -> Forall no_bar ws -> split_bar (join_bar ws) = ws.
Proof.
  intros H HF. induction HF as [|w ws Hw HF IH]; [congruence|]. destruct ws as [|w' ws].
  - apply split_word. exact Hw.
  - change (join_bar (w :: w' :: ws)) with (w ++ "|" ++ join_bar (w' :: ws)). rewrite split_app by exact Hw. rewrite IH by discriminate. reflexivity.
Qed.

(** The value of a word: upper or lower case, blanks around it. *)
Definition word_value (w : string) : option Z := norm_attribute (upper (strip w)).
(** The combined flags of words, [None] if one of them is unknown. *)
Fixpoint words_value (ws : list string) : option Z :=
  match ws with
  | [] => Some 0%Z
  | w :: ws => match word_value w, words_value ws with Some a, Some b => Some (Z.lor a b) | _, _ => None end
  end.
Definition complete (z : Z) : Z := if (z mod 4 =? 0)%Z then Z.lor z 1 else z.

Definition read_word (r : res Z) (value : string) : res Z :=
  let* norm := r in match norm_attribute (upper (strip value)) with Some v => Ok (Z.lor norm v) | None => Raise ValueError end.
Lemma fold_raise ws e : fold_left read_word ws (Raise e) = Raise e.
Proof. induction ws as [|w ws IH]; [reflexivity|]. cbn. exact IH. Qed.
Lemma fold_words ws z : fold_left read_word ws (Ok z) =
  match words_value ws with Some v => Ok (Z.lor z v) | None => Raise ValueError end.
Proof.
  revert z. induction ws as [|w ws IH]; intros z.
  - cbn. rewrite Z.lor_0_r. reflexivity.
  - cbn [fold_left words_value]. unfold read_word at 2. cbn [bind]. unfold word_value. destruct (norm_attribute (upper (strip w))) as [a|].
    + rewrite IH. destruct (words_value ws); [|reflexivity]. rewrite Z.lor_assoc. reflexivity.
    + apply fold_raise.
Qed.
Lemma norm_from_words ws : ws <> [] -> Forall no_bar ws ->
  norm_from_string (join_bar ws) = match words_value ws with Some v => Ok (complete v) | None => Raise ValueError end.
Proof.
  intros H HF. unfold norm_from_string. rewrite split_join by assumption.
  change (fold_left _ ws (Ok 0%Z)) with (fold_left read_word ws (Ok 0%Z)). rewrite fold_words.
  destruct (words_value ws); [|reflexivity]. cbn [bind]. rewrite Z.lor_0_l. reflexivity.
Qed.
Lemma attribute_range s v : norm_attribute s = Some v -> In v [0; 1; 2; 3; 4; 8]%Z.
Proof.
  unfold norm_attribute. repeat (destruct (String.eqb s _); [intros H; injection H as <-; cbn; auto 10|]). discriminate.
Qed.
Lemma words_range ws v : words_value ws = Some v -> (0 <= v < 16)%Z.
Proof.
  revert v. induction ws as [|w ws IH]; intros v; cbn.
  - intros H. injection H as <-. lia.
  - unfold word_value. destruct (norm_attribute (upper (strip w))) as [a|] eqn:Ea; [|discriminate]. destruct (words_value ws) as [b|]; [|discriminate].
    intros H. injection H as <-. specialize (IH b eq_refl). apply attribute_range in Ea.
    assert (Hb : In b [0;1;2;3;4;5;6;7;8;9;10;11;12;13;14;15]%Z) by (cbn; lia).
    cbn [In] in Ea, Hb. repeat (destruct Ea as [<-|Ea]; [|]); [..|contradiction]; repeat (destruct Hb as [<-|Hb]; [cbn; lia|]); contradiction.
Qed.
Lemma norm_from_string_supported s z : norm_from_string s = Ok z -> In z supported_norms.
Proof.
  unfold norm_from_string. change (fold_left _ (split_bar s) (Ok 0%Z)) with (fold_left read_word (split_bar s) (Ok 0%Z)).
  rewrite fold_words. destruct (words_value (split_bar s)) as [v|] eqn:E; [|discriminate]. cbn [bind]. rewrite Z.lor_0_l. intros H. injection H as <-.
  apply words_range in E. assert (Hb : In v [0;1;2;3;4;5;6;7;8;9;10;11;12;13;14;15]%Z) by (cbn; lia).
  cbn [In] in Hb. repeat (destruct Hb as [<-|Hb]; [cbn; auto 20|]). contradiction.
Qed.

(** COMPENSATED together with SUBTRACTED *)
Section Both.
  Variable K : Fld.
  Variable V : Type.
  Variable O : NormOps K V.
  Variable dn : list (fval V) -> list (fval V).
  Lemma body_both rec rec' data bg var z mode scale w : is_corr data = true -> In z [5; 6; 7]%Z ->
    (forall z, In z [5; 6]%Z -> rec' (z + 8)%Z = rec z) ->
    normalize_body O dn rec' data bg var (Some (NInt (z + 8)%Z)) mode scale w =
    normalize_body O dn rec data bg var (Some (NInt z)) mode scale w.
  Proof.
    intros HC HZ HR. destruct data as [d c sq s1 s2| |]; try discriminate. unfold normalize_body. cbn [_method_from_data bind].
    destruct (_inspect_mode mode) as [mode'|]; [|reflexivity]. cbn [bind]. unfold _default_norm_from_data. rewrite !norm_from_ccorr_data_spec.
    cbn [In] in HZ. destruct HZ as [<-|[<-|[<-|[]]]].
    - cbn [Z.add Pos.add]. change (data_supports (given sq) (given s1) 13%Z) with (data_supports (given sq) (given s1) 5%Z).
      destruct (data_supports (given sq) (given s1) 5%Z); [|reflexivity]. cbn [bind]. reflexivity.
    - cbn [Z.add Pos.add]. change (data_supports (given sq) (given s1) 14%Z) with (data_supports (given sq) (given s1) 6%Z).
      destruct (data_supports (given sq) (given s1) 6%Z); [|reflexivity]. cbn [bind]. reflexivity.
    - change (7 + 8)%Z with 15%Z. change (data_supports (given sq) (given s1) 15%Z) with (data_supports (given sq) (given s1) 7%Z).
      destruct (data_supports (given sq) (given s1) 7%Z); [|reflexivity]. cbn [bind].
      match goal with |- bind ?x _ = _ => destruct x as [sf|]; [|reflexivity] end. cbn [bind].
      change (_inspect_background bg 15%Z) with (_inspect_background bg 7%Z).
      destruct (_inspect_background bg 7%Z) as [[b1 b2]|]; [|reflexivity]. cbn [bind].
      change (Z.land 15 NORM_WEIGHTED =? NORM_WEIGHTED)%Z with true. change (Z.land 7 NORM_WEIGHTED =? NORM_WEIGHTED)%Z with true. cbv beta iota.
      change (Z.lor (Z.land 15 (Z.lor NORM_SUBTRACTED NORM_COMPENSATED)) NORM_STRUCTURED) with (6 + 8)%Z.
      change (Z.lor (Z.land 15 (Z.lor NORM_SUBTRACTED NORM_COMPENSATED)) NORM_STANDARD) with (5 + 8)%Z.
      change (Z.lor (Z.land 7 (Z.lor NORM_SUBTRACTED NORM_COMPENSATED)) NORM_STRUCTURED) with 6%Z.
      change (Z.lor (Z.land 7 (Z.lor NORM_SUBTRACTED NORM_COMPENSATED)) NORM_STANDARD) with 5%Z.
      rewrite !HR by (cbn; auto). reflexivity.
  Qed.
  Theorem normalize_both data bg var z mode scale w : is_corr data = true -> In z [5; 6; 7]%Z ->
    normalize O dn data bg var (Some (NInt (z + 8)%Z)) mode scale w = normalize O dn data bg var (Some (NInt z)) mode scale w.
  Proof.
    intros HC HZ. unfold normalize. apply body_both; auto. intros z' Hz'. apply body_both; auto.
    cbn in *. tauto.
  Qed.
End Both.

(* ------------------------------------------------------------------ *)
(** * fold_data *)
Section Fold.
  Variable K : Fld.
  Notation C := (Cx K).
  Lemma nth_map_in A B (f : A -> B) l i d d' : i < length l -> nth i (map f l) d = f (nth i l d').
  Proof. intros H. rewrite nth_indep with (d' := f d') by (rewrite map_length; exact H). apply map_nth. Qed.
  Lemma nth_rev_slice A (data : list A) m i d : i < m - 1 -> m - 1 <= length data -> nth i (rev_slice data m) d = nth (length data - 1 - i) data d.
  Proof.
    intros H1 H2. unfold rev_slice. rewrite <- (firstn_skipn (m - 1) (rev data)) at 1.
    rewrite firstn_skipn. 
    assert (E : nth i (firstn (m - 1) (rev data)) d = nth i (rev data) d).
    { rewrite <- (firstn_skipn (m - 1) (rev data)) at 2. rewrite app_nth1; [reflexivity|]. rewrite firstn_length, rev_length. lia. }
    rewrite E, rev_nth by lia. f_equal. lia.
  Qed.
  Lemma length_rev_slice A (data : list A) m : m - 1 <= length data -> length (rev_slice data m) = m - 1.
  Proof. intros H. unfold rev_slice. rewrite firstn_length, rev_length. lia. Qed.
  Lemma half_len n : ((2 * n - 1 + 1) / 2) = n \/ n = 0.
  Proof. destruct n; [right; reflexivity|left]. replace (2 * S n - 1 + 1) with (S n * 2) by lia. apply Nat.div_mul. discriminate. Qed.
  Variable data : list C.
  Variable n : nat.
  Hypothesis Hn : 0 < n.
  Hypothesis HL : length data = 2 * n - 1.
  Lemma en : (length data + 1) / 2 = n.
  Proof. rewrite HL. destruct (half_len n) as [E|E]; [exact E|lia]. Qed.
  Lemma fold_positive : fold_data true data 1%Z = Ok (map (fun i => nth i data (c0 K)) (seq 0 n)).
  Proof.
    unfold fold_data. rewrite en. cbn [negb Z.eqb Z.leb Z.compare Pos.eqb orb]. f_equal.
    apply nth_ext with (d := c0 K) (d' := c0 K).
    - rewrite firstn_length, map_length, seq_length, HL. lia.
    - intros i Hi. rewrite firstn_length in Hi. rewrite (nth_map_seq (fun i => nth i data (c0 K))) by lia.
      rewrite <- (firstn_skipn n data) at 2. rewrite app_nth1; [reflexivity|]. rewrite firstn_length. lia.
  Qed.
  Lemma fold_negative : fold_data true data (-1)%Z =
    Ok (map (fun i => if i =? 0 then nth 0 data (c0 K) else nth (2 * n - 2 - i) data (c0 K)) (seq 0 n)).
  Proof.
    unfold fold_data. rewrite en. cbn [negb Z.eqb Z.leb Z.compare Pos.eqb orb].
    destruct data as [|x l] eqn:ED; [cbn in HL; lia|]. rewrite <- ED in *.
    destruct (rev_slice data (n + 1)) as [|y r] eqn:ER.
    { apply (f_equal (@length _)) in ER. rewrite length_rev_slice in ER by lia. cbn in ER. lia. }
    f_equal. apply nth_ext with (d := c0 K) (d' := c0 K).
    - rewrite map_length, seq_length. apply (f_equal (@length _)) in ER. rewrite length_rev_slice in ER by lia. cbn in *. lia.
    - intros i Hi. assert (HI : i < n) by (apply (f_equal (@length _)) in ER; rewrite length_rev_slice in ER by lia; cbn in *; lia).
      rewrite (nth_map_seq (fun i => if i =? 0 then nth 0 data (c0 K) else nth (2 * n - 2 - i) data (c0 K))) by exact HI.
      destruct i as [|i]; [rewrite ED; reflexivity|]. cbn [Nat.eqb].
      change (nth (S i) (x :: r) (c0 K)) with (nth (S i) (y :: r) (c0 K)). rewrite <- ER. rewrite nth_rev_slice by lia. f_equal. lia.
  Qed.
  Lemma fold_mean : fold_data true data 0%Z =
    Ok (map (fun i => if i =? 0 then nth 0 data (c0 K)
                      else cscal (fdiv K (f1 K) (fadd K (f1 K) (f1 K))) (cadd (nth i data (c0 K)) (conj (nth (2 * n - 1 - i) data (c0 K))))) (seq 0 n)).
  Proof.
    unfold fold_data. rewrite en. cbn [negb Z.eqb Z.leb Z.compare Pos.eqb orb]. f_equal.
    destruct data as [|x l] eqn:ED; [cbn in HL; lia|]. rewrite <- ED in *.
    destruct n as [|m]; [lia|]. rewrite ED at 1. cbn [firstn seq map]. f_equal; [rewrite ED; reflexivity|].
    apply nth_ext with (d := c0 K) (d' := c0 K).
    - rewrite !map_length, combine_length, firstn_length, seq_length, length_rev_slice by lia. rewrite ED in HL. cbn in HL. lia.
    - intros i Hi. rewrite map_length, combine_length, firstn_length, length_rev_slice in Hi by lia.
      assert (HI : i < m) by lia.
      rewrite (@nth_map_in _ _ _ (combine (firstn m l) (rev_slice data (S m))) i (c0 K) (c0 K, c0 K)) by (rewrite combine_length, firstn_length, length_rev_slice by lia; lia).
      rewrite combine_nth by (rewrite firstn_length, length_rev_slice by lia; rewrite ED in HL; cbn in HL; lia).
      rewrite (@nth_map_in _ _ _ (seq 1 m) i (c0 K) 0) by (rewrite seq_length; exact HI).
      rewrite seq_nth by exact HI. cbn [Nat.add Nat.eqb fst snd]. f_equal. f_equal.
      + rewrite ED. cbn [nth]. rewrite <- (firstn_skipn m l) at 2. rewrite app_nth1; [reflexivity|]. rewrite firstn_length. rewrite ED in HL. cbn in HL. lia.
      + f_equal. rewrite nth_rev_slice by lia. f_equal. lia.
  Qed.
End Fold.
