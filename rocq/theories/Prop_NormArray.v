(** C92: normalization of arrays of pixels, masks, returned weights. *)
From Coq Require Import String.
From Verif Require Import Base Examples NormModel Prop_Norm1 NormArrayModel NormArrayProofs NormArrayProofs2 NormArrayProofs3.
Open Scope string_scope.
Open Scope nat_scope.
Local Notation length := List.length.
Set Implicit Arguments.

(** The pixels of the result and the pixel of the data behind each: all of them, or those where the mask is True, in a line *)
Definition selected (mask : option (nd bool)) (s0 s : list nat) (pt : list nat -> list nat) : Prop :=
  match mask with
  | None => s = s0 /\ forall p, pt p = p
  | Some m => shape m = s0 /\ s = [length (positions m)] /\ forall q, pt [q] = nth q (positions m) []
  end.

Section Arrays.
  Variable K : Fld.
  Notation C := (Cx K).
  Variable V : Type.
  Variable O : NormOps K V.
  Variable denoise : list (fval V) -> list (fval V).

  Lemma selected_valid mask s0 s pt p : selected mask s0 s pt -> valid p s -> valid (pt p) s0.
  Proof.
    intros H Hp. destruct mask as [m|]; destruct H as [H1 H2].
    - destruct H2 as (-> & H2). apply valid_line in Hp. destruct Hp as (q & -> & Hq). rewrite H2, <- H1. apply nth_pos_valid. exact Hq.
    - subst s. rewrite H2. exact Hp.
  Qed.
  Lemma take_sel A (x : nd A) mask s0 s pt : selected mask s0 s pt -> shape x = s0 -> exists y, take_first x mask = Ok y /\ shape y = s /\ forall p, valid p s -> at_ y p = at_ x (pt p).
  Proof.
    intros H E. destruct mask as [m|]; destruct H as [H1 H2].
    - destruct H2 as (-> & H2). destruct (@take_first_at A x m) as (y & Ey & Sy & Py); [congruence|]. exists y. split; [exact Ey|]. split; [exact Sy|]. intros p Hp. apply valid_line in Hp. destruct Hp as (q & -> & Hq). rewrite H2. apply Py.
    - subst s. exists x. split; [reflexivity|]. split; [exact E|]. intros p _. rewrite H2. reflexivity.
  Qed.
  Lemma rows_sel A (x : nd A) m s0 s n pt : selected (Some m) s0 s pt -> shape x = (s0 ++ [n])%list -> exists y, take_rows x m = Ok y /\ shape y = (s ++ [n])%list /\ forall p, valid p s -> row y p = row x (pt p).
  Proof.
    intros (H1 & -> & H2) E. destruct (@take_rows_at A x m n) as (y & Ey & Sy & Py); [congruence|]. exists y. split; [exact Ey|]. split; [exact Sy|]. intros p Hp. apply valid_line in Hp. destruct Hp as (q & -> & Hq).
    rewrite (row_map (s := [length (positions m)]) (n := n) [q] Sy), (row_map (pt [q]) E). apply map_ext. intros t. cbn [app]. rewrite Py, H2. reflexivity.
  Qed.
  Lemma opt_sel A (x : option (nd A)) m s0 s n pt : selected (Some m) s0 s pt -> oshape x (s0 ++ [n]) -> exists y, take_opt x m = Ok y /\ oshape y (s ++ [n]) /\ forall p, valid p s -> option_map (fun a => row a p) y = option_map (fun a => row a (pt p)) x.
  Proof.
    intros H E. destruct x as [x|]; cbn [take_opt oshape] in *; [|exists None; repeat split]. destruct (@rows_sel _ _ m s0 s n pt H E) as (y & -> & Sy & Py). cbn [bind]. exists (Some y). split; [reflexivity|]. split; [exact Sy|]. intros p Hp. cbn [option_map]. rewrite (Py p Hp). reflexivity.
  Qed.
  Lemma data_sel data mask s0 s n pt : selected mask s0 s pt -> wf data s0 n -> exists data' : ndata K V, match mask with None => Ok data | Some m => take_data_nd data m end = Ok data' /\ wf data' s n /\ forall p, valid p s -> pix data' p = pix data (pt p).
  Proof.
    intros H Hw. destruct mask as [m|]; [|destruct H as [-> H]; exists data; split; [reflexivity|]; split; [exact Hw|]; intros p _; rewrite H; reflexivity].
    destruct data as [d count sq s1 s2|d count s1 s2|]; [| |eexists; split; [reflexivity|]; split; [exact Logic.I|intros; reflexivity]].
    - destruct Hw as (Ed & Ec & Eq & E1 & E2). cbn [take_data_nd]. destruct (@rows_sel _ _ m s0 s n pt H Ed) as (d' & -> & Sd & Pd). cbn [bind]. destruct (@opt_sel _ sq m s0 s n pt H Eq) as (q' & -> & Sq & Pq). cbn [bind]. destruct (@opt_sel _ s1 m s0 s n pt H E1) as (m1 & -> & S1 & P1). cbn [bind]. destruct (@opt_sel _ s2 m s0 s n pt H E2) as (m2 & -> & S2 & P2). cbn [bind].
      eexists. split; [reflexivity|]. split; [repeat split; assumption|]. intros p Hp. cbn [pix]. rewrite Pd, Pq, P1, P2 by exact Hp. reflexivity.
    - destruct Hw as (Ed & Ec & E1 & E2). cbn [take_data_nd]. destruct (@rows_sel _ _ m s0 s n pt H Ed) as (d' & -> & Sd & Pd). cbn [bind]. destruct (@opt_sel _ s1 m s0 s n pt H E1) as (m1 & -> & S1 & P1). cbn [bind]. destruct (@opt_sel _ s2 m s0 s n pt H E2) as (m2 & -> & S2 & P2). cbn [bind].
      eexists. split; [reflexivity|]. split; [repeat split; assumption|]. intros p Hp. cbn [pix]. rewrite Pd, P1, P2 by exact Hp. reflexivity.
  Qed.
  Lemma no_unpack A (x : nd A) s0 : stat_ok (AOne x) s0 -> unpack (AOne x) = None.
  Proof. intros (E & H). unfold unpack. rewrite E. destruct s0 as [|a s0]; [reflexivity|]. cbn [hd] in H. destruct a as [|[|[|a]]]; try reflexivity. congruence. Qed.
  Lemma ewise_two A s0 (f : list nat -> A) : ewise [s0; s0] f = Ok (Nd s0 f).
  Proof. unfold ewise. rewrite bcast_all_fit by (constructor; [apply fits_refl|constructor]). reflexivity. Qed.
  Lemma scale_sel variance mask s0 s pt : selected mask s0 s pt -> stat_ok variance s0 -> simK K s (scale_factor_nd K variance mask) (fun p => scale_factor K (stat_at variance (pt p))).
  Proof.
    intros H Hs. destruct variance as [|v1 v2|v].
    - intros p Hp. reflexivity.
    - destruct Hs as [E1 E2]. unfold scale_factor_nd. cbn [unpack]. rewrite E1, E2, ewise_two. cbn [bind]. match goal with |- simK _ _ (take_first ?x _) _ => destruct (@take_sel _ x mask s0 s pt H eq_refl) as (y & -> & Sy & Py) end.
      split; [exact Sy|]. intros p Hp. rewrite (Py p Hp). cbn [at_ stat_at scale_factor]. rewrite (look_pix _ E1 (@selected_valid mask s0 s pt p H Hp)), (look_pix _ E2 (@selected_valid mask s0 s pt p H Hp)). reflexivity.
    - unfold scale_factor_nd. rewrite (@no_unpack _ _ s0 Hs). destruct Hs as [E _]. cbn [bind]. destruct (@take_sel _ _ mask s0 s pt H E) as (y & -> & Sy & Py). split; [exact Sy|]. intros p Hp. rewrite (Py p Hp). reflexivity.
  Qed.
  Lemma delta_sel variance mask s0 s pt : selected mask s0 s pt -> stat_ok variance s0 -> variance <> ANone -> forall scale, exists d, noise_delta_nd K variance mask scale = Ok d /\ shape d = s /\ forall p, valid p s -> at_ d p = noise_delta K (stat_at variance (pt p)) scale.
  Proof.
    intros H Hs Hn scale. destruct variance as [|v1 v2|v]; [congruence| |].
    - destruct Hs as [E1 E2]. unfold noise_delta_nd. cbn [unpack]. rewrite E1, E2, ewise_two. cbn [bind]. match goal with |- context [take_first ?x _] => destruct (@take_sel _ x mask s0 s pt H eq_refl) as (y & -> & Sy & Py) end.
      exists y. split; [reflexivity|]. split; [exact Sy|]. intros p Hp. rewrite (Py p Hp). cbn [at_ stat_at noise_delta]. rewrite (look_pix _ E1 (@selected_valid mask s0 s pt p H Hp)), (look_pix _ E2 (@selected_valid mask s0 s pt p H Hp)). reflexivity.
    - unfold noise_delta_nd. rewrite (@no_unpack _ _ s0 Hs). destruct Hs as [E _]. cbn [bind]. match goal with |- context [take_first ?x _] => destruct (@take_sel _ x mask s0 s pt H E) as (y & -> & Sy & Py) end. exists y. split; [reflexivity|]. split; [exact Sy|]. intros p Hp. rewrite (Py p Hp). reflexivity.
  Qed.
  Lemma bg_sel background mask s0 s pt : selected mask s0 s pt -> stat_ok background s0 -> background <> ANone -> forall norm, exists b1 b2 : nd C, _inspect_background_nd background norm mask = Ok (b1, b2) /\ shape b1 = s /\ shape b2 = s /\ forall p, valid p s -> _inspect_background (stat_at background (pt p)) norm = Ok (at_ b1 p, at_ b2 p).
  Proof.
    intros H Hs Hn norm. destruct background as [|v1 v2|v]; [congruence| |].
    - destruct Hs as [E1 E2]. unfold _inspect_background_nd. cbn [unpack]. destruct (@take_sel _ _ mask s0 s pt H E1) as (y1 & -> & S1 & P1). cbn [bind]. destruct (@take_sel _ _ mask s0 s pt H E2) as (y2 & -> & S2 & P2). cbn [bind]. exists y1, y2. split; [reflexivity|]. split; [exact S1|]. split; [exact S2|]. intros p Hp. rewrite (P1 p Hp), (P2 p Hp). reflexivity.
    - unfold _inspect_background_nd. rewrite (@no_unpack _ _ s0 Hs). destruct Hs as [E _]. destruct (@take_sel _ _ mask s0 s pt H E) as (y1 & -> & S1 & P1). cbn [bind]. exists y1, y1. split; [reflexivity|]. split; [exact S1|]. split; [exact S1|]. intros p Hp. rewrite (P1 p Hp). reflexivity.
  Qed.

  (** Data tuples, backgrounds and variances of matching shapes: every row of the result is the normalization
      of that pixel alone, and if one pixel is refused so is the array. *)
  Theorem C92_pixels data background variance norm mode scale mask weight s0 s n pt : (forall l, length (denoise l) = length l) -> selected mask s0 s pt -> wf data s0 n -> stat_ok background s0 -> stat_ok variance s0 -> oshape weight (s ++ [n]) ->
    let pixel p := normalize O denoise (pix data (pt p)) (stat_at background (pt p)) (stat_at variance (pt p)) norm mode scale (option_map (fun w => row w p) weight) in
    match normalize_nd O denoise data background variance norm mode scale mask weight with
    | Ok out => shape out = (s ++ [n])%list /\ forall p, valid p s -> pixel p = Ok (row out p)
    | Raise e => forall p, valid p s -> pixel p = Raise e
    end.
  Proof.
    intros HD H Hw Hb Hv Hwt pixel. destruct (@data_sel data mask s0 s n pt H Hw) as (data' & T & Wf & Px).
    assert (B := fun RA rp norm scale weight => @body_sim K V O denoise HD s n pt data data' background variance mask T Wf Px (@bg_sel background mask s0 s pt H Hb) (@scale_sel variance mask s0 s pt H Hv) (@delta_sel variance mask s0 s pt H Hv) RA rp norm mode scale weight).
    unfold normalize_nd, normalize_ret, pixel, normalize. apply (B _ (fun p z => normalize_body O denoise (fun _ => Raise ValueError) (pix data (pt p)) (stat_at background (pt p)) (stat_at variance (pt p)) (Some (NInt z)) mode scale None)); [|exact Hwt].
    intros z. apply (B (fun _ => Raise ValueError) (fun _ _ => Raise ValueError) (Some (NInt z)) scale None); [intros z' p Hp; reflexivity|exact Logic.I].
  Qed.
  (** The mask argument: the rows of the result without it, where the mask is True. *)
  Theorem C92_mask data background variance norm mode scale m s0 n : (forall l, length (denoise l) = length l) -> shape m = s0 -> wf data s0 n -> stat_ok background s0 -> stat_ok variance s0 ->
    forall out, normalize_nd O denoise data background variance norm mode scale None None = Ok out ->
    positions m <> [] -> exists masked, normalize_nd O denoise data background variance norm mode scale (Some m) None = Ok masked /\ shape masked = [length (positions m); n] /\
      forall q, q < length (positions m) -> row masked [q] = row out (nth q (positions m) []).
  Proof.
    intros HD Hm Hw Hb Hv out E Hp.
    pose proof (@C92_pixels data background variance norm mode scale None None s0 s0 n (fun p => p) HD ltac:(split; reflexivity) Hw Hb Hv Logic.I) as P0. cbv zeta in P0. rewrite E in P0. destruct P0 as [_ P0].
    pose proof (@C92_pixels data background variance norm mode scale (Some m) None s0 [length (positions m)] n (fun p => nth (hd 0 p) (positions m) []) HD ltac:(split; [exact Hm|split; reflexivity]) Hw Hb Hv Logic.I) as P1. cbv zeta in P1.
    assert (VP : forall q, q < length (positions m) -> valid (nth q (positions m) []) s0) by (intros q Hq; rewrite <- Hm; apply nth_pos_valid; exact Hq).
    assert (VQ : forall q, q < length (positions m) -> valid [q] [length (positions m)]) by (intros q Hq; constructor; [exact Hq|constructor]).
    destruct (normalize_nd O denoise data background variance norm mode scale (Some m) None) as [masked|e].
    - exists masked. split; [reflexivity|]. destruct P1 as [S1 P1]. split; [exact S1|]. intros q Hq. specialize (P0 _ (VP q Hq)). specialize (P1 _ (VQ q Hq)). cbn [hd option_map] in *. rewrite P0 in P1. injection P1 as P1. symmetry. exact P1.
    - exfalso. destruct (positions m) as [|p0 ps] eqn:Ep; [congruence|]. specialize (P0 _ (VP 0 ltac:(cbn; lia))). specialize (P1 _ (VQ 0 ltac:(cbn; lia))). cbn [hd option_map nth] in *. congruence.
  Qed.
  (** A mask that does not have the shape of the background is refused, once the arguments are understood and
      whatever the data. *)
  Theorem C92_wrong_mask data b1 b2 variance norm mode scale m weight z : shape b1 <> shape m -> rank b1 = rank m -> mode = "corr" \/ mode = "diff" -> _default_norm_from_ndata data (Some norm) = Ok z -> scale = false ->
    normalize_nd O denoise data (APair b1 b2) variance (Some (NInt norm)) mode scale (Some m) weight = Raise IndexError.
  Proof.
    intros Hs Hr Hm Hz ->. unfold normalize_nd, normalize_ret, normalize_nd_body. assert (Em : exists me, _method_from_ndata data = Ok me) by (destruct data; [eexists; reflexivity|eexists; reflexivity|discriminate Hz]). destruct Em as (me & ->). cbn [bind].
    assert (Ei : _inspect_mode mode = Ok mode) by (destruct Hm as [->| ->]; reflexivity). rewrite Ei. cbn [bind]. rewrite Hz. cbn [bind]. unfold _inspect_background_nd. cbn [unpack]. unfold take_first at 1. rewrite <- Hr. unfold rank. rewrite firstn_all. destruct (list_eq_dec Nat.eq_dec (shape b1) (shape m)); [congruence|]. reflexivity.
  Qed.
  (** The two halves along the first axis *)
  Definition half A (x : nd A) (i : nat) : nd A := Nd (tl (shape x)) (fun p => at_ x (i :: p)).
  (** One background or variance whose first axis has length two is never taken as one array: its two halves are
      taken as the statistics of two videos. *)
  Theorem C92_two data (b : nd C) (v : nd K) background variance norm mode scale mask weight : 
    (hd 0 (shape b) = 2 -> normalize_ret O denoise data (AOne b) variance norm mode scale mask weight = normalize_ret O denoise data (APair (half b 0) (half b 1)) variance norm mode scale mask weight) /\
    (hd 0 (shape v) = 2 -> normalize_ret O denoise data background (AOne v) norm mode scale mask weight = normalize_ret O denoise data background (APair (half v 0) (half v 1)) norm mode scale mask weight).
  Proof.
    assert (U : forall A (x : nd A), hd 0 (shape x) = 2 -> unpack (AOne x) = unpack (APair (half x 0) (half x 1))). { intros A x E. unfold half. cbn [unpack]. destruct (shape x) as [|a l]; [discriminate E|]. cbn [hd] in E. subst a. reflexivity. }
    split; intros E; apply U in E.
    - assert (I : forall z, _inspect_background_nd (AOne b) z mask = _inspect_background_nd (APair (half b 0) (half b 1)) z mask). { intros z. unfold _inspect_background_nd. rewrite E. reflexivity. }
      assert (B : forall R1 R2 no w, (forall z, R1 z = R2 z) -> normalize_nd_body O denoise R1 data (AOne b) variance no mode scale mask w = normalize_nd_body O denoise R2 data (APair (half b 0) (half b 1)) variance no mode scale mask w).
      { intros R1 R2 no w HR. unfold normalize_nd_body. destruct (_method_from_ndata data); cbn [bind]; [|reflexivity]. destruct (_inspect_mode mode); cbn [bind]; [|reflexivity]. match goal with |- bind ?m _ = _ => destruct m end; cbn [bind]; [|reflexivity]. match goal with |- bind ?m _ = _ => destruct m end; cbn [bind]; [|reflexivity]. match goal with |- bind ?m _ = _ => destruct m end; cbn [bind]; [|reflexivity]. rewrite I, !HR. reflexivity. }
      unfold normalize_ret. apply B. intros z. rewrite (B _ (fun _ => Raise ValueError)) by reflexivity. reflexivity.
    - assert (S : scale_factor_nd K (AOne v) mask = scale_factor_nd K (APair (half v 0) (half v 1)) mask). { unfold scale_factor_nd. rewrite E. cbn [unpack]. reflexivity. }
      assert (D : forall sc, noise_delta_nd K (AOne v) mask sc = noise_delta_nd K (APair (half v 0) (half v 1)) mask sc). { intros sc. unfold noise_delta_nd. rewrite E. cbn [unpack]. reflexivity. }
      assert (F : forall data' b1 b2 z md, formula_nd O data' b1 b2 (AOne v) mask z md = formula_nd O data' b1 b2 (APair (half v 0) (half v 1)) mask z md). { intros. unfold formula_nd, _diff2corr_nd, _corr2diff_nd, _variance2offset_nd. rewrite !S. reflexivity. }
      assert (B : forall R1 R2 no w, (forall z, R1 z = R2 z) -> normalize_nd_body O denoise R1 data background (AOne v) no mode scale mask w = normalize_nd_body O denoise R2 data background (APair (half v 0) (half v 1)) no mode scale mask w).
      { intros R1 R2 no w HR. unfold normalize_nd_body. destruct (_method_from_ndata data); cbn [bind]; [|reflexivity]. destruct (_inspect_mode mode); cbn [bind]; [|reflexivity]. match goal with |- bind ?m _ = _ => destruct m end; cbn [bind]; [|reflexivity]. match goal with |- bind ?m _ = _ => destruct m end; cbn [bind]; [|reflexivity]. rewrite S, D, !HR. match goal with |- bind ?m _ = _ => destruct m end; cbn [bind]; [|reflexivity]. match goal with |- bind ?m _ = _ => destruct m as [[? ?]|] end; cbn [bind]; [|reflexivity]. destruct (_ =? _)%Z; [reflexivity|]. destruct (match mask with None => Ok data | Some m => take_data_nd data m end); cbn [bind]; [|reflexivity]. rewrite F. reflexivity. }
      unfold normalize_ret. apply B. intros z. rewrite (B _ (fun _ => Raise ValueError)) by reflexivity. reflexivity.
  Qed.
  (** The weight that is returned with a weighted norm gives the same result when it is passed back; for other
      norms the argument is returned. *)
  Theorem C92_weight data background variance norm mode scale mask weight out w : normalize_ret O denoise data background variance norm mode scale mask weight = Ok (out, w) ->
    (w = weight \/ exists w', w = Some w') /\ normalize_ret O denoise data background variance norm mode scale mask w = Ok (out, w).
  Proof.
    unfold normalize_ret. generalize (fun z => let* (r, _) := normalize_nd_body O denoise (fun _ => Raise ValueError) data background variance (Some (NInt z)) mode scale mask None in Ok r). intros rec.
    unfold normalize_nd_body. destruct (_method_from_ndata data) as [?|?]; cbn [bind]; [|discriminate]. destruct (_inspect_mode mode) as [md|?]; cbn [bind]; [|discriminate].
    destruct (match norm with Some (NInt z) => Ok (Some z) | Some (NStr s) => let* z := norm_from_string s in Ok (Some z) | None => Ok None end) as [no|?]; cbn [bind]; [|discriminate]. destruct (_default_norm_from_ndata data no) as [z|?]; cbn [bind]; [|discriminate].
    destruct (if scale then scale_factor_nd K variance mask else Ok (Nd [] (fun _ => f1 K))) as [sf|?]; cbn [bind]; [|discriminate]. destruct (_inspect_background_nd background z mask) as [[b1 b2]|?]; cbn [bind]; [|discriminate].
    destruct (Z.land z NORM_WEIGHTED =? NORM_WEIGHTED)%Z.
    - destruct (rec _) as [comp|?]; cbn [bind]; [|discriminate]. destruct (rec _) as [base|?]; cbn [bind]; [|discriminate]. destruct (if scale then Ok (Nd [] (fun _ => f1 K)) else scale_factor_nd K variance mask) as [sw|?]; cbn [bind]; [|discriminate]. destruct (noise_delta_nd K variance mask scale) as [dl|?]; cbn [bind]; [|discriminate].
      match goal with |- context [bind ?m _] => destruct m as [wt|?] end; cbn [bind]; [|discriminate]. destruct (weighted_sum_nd O comp base wt) as [r|?] eqn:Er; cbn [bind]; [|discriminate]. intros E. injection E as <- <-. split; [right; eexists; reflexivity|]. cbn [bind]. rewrite Er. reflexivity.
    - destruct (match mask with None => Ok data | Some m => take_data_nd data m end) as [data'|?]; cbn [bind]; [|discriminate]. destruct (formula_nd O data' (newaxis b1) (newaxis b2) variance mask z md) as [r|?]; cbn [bind]; [|discriminate].
      match goal with |- context [bind ?m _] => destruct m as [r'|?] end; cbn [bind]; [|discriminate]. intros E. injection E as <- <-. split; [left; reflexivity|reflexivity].
  Qed.
End Arrays.
Print Assumptions C92_pixels.
Print Assumptions C92_mask.
Print Assumptions C92_wrong_mask.
Print Assumptions C92_two.
Print Assumptions C92_weight.

(** Rows of pixels, two delays each *)
Definition aval (p : list nat) : QcF := q (Z.of_nat (1 + fold_left (fun a i => 3 * a + i) p 0)).
Definition acount : nd nat := Nd [2] (fun p => match p with [0] => 2 | _ => 1 end).
Definition adata (s : list nat) : ndata QcF QcF := NDiff (Nd (s ++ [2])%list aval) acount None None.
Definition amask : nd bool := Nd [3; 2] (fun p => match p with [0; 1] | [1; 0] | [2; 0] => true | _ => false end).
Definition avar (s : list nat) : sarr QcF := AOne (Nd s aval).
Definition azero (s : list nat) : sarr (Cx QcF) := APair (Nd s (fun _ => c0 QcF)) (Nd s (fun _ => c0 QcF)).
Definition ashow (x : res (nd (fval QcF))) := match x with
  | Ok o => Some (map (fun p => map showv (row o p)) (indices (removelast (shape o)))) | Raise _ => None end.
Definition acorrd (s : list nat) : ndata QcF QcF := NCorr (Nd (s ++ [2])%list aval) acount (Some (Nd (s ++ [2])%list (fun p => fadd QcF (aval p) (f1 QcF)))) None None.
Example C92_example :
  selected (Some amask) [3; 2] [3] (fun p => nth (hd 0 p) (positions amask) []) /\ wf (adata [3; 2]) [3; 2] 2 /\ stat_ok (azero [3; 2]) [3; 2] /\ stat_ok (avar [3; 2]) [3; 2] /\
  ashow (normalize_nd real_ops idn (adata [3; 2]) (azero [3; 2]) (avar [3; 2]) (Some (NInt 2%Z)) "diff" true None None) =
    Some [[Some (1, 2); Some (2, 1)]; [Some (1, 1); Some (5, 2)]; [Some (5, 4); Some (11, 4)];
          [Some (13, 10); Some (14, 5)]; [Some (19, 14); Some (20, 7)]; [Some (11, 8); Some (23, 8)]]%Z /\
  ashow (normalize_nd real_ops idn (adata [3; 2]) (azero [3; 2]) (avar [3; 2]) (Some (NInt 2%Z)) "diff" true (Some amask) None) =
    Some [[Some (1, 1); Some (5, 2)]; [Some (5, 4); Some (11, 4)]; [Some (19, 14); Some (20, 7)]]%Z /\
  match normalize_ret real_ops idn (acorrd [3; 2]) (azero [3; 2]) (avar [3; 2]) (Some (NInt 3%Z)) "corr" true (Some amask) None with Ok (_, Some w) => map showv (row w [0]) = [Some (46435, 48613); Some (6110280420, 7913726509)]%Z | _ => False end.
Proof. split; [repeat split|]. split; [repeat split|]. split; [repeat split|]. split; [split; [reflexivity|discriminate]|]. split; [vm_compute; reflexivity|]. split; vm_compute; reflexivity. Qed.
(** With two rows the pixels are not normalized by their own variance: the row for the pixel [0; 0] is not what
    this pixel alone gives. *)
Theorem C92_two_refuted :
  ashow (normalize_nd real_ops idn (adata [2; 2]) (azero [2; 2]) (avar [2; 2]) (Some (NInt 2%Z)) "diff" true None None) =
    Some [[Some (1, 5); Some (4, 5)]; [Some (4, 7); Some (10, 7)]; [Some (2, 1); Some (22, 5)]; [Some (13, 7); Some (4, 1)]]%Z /\
  ~ (forall (K : Fld) V (O : NormOps K V) denoise data background (v : nd K) norm mode scale s n out, (forall l, length (denoise l) = length l) ->
       wf data s n -> stat_ok background s -> shape v = s -> normalize_nd O denoise data background (AOne v) norm mode scale None None = Ok out ->
       forall p, valid p s -> normalize O denoise (pix data p) (stat_at background p) (stat_at (AOne v) p) norm mode scale None = Ok (row out p)).
Proof.
  split; [vm_compute; reflexivity|]. intros H.
  destruct (normalize_nd real_ops idn (adata [2; 2]) (azero [2; 2]) (avar [2; 2]) (Some (NInt 2%Z)) "diff" true None None) as [out|e] eqn:E; [|vm_compute in E; discriminate E].
  specialize (H QcF QcF real_ops idn (adata [2; 2]) (azero [2; 2]) (Nd [2; 2] aval) (Some (NInt 2%Z)) "diff" true [2; 2] 2 out (fun l => eq_refl) ltac:(repeat split) ltac:(repeat split) eq_refl E [0; 0] ltac:(repeat constructor)).
  assert (E' : match normalize_nd real_ops idn (adata [2; 2]) (azero [2; 2]) (avar [2; 2]) (Some (NInt 2%Z)) "diff" true None None with Ok o => map showv (row o [0; 0]) | Raise _ => [] end = [Some (1, 5); Some (4, 5)]%Z) by (vm_compute; reflexivity).
  rewrite E in E'. apply (f_equal (fun x => match x with Ok l => map showv l | Raise _ => [] end)) in H. rewrite E' in H. vm_compute in H. discriminate H.
Qed.
Print Assumptions C92_two_refuted.
