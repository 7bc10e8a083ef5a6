(** Weights, masks and the whole of normalize. *)
From Coq Require Import String.
From Verif Require Import Base NormModel NormArrayModel NormArrayProofs NormArrayProofs2.
Open Scope string_scope.
Open Scope nat_scope.
Local Notation length := List.length.
Set Implicit Arguments.

Lemma fv_map_map A B C (g : B -> C) (f : A -> B) x : fv_map g (fv_map f x) = fv_map (fun a => g (f a)) x.
Proof. destruct x; reflexivity. Qed.

Section Whole.
  Variable K : Fld.
  Notation C := (Cx K).
  Variable V : Type.
  Variable O : NormOps K V.
  Variable denoise : list (fval V) -> list (fval V).
  Hypothesis denoise_length : forall l, length (denoise l) = length l.
  Variable s : list nat.
  Variable n : nat.
  Local Notation full := (s ++ [n])%list.

  Lemma denoise_row x p : shape x = full -> row (denoise_nd denoise x) p = denoise (row x p).
  Proof using denoise_length.
    intros E. assert (Ed : shape (denoise_nd denoise x) = full) by exact E. rewrite (row_map p Ed). cbn [denoise_nd at_].
    transitivity (map (fun t => nth t (denoise (row x p)) NonFin) (seq 0 (length (denoise (row x p))))).
    - rewrite denoise_length, (row_length p E). apply map_ext. intros t. rewrite last_last, removelast_last. reflexivity.
    - apply nth_ext with (d := NonFin) (d' := NonFin); [rewrite map_length, seq_length; reflexivity|]. intros i Hi. rewrite map_length, seq_length in Hi. rewrite (nth_indep _ NonFin (nth 0 (denoise (row x p)) NonFin)) by (rewrite map_length, seq_length; exact Hi).
      rewrite (map_nth (fun t => nth t (denoise (row x p)) NonFin)). rewrite seq_nth by exact Hi. reflexivity.
  Qed.
  Lemma weight_sim corr delta sf sv mode : shape corr = full -> shape delta = s -> fits (shape (newaxis sf)) full -> (forall p t, valid p s -> look (newaxis sf) (p ++ [t]) = sv p) ->
    sim s n (weight_from_data_nd O denoise corr delta sf mode) (fun p => weight_from_data O denoise (row corr p) (at_ delta p) (sv p) mode).
  Proof using denoise_length.
    intros Ec Ed Fs Ls. set (dn := denoise_nd denoise corr). assert (En : shape dn = full) by exact Ec.
    assert (G : forall f : V -> K -> V, sim s n (let* g := ewise [shape dn; shape (newaxis sf)] (fun p => fv_map (fun x => op_over O x (look (newaxis sf) p)) (look dn p)) in ewise [shape g; shape (newaxis delta)] (fun p => fv_map (fun x => f x (look (newaxis delta) p)) (look g p)))
      (fun p => Ok (map (fv_map (fun x => f (op_over O x (sv p)) (at_ delta p))) (denoise (row corr p))))).
    { intros f. rewrite En. rewrite ewise_sim by (constructor; [exact Fs|constructor]). cbn [bind shape]. rewrite ewise_sim by (constructor; [cbn [newaxis shape]; rewrite Ed; apply fits_new|constructor]).
      apply sim_ok; [reflexivity|]. intros p Hp. rewrite <- (@denoise_row _ p Ec). fold dn. rewrite (row_map p En), map_map. apply map_ext_in. intros t Ht. apply in_seq in Ht. cbn [at_].
      rewrite (look_new t Ed Hp). match goal with |- context [look (Nd ?a ?b) _] => rewrite (@look_full _ (Nd a b) s n p t eq_refl Hp) by lia end. cbn [at_]. rewrite (Ls p t Hp). rewrite (look_full En Hp) by lia. rewrite fv_map_map. reflexivity. }
    unfold weight_from_data_nd, weight_from_data. fold dn. destruct (String.eqb mode "corr"); [apply (G (op_weight_g O))|]. destruct (String.eqb mode "diff"); [apply (G (op_weight_d O))|]. intros p Hp. reflexivity.
  Qed.
  Lemma wsum_ok x y w : shape x = full -> shape y = full -> shape w = full -> exists o, weighted_sum_nd O x y w = Ok o /\ shape o = full /\ forall p, valid p s -> row o p = weighted_sum O (row x p) (row y p) (row w p).
  Proof using.
    intros Ex Ey Ew. unfold weighted_sum_nd. rewrite Ex, Ey, Ew. rewrite ewise_sim by (repeat constructor; apply fits_full). eexists. split; [reflexivity|]. split; [reflexivity|]. intros p Hp. unfold weighted_sum. match goal with |- row ?o p = _ => rewrite (row_map (x := o) (s := s) (n := n) p eq_refl) end. cbn [at_]. rewrite (row_map p Ex), (row_map p Ey), (row_map p Ew).
    assert (M : forall l : list nat, (forall t, In t l -> t < n) -> map (fun q => fv_bind (fst (fst q)) (fun x => fv_bind (snd (fst q)) (fun y => fv_map (op_weighted O x y) (snd q))))
      (combine (combine (map (fun t => at_ x (p ++ [t])%list) l) (map (fun t => at_ y (p ++ [t])%list) l)) (map (fun t => at_ w (p ++ [t])%list) l)) =
      map (fun t => fv_bind (look x (p ++ [t])) (fun a => fv_bind (look y (p ++ [t])) (fun b => fv_map (op_weighted O a b) (look w (p ++ [t]))))) l).
    { induction l as [|t l IH]; intros Hl; [reflexivity|]. cbn [map combine fst snd]. rewrite IH by (intros u Hu; apply Hl; right; exact Hu). f_equal. assert (t < n) by (apply Hl; left; reflexivity). rewrite (look_full Ex Hp), (look_full Ey Hp), (look_full Ew Hp) by assumption. reflexivity. }
    rewrite M; [reflexivity|]. intros t Ht. apply in_seq in Ht. lia.
  Qed.

  (** The pixels of the data and the one that is behind a pixel of the result *)
  Variable pt : list nat -> list nat.
  Variable data data' : ndata K V.
  Variable background : sarr C.
  Variable variance : sarr K.
  Variable mask : option (nd bool).
  Hypothesis taken : match mask with None => Ok data | Some m => take_data_nd data m end = Ok data'.
  Hypothesis wf' : wf data' s n.
  Hypothesis pix' : forall p, valid p s -> pix data' p = pix data (pt p).
  Hypothesis bg_sim : background <> ANone -> forall norm, exists b1 b2, _inspect_background_nd background norm mask = Ok (b1, b2) /\ shape b1 = s /\ shape b2 = s /\ forall p, valid p s -> _inspect_background (stat_at background (pt p)) norm = Ok (at_ b1 p, at_ b2 p).
  Hypothesis scale_sim : simK K s (scale_factor_nd K variance mask) (fun p => scale_factor K (stat_at variance (pt p))).
  Hypothesis delta_sim : variance <> ANone -> forall scale, exists d, noise_delta_nd K variance mask scale = Ok d /\ shape d = s /\ forall p, valid p s -> at_ d p = noise_delta K (stat_at variance (pt p)) scale.

  Lemma norm_pos norm z : _default_norm_from_ndata data norm = Ok z -> (0 < z)%Z.
  Proof using.
    clear. assert (P : forall l y, in_list y l = true -> forallb (Z.ltb 0) l = true -> (0 < y)%Z).
    { intros l y H1 H2. unfold in_list in H1. apply existsb_exists in H1. destruct H1 as (x & Hx & E). apply Z.eqb_eq in E. subst x. rewrite forallb_forall in H2. apply H2 in Hx. lia. }
    unfold _default_norm_from_ndata. destruct data as [d c sq s1 s2|d c s1 s2|]; [| |discriminate].
    - unfold _norm_from_ccorr_data. destruct norm as [y|]; destruct (given sq), (given s1); try (intros E; injection E as <-; reflexivity); cbn [negb]; match goal with |- context [in_list y ?l] => destruct (in_list y l) eqn:El end; cbn [negb]; try discriminate; (destruct (Z.eqb _ _); [|discriminate]); intros E; injection E as <-; exact (P _ _ El eq_refl).
    - unfold _norm_from_cdiff_data. destruct norm as [y|]; destruct (given s1), (given s2); try (intros E; injection E as <-; reflexivity); cbn [negb andb orb]; match goal with |- context [in_list y ?l] => destruct (in_list y l) eqn:El end; cbn [negb]; try discriminate; (destruct (Z.eqb _ _); [|discriminate]); intros E; injection E as <-; exact (P _ _ El eq_refl).
  Qed.
  Lemma inspect_same norm p : _default_norm_from_data (pix data (pt p)) norm = _default_norm_from_ndata data norm /\ _method_from_data (pix data (pt p)) = _method_from_ndata data.
  Proof using. clear. destruct data as [d c sq s1 s2|d c s1 s2|]; cbn [pix _default_norm_from_data _default_norm_from_ndata _method_from_data _method_from_ndata]; split; try reflexivity; [destruct sq, s1|destruct s1, s2]; reflexivity. Qed.
  Lemma body_sim RA rp norm mode scale weight : (forall z, sim s n (RA z) (fun p => rp p z)) -> oshape weight full ->
    sim s n (let* (r, _) := normalize_nd_body O denoise RA data background variance norm mode scale mask weight in Ok r)
            (fun p => normalize_body O denoise (rp p) (pix data (pt p)) (stat_at background (pt p)) (stat_at variance (pt p)) norm mode scale (option_map (fun w => row w p) weight)).
  Proof using All.
    intros HR Hw. unfold normalize_nd_body, normalize_body.
    assert (MD : forall p, _method_from_data (pix data (pt p)) = _method_from_ndata data) by (intros p; apply (inspect_same None)).
    assert (DN : forall p x, _default_norm_from_data (pix data (pt p)) x = _default_norm_from_ndata data x) by (intros p x; apply inspect_same).
    destruct (_method_from_ndata data) as [me|e] eqn:Em; cbn [bind]; [|intros p Hp; rewrite MD; reflexivity].
    destruct (_inspect_mode mode) as [md|e] eqn:Emd; cbn [bind]; [|intros p Hp; rewrite MD; reflexivity].
    destruct (match norm with Some (NInt z) => Ok (Some z) | Some (NStr s) => let* z := norm_from_string s in Ok (Some z) | None => Ok None end) as [no|e]; cbn [bind]; [|intros p Hp; rewrite MD; reflexivity].
    destruct (_default_norm_from_ndata data no) as [z|e] eqn:Ez; cbn [bind]; [|intros p Hp; rewrite MD; cbn [bind]; rewrite DN, Ez; reflexivity].
    apply (@sim_ext V s n _ (fun p => let* sf := if scale then let* x := scale_factor K (stat_at variance (pt p)) in Ok x else Ok (f1 K) in
       let* (bg1, bg2) := _inspect_background (stat_at background (pt p)) z in
       if (Z.land z NORM_WEIGHTED =? NORM_WEIGHTED)%Z then
         let kept := Z.land z (Z.lor NORM_SUBTRACTED NORM_COMPENSATED) in
         let* comp_data := rp p (Z.lor kept NORM_STRUCTURED) in
         let* base_data := rp p (Z.lor kept NORM_STANDARD) in
         let* sf := if scale then Ok (f1 K) else scale_factor K (stat_at variance (pt p)) in
         let delta := noise_delta K (stat_at variance (pt p)) scale in
         let* weight := match option_map (fun w => row w p) weight with
                        | Some w => Ok w
                        | None =>
                            let* w := weight_from_data O denoise base_data delta sf md in
                            let* w := weight_from_data O denoise (weighted_sum O comp_data base_data w) delta sf md in
                            weight_from_data O denoise (weighted_sum O comp_data base_data w) delta sf md
                        end in
         Ok (weighted_sum O comp_data base_data weight)
       else
         let* result := normalize_formula O (pix data (pt p)) bg1 bg2 (stat_at variance (pt p)) z md in
         Ok (if scale then map (fv_map (fun x => op_over O x sf)) result else result))).
    { intros p Hp. rewrite MD. cbn [bind]. rewrite DN, Ez. reflexivity. }
    clear DN MD. pose proof (norm_pos _ Ez) as Hz.
    pose proof scale_sim as SS.
    (* the scale *)
    assert (SF : (exists sf, (if scale then scale_factor_nd K variance mask else Ok (Nd [] (fun _ => f1 K))) = Ok sf /\ (scale = true -> variance <> ANone /\ shape sf = s) /\ forall p, valid p s -> (if scale then let* x := scale_factor K (stat_at variance (pt p)) in Ok x else Ok (f1 K)) = Ok (if scale then at_ sf p else f1 K)) \/
      (exists e, (if scale then scale_factor_nd K variance mask else Ok (Nd [] (fun _ => f1 K))) = Raise e /\ forall p, valid p s -> (if scale then let* x := scale_factor K (stat_at variance (pt p)) in Ok x else Ok (f1 K)) = Raise e)).
    { destruct scale; [|left; eexists; split; [reflexivity|]; split; [discriminate|intros; reflexivity]]. destruct (scale_factor_nd K variance mask) as [sf|e] eqn:E; cbn [simK] in SS.
      - destruct SS as (Es & SS). left. exists sf. split; [reflexivity|]. split; [intros _; split; [intros ->; discriminate E|exact Es]|]. intros p Hp. rewrite (SS p Hp). reflexivity.
      - right. exists e. split; [reflexivity|]. intros p Hp. rewrite (SS p Hp). reflexivity. }
    destruct SF as [(sf & Esf & Hsf & Psf)|(e & Esf & Psf)]; rewrite Esf; cbn [bind]; [|intros p Hp; rewrite (Psf p Hp); reflexivity].
    (* the background *)
    assert (BG : (exists b1 b2, _inspect_background_nd background z mask = Ok (b1, b2) /\ shape b1 = s /\ shape b2 = s /\ forall p, valid p s -> _inspect_background (stat_at background (pt p)) z = Ok (at_ b1 p, at_ b2 p)) \/
      (exists e, _inspect_background_nd background z mask = Raise e /\ forall p, valid p s -> _inspect_background (stat_at background (pt p)) z = Raise e)).
    { destruct background as [|x y|x] eqn:Eb; [right|left; apply bg_sim; discriminate|left; apply bg_sim; discriminate]. exists ValueError. unfold _inspect_background_nd, _inspect_background, stat_at. destruct (Z.ltb_spec 0 z); [|lia]. split; [reflexivity|]. intros; reflexivity. }
    destruct BG as [(b1 & b2 & Ebg & Hb1 & Hb2 & Pbg)|(e & Ebg & Pbg)]; rewrite Ebg; cbn [bind]; [|intros p Hp; rewrite (Psf p Hp); cbn [bind]; rewrite (Pbg p Hp); reflexivity].
    destruct (Z.land z NORM_WEIGHTED =? NORM_WEIGHTED)%Z.
    - (* weighted *)
      set (k := Z.land z (Z.lor NORM_SUBTRACTED NORM_COMPENSATED)). cbv zeta.
      pose proof (HR (Z.lor k NORM_STRUCTURED)) as S1. destruct (RA (Z.lor k NORM_STRUCTURED)) as [comp|e]; cbn [bind sim] in *; [|intros p Hp; rewrite (Psf p Hp); cbn [bind]; rewrite (Pbg p Hp); cbn [bind]; rewrite (S1 p Hp); reflexivity].
      destruct S1 as (Ec & S1).
      pose proof (HR (Z.lor k NORM_STANDARD)) as S2. destruct (RA (Z.lor k NORM_STANDARD)) as [base|e]; cbn [bind sim] in *; [|intros p Hp; rewrite (Psf p Hp); cbn [bind]; rewrite (Pbg p Hp); cbn [bind]; rewrite (S1 p Hp); cbn [bind]; rewrite (S2 p Hp); reflexivity].
      destruct S2 as (Eb & S2).
      assert (SW : (exists sw sv, (if scale then Ok (Nd [] (fun _ => f1 K)) else scale_factor_nd K variance mask) = Ok sw /\ variance <> ANone /\ fits (shape (newaxis sw)) full /\ (forall p t, valid p s -> look (newaxis sw) (p ++ [t]) = sv p) /\ forall p, valid p s -> (if scale then Ok (f1 K) else scale_factor K (stat_at variance (pt p))) = Ok (sv p)) \/
        (exists e, (if scale then Ok (Nd [] (fun _ => f1 K)) else scale_factor_nd K variance mask) = Raise e /\ forall p, valid p s -> (if scale then Ok (f1 K) else scale_factor K (stat_at variance (pt p))) = Raise e)).
      { destruct scale.
        - left. exists (Nd [] (fun _ => f1 K)), (fun _ => f1 K). split; [reflexivity|]. split; [apply Hsf; reflexivity|]. split; [apply fits_one|]. split; [intros p t Hp; apply look_scalar; reflexivity|intros; reflexivity].
        - destruct (scale_factor_nd K variance mask) as [sw|e] eqn:E; cbn [simK] in SS.
          + destruct SS as (Es & SS). left. exists sw, (fun p => at_ sw p). split; [reflexivity|]. split; [intros ->; discriminate E|]. split; [cbn [newaxis shape]; rewrite Es; apply fits_new|]. split; [intros p t Hp; apply (look_new t Es Hp)|exact SS].
          + right. exists e. split; [reflexivity|exact SS]. }
      destruct SW as [(sw & sv & Esw & Hv & Fsw & Lsw & Psw)|(e & Esw & Psw)]; rewrite Esw; cbn [bind]; [|intros p Hp; rewrite (Psf p Hp); cbn [bind]; rewrite (Pbg p Hp); cbn [bind]; rewrite (S1 p Hp); cbn [bind]; rewrite (S2 p Hp); cbn [bind]; rewrite (Psw p Hp); reflexivity].
      destruct (delta_sim Hv scale) as (dl & Edl & Hdl & Pdl). rewrite Edl. cbn [bind].
      apply (@sim_ext V s n _ (fun p => let* weight := match option_map (fun w => row w p) weight with
                        | Some w => Ok w
                        | None =>
                            let* w := weight_from_data O denoise (row base p) (at_ dl p) (sv p) md in
                            let* w := weight_from_data O denoise (weighted_sum O (row comp p) (row base p) w) (at_ dl p) (sv p) md in
                            weight_from_data O denoise (weighted_sum O (row comp p) (row base p) w) (at_ dl p) (sv p) md
                        end in Ok (weighted_sum O (row comp p) (row base p) weight))).
      { intros p Hp. rewrite (Psf p Hp). cbn [bind]. rewrite (Pbg p Hp). cbn [bind]. rewrite (S1 p Hp). cbn [bind]. rewrite (S2 p Hp). cbn [bind]. rewrite (Psw p Hp). cbn [bind]. rewrite <- (Pdl p Hp). reflexivity. }
      destruct weight as [w|]; cbn [option_map bind].
      { destruct (@wsum_ok _ _ _ Ec Eb Hw) as (o & Eo & Ho & Po). rewrite Eo. cbn [bind sim]. split; [exact Ho|]. intros p Hp. rewrite (Po p Hp). reflexivity. }
      pose proof (@weight_sim base dl sw sv md Eb Hdl Fsw Lsw) as W1. destruct (weight_from_data_nd O denoise base dl sw md) as [w1|e]; cbn [bind sim] in *; [|intros p Hp; rewrite (W1 p Hp); reflexivity]. destruct W1 as [Ew1 W1].
      destruct (@wsum_ok _ _ _ Ec Eb Ew1) as (x1 & Ex1 & Hx1 & Px1). rewrite Ex1. cbn [bind].
      pose proof (@weight_sim x1 dl sw sv md Hx1 Hdl Fsw Lsw) as W2. destruct (weight_from_data_nd O denoise x1 dl sw md) as [w2|e]; cbn [bind sim] in *; [|intros p Hp; rewrite (W1 p Hp); cbn [bind]; rewrite <- (Px1 p Hp), (W2 p Hp); reflexivity]. destruct W2 as [Ew2 W2].
      destruct (@wsum_ok _ _ _ Ec Eb Ew2) as (x2 & Ex2 & Hx2 & Px2). rewrite Ex2. cbn [bind].
      pose proof (@weight_sim x2 dl sw sv md Hx2 Hdl Fsw Lsw) as W3. destruct (weight_from_data_nd O denoise x2 dl sw md) as [w3|e]; cbn [bind sim] in *; [|intros p Hp; rewrite (W1 p Hp); cbn [bind]; rewrite <- (Px1 p Hp), (W2 p Hp); cbn [bind]; rewrite <- (Px2 p Hp), (W3 p Hp); reflexivity]. destruct W3 as [Ew3 W3].
      destruct (@wsum_ok _ _ _ Ec Eb Ew3) as (x3 & Ex3 & Hx3 & Px3). rewrite Ex3. cbn [bind sim]. split; [exact Hx3|]. intros p Hp. rewrite (W1 p Hp). cbn [bind]. rewrite <- (Px1 p Hp), (W2 p Hp). cbn [bind]. rewrite <- (Px2 p Hp), (W3 p Hp). cbn [bind]. rewrite (Px3 p Hp). reflexivity.
    - rewrite taken. cbn [bind]. pose proof (@formula_sim K V O s n variance mask (fun p => stat_at variance (pt p)) scale_sim data' b1 b2 z md wf' Hb1 Hb2) as FS.
      destruct (formula_nd O data' (newaxis b1) (newaxis b2) variance mask z md) as [r|e]; cbn [bind sim] in *; [|intros p Hp; rewrite (Psf p Hp); cbn [bind]; rewrite (Pbg p Hp); cbn [bind]; rewrite <- (pix' Hp), (FS p Hp); reflexivity].
      destruct FS as (Er & FS). destruct scale.
      + destruct (Hsf eq_refl) as [_ Es]. rewrite (@inplace_sim s n _ _ r (newaxis sf) _ Er) by (cbn [newaxis shape]; rewrite Es; apply fits_new). cbn [bind sim]. split; [reflexivity|]. intros p Hp. rewrite (Psf p Hp). cbn [bind]. rewrite (Pbg p Hp). cbn [bind]. rewrite <- (pix' Hp), (FS p Hp). cbn [bind]. f_equal.
        rewrite (row_map p Er), map_map. unfold row. cbn [shape]. rewrite last_last. apply map_ext_in. intros t Ht. apply in_seq in Ht. cbn [at_]. rewrite (look_new t Es Hp), (look_full Er Hp) by lia. reflexivity.
      + cbn [bind sim]. split; [exact Er|]. intros p Hp. cbn [bind]. rewrite (Pbg p Hp). cbn [bind]. rewrite <- (pix' Hp), (FS p Hp). reflexivity.
  Qed.
End Whole.
