(** C108: the sliders of the data viewers. *)
From Coq Require Import String ZifyBool ZifyNat QArith Qcanon.
From Verif Require Import Base KernelProofs Ordered Archimedean NormModel VideoModel SectorFloor MapModel MapProofs Fft2Proofs SectorModel SectorProofs SectorProofs2 SectorProofs3 SectorProofs4 ViewerModel ViewerProofs Prop_Map Prop_Sector Prop_Viewer SlideModel Examples.
Set Implicit Arguments.
Open Scope string_scope.
Open Scope nat_scope.
Local Notation length := List.length.

Section Round.
  Variable K : OFld.
  Add Field Kround : (flaw K).
  Local Notation fZ := (fZ K).
  Local Notation "0" := (f0 K).
  (** Rounding: the integer is at most one half away, and even if there are two such. *)
  Lemma half_2 : fadd K (fdiv K (f1 K) (fZ 2)) (fdiv K (f1 K) (fZ 2)) = f1 K.
  Proof.
    assert (N : fZ 2 <> 0) by (apply fZ_neq0; lia). pose proof (fZ_2 K) as E. transitivity (fdiv K (fadd K (f1 K) (f1 K)) (fZ 2)); [field; exact N|]. rewrite <- E. field. exact N.
  Qed.
  Variable floor : K -> Z.
  Theorem C108_nearest x : floors K floor ->
    let n := pyround K floor x in let half := fdiv K (f1 K) (fZ 2) in
    fle (fsub K (fZ n) half) x /\ fle x (fadd K (fZ n) half) /\
    ((x = fsub K (fZ n) half \/ x = fadd K (fZ n) half) -> Z.even n = true).
  Proof.
    intros HF n half. pose proof half_2 as H2. fold half in H2. destruct (HF x) as [F1 F2]. rewrite fZ_succ in F2.
    assert (Hp : flt K 0 half = true). { destruct (flt K 0 half) eqn:E; [reflexivity|]. exfalso. assert (L : fle half 0) by exact E. pose proof (fle_add2 L L) as Q. rewrite H2 in Q. replace (fadd K 0 0) with 0 in Q by ring. unfold fle in Q. rewrite flt_0_1 in Q. discriminate. }
    unfold n, pyround. fold half. set (m := floor x) in *. set (d := fsub K x (fZ m)).
    assert (Ex : x = fadd K (fZ m) d) by (unfold d; ring).
    assert (D0 : fle 0 d) by (apply fle_sub in F1; exact F1).
    destruct (flt K d half) eqn:L1; [|destruct (flt K half d) eqn:L2].
    - assert (P1 : flt K x (fadd K (fZ m) half) = true). { apply (proj2 (flt_sub _ _ _)). replace (fsub K (fadd K (fZ m) half) x) with (fsub K half d) by (unfold d; ring). apply (proj1 (flt_sub _ _ _)). exact L1. }
      assert (P2 : flt K (fsub K (fZ m) half) x = true). { apply (proj2 (flt_sub _ _ _)). replace (fsub K x (fsub K (fZ m) half)) with (fadd K d half) by (unfold d; ring). eapply flt_le_trans; [exact Hp|]. apply (proj2 (fle_sub _ _ _)). replace (fsub K (fadd K d half) half) with d by ring. exact D0. }
      split; [apply flt_le; exact P2|]. split; [apply flt_le; exact P1|]. intros [E|E]; exfalso; [rewrite <- E in P2|rewrite <- E in P1]; rewrite flt_irrefl in *; discriminate.
    - rewrite fZ_succ.
      assert (P2 : flt K (fsub K (fadd K (fZ m) (f1 K)) half) x = true). { apply (proj2 (flt_sub _ _ _)). replace (fsub K x (fsub K (fadd K (fZ m) (f1 K)) half)) with (fsub K d half) by (rewrite <- H2; unfold d; ring). apply (proj1 (flt_sub _ _ _)). exact L2. }
      assert (P1 : flt K x (fadd K (fadd K (fZ m) (f1 K)) half) = true). { eapply flt_trans; [exact F2|]. apply (proj2 (flt_sub _ _ _)). match goal with |- flt _ _ ?a = true => replace a with half by ring end. exact Hp. }
      split; [apply flt_le; exact P2|]. split; [apply flt_le; exact P1|]. intros [E|E]; exfalso; [rewrite <- E in P2|rewrite <- E in P1]; rewrite flt_irrefl in *; discriminate.
    - assert (Ed : d = half) by (apply flt_total; assumption). rewrite Ed in Ex.
      assert (Lx : fle (fsub K (fZ m) half) x). { apply (proj2 (fle_sub _ _ _)). rewrite Ex. match goal with |- fle _ ?a => replace a with (fadd K half half) by ring end. rewrite H2. apply flt_le, flt_0_1. }
      destruct (Z.even m) eqn:Ev.
      + split; [exact Lx|]. split; [rewrite Ex; apply fle_refl|]. intros _. exact Ev.
      + rewrite fZ_succ. assert (E3 : fsub K (fadd K (fZ m) (f1 K)) half = x) by (rewrite Ex, <- H2; ring). rewrite E3. split; [apply fle_refl|]. split.
        * apply (proj2 (fle_sub _ _ _)). rewrite Ex. match goal with |- fle _ ?a => replace a with (f1 K) by ring end. apply flt_le, flt_0_1.
        * intros _. rewrite Z.even_add, Ev. reflexivity.
  Qed.
End Round.

Section C108.
  Variable K : OFld.
  Add Field Kslide : (flaw K).
  Local Notation fZ := (fZ K).
  Local Notation "0" := (f0 K).
  Variable pi : K.
  Variable floor : K -> Z.
  Variable hyp arg : K -> K -> K.
  Variable A : Type.
  Variable cj : A -> A.
  Variable mean : list A -> A.
  Variable junk : nat -> nat -> bool.
  Local Notation set_mask := (set_mask pi floor hyp arg junk).
  Local Notation get_data := (get_data cj mean).
  Local Notation slide := (slide pi floor hyp arg cj mean junk).
  Local Notation moved := (moved pi floor hyp arg cj mean junk).
  Local Notation update := (update pi floor hyp arg cj mean junk).
  Local Notation open_panel := (open_panel pi floor hyp arg cj mean junk).
  Implicit Types p : panel K A.

  (* What remains the same *)
  Lemma clamp_in lo hi x : fle lo hi -> fle lo (clamp K lo hi x) /\ fle (clamp K lo hi x) hi.
  Proof using.
    clear. intros H. unfold clamp. destruct (flt K x lo) eqn:E1; [split; [apply fle_refl|exact H]|]. destruct (flt K hi x) eqn:E2; [split; [exact H|apply fle_refl]|]. split; assumption.
  Qed.
  Lemma clamp_id lo hi x : fle lo x -> fle x hi -> clamp K lo hi x = x.
  Proof using. clear. unfold fle, clamp. intros -> ->. reflexivity. Qed.

  (** The limits: k between zero and kmax, the angle within a quarter turn, the sector within half a turn. *)
  Definition inside p : Prop := (0 <= p_kmax p)%Z /\ fle 0 (p_k p) /\ fle (p_k p) (fZ (p_kmax p)) /\
    fle (fopp K (fZ 90)) (p_angle p) /\ fle (p_angle p) (fZ 90) /\ fle 0 (p_sector p) /\ fle (p_sector p) (fZ 180).
  (** A viewer without its masks *)
  Definition bare (v : viewer K A) : viewer K A := @Viewer K A (v_shape v) (v_computed v) (v_kisize v) (v_kjsize v) (v_data v) (v_maps v) None.
  Lemma set_mask_bare v k a s t : set_mask (bare v) k a s t = set_mask v k a s t.
  Proof. reflexivity. Qed.
  Lemma set_mask_keeps v k a s t v' ok : v_maps v <> None -> set_mask v k a s t = Ok (v', ok) -> bare v' = bare v.
  Proof.
    intros Hm. unfold ViewerModel.set_mask. destruct (v_maps v) as [maps|] eqn:Em; [|congruence]. cbn [bind]. destruct maps as [kmap anglemap].
    destruct (fft2_sector_indexmap _ _ _ _ _ _ _ _); [|discriminate]. cbn [bind]. destruct (as_rfft2_mask _); [|discriminate]. cbn [bind]. destruct (as_rfft2_conj _ _); [|discriminate]. cbn [bind].
    match goal with |- bind ?r _ = _ -> _ => destruct r; [|discriminate] end. cbn [bind]. intros E. injection E as <- _. unfold bare. cbn. rewrite Em. reflexivity.
  Qed.
  (* update changes the masks and the drawing alone *)
  Lemma update_keeps p : v_maps (p_view p) <> None -> let q := update p in
    p_k q = p_k p /\ p_angle q = p_angle p /\ p_sector q = p_sector p /\ p_kmax q = p_kmax p /\ p_kstep q = p_kstep p /\ p_mode q = p_mode p /\ bare (p_view q) = bare (p_view p).
  Proof.
    intros Hm. cbv zeta. unfold SlideModel.update. destruct (set_mask _ _ _ _ _) as [[v ok]|e] eqn:E; [|repeat split; reflexivity].
    apply set_mask_keeps in E; [|exact Hm]. unfold redraw, with_view. cbn [p_view]. destruct (ViewerModel.get_data _ _ _); cbn; repeat split; assumption.
  Qed.
  (** The place where a move puts the sliders *)
  Definition at_place p (k angle sector : K) (mode : string) : Prop := p_k p = k /\ p_angle p = angle /\ p_sector p = sector /\ p_mode p = mode.
  Lemma moved_keeps p m : v_maps (p_view p) <> None ->
    p_kmax (moved p m) = p_kmax p /\ p_kstep (moved p m) = p_kstep p /\ bare (p_view (moved p m)) = bare (p_view p).
  Proof.
    intros Hm. destruct m; unfold SlideModel.moved; match goal with |- context [update ?q] => destruct (@update_keeps q) as (_ & _ & _ & E1 & E2 & _ & E3); [exact Hm|]; cbn [p_kmax p_kstep p_view] in *; rewrite E1, E2, E3; auto end.
  Qed.
  Lemma bare_maps v v' : bare v = bare v' -> v_maps v = v_maps v'.
  Proof using. clear. intros E. exact (f_equal (@v_maps K A) E). Qed.
  Lemma slide_keeps l p : v_maps (p_view p) <> None ->
    p_kmax (slide l p) = p_kmax p /\ p_kstep (slide l p) = p_kstep p /\ bare (p_view (slide l p)) = bare (p_view p).
  Proof.
    revert p. induction l as [|m l IH]; intros p Hm; [auto|]. change (slide (m :: l) p) with (slide l (moved p m)). destruct (moved_keeps p m Hm) as (E1 & E2 & E3).
    destruct (IH (moved p m)) as (F1 & F2 & F3); [rewrite (bare_maps E3); exact Hm|]. rewrite F1, F2, F3. auto.
  Qed.
  Lemma moved_inside p m : v_maps (p_view p) <> None -> inside p -> inside (moved p m).
  Proof.
    intros Hm (I0 & I1 & I2 & I3 & I4 & I5 & I6).
    pose proof (@clamp_in (fopp K (fZ 90)) (fZ 90)) as Ca. pose proof (@clamp_in 0 (fZ 180)) as Cs. pose proof (@clamp_in 0 (fZ (p_kmax p))) as Ck.
    assert (H1 : fle (fopp K (fZ 90)) (fZ 90)) by (rewrite <- fZ_opp; apply fZ_le; lia). assert (H2 : fle 0 (fZ 180)) by (apply (@fZ_le K 0 180); lia). assert (H3 : fle 0 (fZ (p_kmax p))) by (apply (@fZ_le K 0); lia).
    destruct m as [x|x|x|x]; unfold SlideModel.moved; match goal with |- context [update ?q] => destruct (@update_keeps q) as (E1 & E2 & E3 & E4 & _); [exact Hm|] end; unfold inside; rewrite E1, E2, E3, E4; cbn [p_k p_angle p_sector p_kmax];
      [destruct (Ck x H3)|destruct (Ca x H1)|destruct (Cs x H2)|]; auto 10.
  Qed.
  Lemma slide_inside l p : v_maps (p_view p) <> None -> inside p -> inside (slide l p).
  Proof.
    revert p. induction l as [|m l IH]; intros p Hm I; [exact I|]. change (slide (m :: l) p) with (slide l (moved p m)). apply IH; [|apply moved_inside; assumption].
    destruct (moved_keeps p m Hm) as (_ & _ & E3). rewrite (bare_maps E3). exact Hm.
  Qed.
  Lemma open_ok v k angle sector kstep mode p : open_panel v k angle sector kstep mode = Ok p ->
    exists maps top v' ok a, _init_map hyp arg v = Ok maps /\ max_entry K (fst maps) = Ok top /\ p_kmax p = floor top /\ p_kstep p = kstep /\
      set_mask (with_maps v maps) (pyround K floor k) angle sector kstep = Ok (v', ok) /\ get_data v' = Ok a /\ p_view p = v' /\ p_drawn p = Some (mode, a) /\ bare (p_view p) = bare (with_maps v maps) /\
      at_place p (clamp K 0 (fZ (floor top)) k) (clamp K (fopp K (fZ 90)) (fZ 90) angle) (clamp K 0 (fZ 180) sector) mode.
  Proof.
    unfold SlideModel.open_panel. destruct (v_data v) as [dat|]; [|discriminate]. destruct (_init_map hyp arg v) as [maps|]; [|discriminate]. cbn [bind]. destruct (fft2_sector_indexmap _ _ _ _ _ _ _ _) as [im|]; [|discriminate]. cbn [bind].
    destruct (max_entry K (fst maps)) as [top|] eqn:Et; [|discriminate]. cbn [bind]. destruct (set_mask (with_maps v maps) _ _ _ _) as [[v' ok]|] eqn:Es; [|discriminate]. cbn [bind]. destruct (get_data v') as [a|] eqn:Ea; [|discriminate]. cbn [bind].
    intros E. injection E as <-. exists maps, top, v', ok, a. cbn [p_kmax p_kstep p_view p_drawn]. do 8 (split; [first [reflexivity|assumption]|]). split; [|repeat split].
    eapply set_mask_keeps; [|exact Es]. discriminate.
  Qed.

  Lemma fold_max l v : (forall x, In x l -> fle 0 x) -> fle 0 v -> fle 0 (fold_left (fun m v => if flt K m v then v else m) l v).
  Proof using. clear. revert v. induction l as [|x l IH]; intros v H Hv; [exact Hv|]. cbn [fold_left]. apply IH; [intros; apply H; right; assumption|]. destruct (flt K v x); [apply H; left; reflexivity|exact Hv]. Qed.
  Lemma top_pos (v : viewer K A) maps top : (forall a b, fle 0 (hyp a b)) -> _init_map hyp arg v = Ok maps -> max_entry K (fst maps) = Ok top -> fle 0 top.
  Proof using.
    clear - hyp. intros Hy. unfold _init_map. destruct (as_fft2_shape _ _ _) as [[h w]|]; [|discriminate]. cbn [bind]. unfold fft2_kangle. destruct (fft2_grid _ _ _ _) as [[ki kj]|]; [|discriminate]. cbn [bind]. unfold _kangle.
    intros E. injection E as <-. cbn [fst]. unfold max_entry. rewrite entries_cells. cbn [mh mw].
    assert (Q : forall x, In x (map (at2 (Mat (mh ki) (mw ki) (fun i j => hyp (mat_at kj i j) (mat_at ki i j)))) (cells (mh ki) (mw ki))) -> fle 0 x).
    { intros x Hx. apply in_map_iff in Hx. destruct Hx as (c & <- & _). apply Hy. }
    destruct (map _ _) as [|x l]; [discriminate|]. intros E. injection E as <-. apply fold_max; [intros; apply Q; right; assumption|apply Q; left; reflexivity].
  Qed.
  Lemma half_pos : flt K 0 (fdiv K (f1 K) (fZ 2)) = true /\ flt K (fdiv K (f1 K) (fZ 2)) (f1 K) = true.
  Proof using.
    clear. pose proof (half_2 K) as H2. set (half := fdiv K (f1 K) (SectorModel.fZ K 2)) in *.
    assert (Hp : flt K 0 half = true). { destruct (flt K 0 half) eqn:E; [reflexivity|]. exfalso. assert (L : fle half 0) by exact E. pose proof (fle_add2 L L) as Q. rewrite H2 in Q. replace (fadd K 0 0) with 0 in Q by ring. unfold fle in Q. rewrite flt_0_1 in Q. discriminate. }
    split; [exact Hp|]. rewrite <- H2. replace half with (fadd K 0 half) at 1 by ring. apply flt_add. exact Hp.
  Qed.
  Lemma round_int n : floors K floor -> pyround K floor (fZ n) = n.
  Proof using.
    clear. intros HF. unfold pyround. rewrite (@floor_unique K floor HF (fZ n) n) by (first [apply fle_refl|apply fZ_lt; lia]).
    replace (fsub K (fZ n) (fZ n)) with 0 by ring. destruct half_pos as [H _]. rewrite H. reflexivity.
  Qed.
  Lemma round_floor x : pyround K floor x = floor x \/ pyround K floor x = (floor x + 1)%Z /\ fle (fdiv K (f1 K) (fZ 2)) (fsub K x (fZ (floor x))).
  Proof using.
    clear. unfold pyround. destruct (flt K (fsub K x _) _) eqn:E1; [auto|]. destruct (flt K _ (fsub K x _)) eqn:E2; [right; split; [reflexivity|exact E1]|]. destruct (Z.even _); [auto|right; split; [reflexivity|exact E1]].
  Qed.
  Lemma round_in x n : floors K floor -> fle 0 x -> fle x (fZ n) -> (0 <= pyround K floor x <= n)%Z.
  Proof using.
    clear. intros HF H1 H2. destruct (HF x) as [F1 F2].
    assert (L0 : (0 <= floor x)%Z). { assert (Q : flt K (fZ 0) (fZ (floor x + 1)) = true) by (eapply fle_lt_trans; eassumption). apply fZ_lt_inv in Q. lia. }
    assert (L1 : (floor x <= n)%Z). { assert (Q : fle (fZ (floor x)) (fZ n)) by (eapply fle_trans; eassumption). destruct (Z_lt_dec n (floor x)) as [L|L]; [|lia]. apply (fZ_lt K) in L. unfold fle in Q. congruence. }
    destruct (round_floor x) as [->|[-> H]]; [lia|]. destruct (Z.eq_dec (floor x) n) as [E|E]; [exfalso|lia].
    assert (x = fZ n) by (apply fle_antisym; [exact H2|rewrite <- E; exact F1]). rewrite E in H. subst x. replace (fsub K (fZ n) (fZ n)) with 0 in H by ring. destruct half_pos as [P _]. unfold fle in H. congruence.
  Qed.
  Lemma set_mask_init (v : viewer K A) maps k a s t : v_maps v = None -> _init_map hyp arg v = Ok maps -> set_mask (with_maps v maps) k a s t = set_mask v k a s t.
  Proof. intros Hv Em. unfold ViewerModel.set_mask. rewrite Hv, Em. reflexivity. Qed.

  (** The values: in every session each slider is inside its limits, and the index that is shown is one of 0 ... kmax. *)
  Theorem C108_values v k angle sector kstep mode p l : floors K floor -> (forall a b, fle 0 (hyp a b)) -> open_panel v k angle sector kstep mode = Ok p ->
    inside (slide l p) /\ (0 <= pyround K floor (p_k (slide l p)) <= p_kmax p)%Z.
  Proof.
    intros HF Hy Eo. destruct (@open_ok v k angle sector kstep mode p Eo) as (maps & top & v' & ok & a & Em & Et & Ek & _ & _ & _ & _ & _ & Eb & (P1 & P2 & P3 & _)).
    assert (T : fle 0 top) by (eapply top_pos; eassumption).
    assert (N : (0 <= floor top)%Z). { destruct (HF top) as [_ F2]. assert (Q : flt K (fZ 0) (fZ (floor top + 1)) = true) by (eapply fle_lt_trans; eassumption). apply fZ_lt_inv in Q. lia. }
    assert (I : inside p). { unfold inside. rewrite Ek, P1, P2, P3. split; [exact N|]. repeat apply Logic.conj; apply clamp_in; first [apply (@fZ_le K 0); lia|rewrite <- fZ_opp; apply fZ_le; lia]. }
    assert (Hm : v_maps (p_view p) <> None) by (rewrite (bare_maps Eb); discriminate).
    split; [apply slide_inside; assumption|]. pose proof (slide_inside l Hm I) as (_ & I1 & I2 & _). destruct (slide_keeps l p Hm) as (E1 & _). rewrite E1 in I2. apply round_in; assumption.
  Qed.

  (** The opening: refused without data; otherwise what a viewer gives for the attributes is drawn. *)
  Theorem C108_opened v k angle sector kstep mode : (v_data v = None -> open_panel v k angle sector kstep mode = Raise ValueError) /\
    forall v' ok a, v_data v <> None -> v_maps v = None -> set_mask v (pyround K floor k) angle sector kstep = Ok (v', ok) -> get_data v' = Ok a ->
      exists p, open_panel v k angle sector kstep mode = Ok p /\ p_drawn p = Some (mode, a) /\ p_view p = v' /\ p_mode p = mode /\ p_kstep p = kstep.
  Proof.
    unfold SlideModel.open_panel. split; [intros ->; reflexivity|]. intros v' ok a Hd Hv Es Ea. destruct (v_data v) as [dat|]; [|congruence].
    destruct (_init_map hyp arg v) as [[kmap anglemap]|e] eqn:Em; [|unfold ViewerModel.set_mask in Es; rewrite Hv, Em in Es; discriminate Es]. cbn [bind fst snd].
    pose proof (@set_mask_init v (kmap, anglemap) (pyround K floor k) angle sector kstep Hv Em) as E1.
    destruct (fft2_sector_indexmap K pi floor kmap anglemap angle sector kstep) as [z|e] eqn:Ez; [|unfold ViewerModel.set_mask in Es; rewrite Hv, Em in Es; cbn [bind] in Es; rewrite Ez in Es; discriminate Es]. cbn [bind].
    destruct (max_entry K kmap) as [top|e] eqn:Et; [|unfold fft2_sector_indexmap in Ez; rewrite Et in Ez; repeat match type of Ez with (if ?c then _ else _) = _ => destruct c; [discriminate Ez|] end; discriminate Ez]. cbn [bind].
    rewrite E1, Es. cbn [bind]. rewrite Ea. cbn [bind]. eexists. split; [reflexivity|]. cbn. auto.
  Qed.
  (** What is drawn after a move: the data of the mask for the values of the sliders, whatever was moved before. *)
  Theorem C108_drawn v k angle sector kstep mode p l m v' ok a : open_panel v k angle sector kstep mode = Ok p ->
    let q := slide (l ++ [m]) p in
    set_mask v (pyround K floor (p_k q)) (p_angle q) (p_sector q) kstep = Ok (v', ok) -> v_maps v = None -> get_data v' = Ok a -> p_drawn q = Some (p_mode q, a) /\ get_data (p_view q) = Ok a.
  Proof.
    intros Eo q Es Hv Ea. destruct (@open_ok v k angle sector kstep mode p Eo) as (maps & top & v1 & ok1 & a1 & Em & _ & _ & Ek & _ & _ & _ & _ & Eb & _).
    assert (Hm : v_maps (p_view p) <> None) by (rewrite (bare_maps Eb); discriminate).
    destruct (slide_keeps l p Hm) as (_ & S2 & S3). unfold q in *. clear q. unfold SlideModel.slide in *. rewrite fold_left_app in *. cbn [fold_left] in *. fold (slide l p) in *. set (r := slide l p) in *.
    assert (Hr : v_maps (p_view r) <> None) by (rewrite (bare_maps S3); exact Hm).
    assert (G : forall q : panel K A, p_kstep q = kstep -> bare (p_view q) = bare (with_maps v maps) -> set_mask v (pyround K floor (p_k (update q))) (p_angle (update q)) (p_sector (update q)) kstep = Ok (v', ok) ->
      p_drawn (update q) = Some (p_mode (update q), a) /\ get_data (p_view (update q)) = Ok a).
    { intros q Hq Hb Hs. destruct (@update_keeps q) as (U1 & U2 & U3 & _ & _ & U6 & _); [rewrite (bare_maps Hb); discriminate|]. rewrite U1, U2, U3 in Hs. rewrite U6.
      assert (Hs' : set_mask (p_view q) (pyround K floor (p_k q)) (p_angle q) (p_sector q) kstep = Ok (v', ok)).
      { rewrite <- set_mask_bare, Hb, set_mask_bare. rewrite <- Hs. apply set_mask_init; assumption. }
      unfold SlideModel.update. rewrite Hq, Hs'. unfold redraw, with_view. cbn [p_view]. rewrite Ea. cbn [p_drawn p_mode p_view]. split; [reflexivity|exact Ea]. }
    assert (B : bare (p_view r) = bare (with_maps v maps)) by (rewrite S3; exact Eb). assert (T : p_kstep r = kstep) by (rewrite S2; exact Ek).
    destruct m; unfold SlideModel.moved in *; apply G; assumption.
  Qed.

  (** A move changes what it is made for, within its limits, and nothing else of the panel. *)
  Theorem C108_placed p m : v_maps (p_view p) <> None ->
    match m with
    | SlideK _ x => at_place (moved p m) (clamp K 0 (fZ (p_kmax p)) x) (p_angle p) (p_sector p) (p_mode p)
    | SlideAngle _ x => at_place (moved p m) (p_k p) (clamp K (fopp K (fZ 90)) (fZ 90) x) (p_sector p) (p_mode p)
    | SlideSector _ x => at_place (moved p m) (p_k p) (p_angle p) (clamp K 0 (fZ 180) x) (p_mode p)
    | Select _ s => at_place (moved p m) (p_k p) (p_angle p) (p_sector p) s
    end.
  Proof.
    intros Hm. destruct m; unfold SlideModel.moved; match goal with |- context [update ?q] => destruct (@update_keeps q) as (E1 & E2 & E3 & _ & _ & E6 & _); [exact Hm|] end; unfold at_place; rewrite E1, E2, E3, E6; cbn [p_k p_angle p_sector p_mode]; auto.
  Qed.

  (** A sector of zero is refused: the curve stays, and so it does for every move of the other sliders, until the sector is moved. *)
  Theorem C108_zero_refuted p l x : v_maps (p_view p) <> None -> fle x 0 -> (forall m, In m l -> match m with SlideSector _ _ => False | _ => True end) ->
    let q := slide (SlideSector K x :: l) p in p_drawn q = p_drawn p /\ p_view q = p_view p /\ p_sector q = 0.
  Proof.
    intros Hm Hx Hl.
    assert (U : forall q : panel K A, v_maps (p_view q) <> None -> p_sector q = 0 -> update q = q).
    { intros q Hq Hs. unfold SlideModel.update, ViewerModel.set_mask. destruct (v_maps (p_view q)) as [[kmap anglemap]|]; [|congruence]. cbn [bind]. unfold fft2_sector_indexmap. rewrite Hs.
      assert (Z0 : fleb K 0 0 = true) by (apply fleb_true; apply fle_refl). rewrite Z0. destruct (_ || _)%bool; reflexivity. }
    assert (G : forall l (q : panel K A), (forall m, In m l -> match m with SlideSector _ _ => False | _ => True end) -> v_maps (p_view q) <> None -> p_sector q = 0 ->
      p_drawn (slide l q) = p_drawn q /\ p_view (slide l q) = p_view q /\ p_sector (slide l q) = 0).
    { clear - U. induction l as [|m l IH]; intros q Hl Hq Hs; [auto|]. change (slide (m :: l) q) with (slide l (moved q m)).
      assert (E : p_drawn (moved q m) = p_drawn q /\ p_view (moved q m) = p_view q /\ p_sector (moved q m) = 0).
      { specialize (Hl m (or_introl eq_refl)). destruct m; [| |destruct Hl|]; unfold SlideModel.moved; rewrite U by assumption; cbn; auto. }
      destruct E as (E1 & E2 & E3). destruct (IH (moved q m)) as (F1 & F2 & F3); [intros; apply Hl; right; assumption|rewrite E2; exact Hq|exact E3|]. rewrite F1, F2, F3. auto. }
    cbv zeta. change (slide (SlideSector K x :: l) p) with (slide l (moved p (SlideSector K x))).
    assert (C : clamp K 0 (fZ 180) x = 0). { unfold clamp. apply fle_cases in Hx. destruct Hx as [->| ->]; [reflexivity|]. rewrite flt_irrefl. pose proof (@fZ_le K 0 180 ltac:(lia)) as Q. unfold fle in Q. change (SectorModel.fZ K 0) with 0 in Q. rewrite Q. reflexivity. }
    assert (E : p_drawn (moved p (SlideSector K x)) = p_drawn p /\ p_view (moved p (SlideSector K x)) = p_view p /\ p_sector (moved p (SlideSector K x)) = 0).
    { unfold SlideModel.moved. rewrite C. rewrite U by (first [exact Hm|reflexivity]). cbn. auto. }
    destruct E as (E1 & E2 & E3). destruct (G l (moved p (SlideSector K x))) as (F1 & F2 & F3); [exact Hl|rewrite E2; exact Hm|exact E3|]. rewrite F1, F2, F3. auto.
  Qed.

  (** Every index from 0 to kmax can be reached by the first slider. *)
  Theorem C108_reach p n : floors K floor -> v_maps (p_view p) <> None -> (0 <= n <= p_kmax p)%Z -> pyround K floor (p_k (moved p (SlideK K (fZ n)))) = n.
  Proof.
    intros HF Hm Hn. unfold SlideModel.moved. match goal with |- context [update ?q] => destruct (@update_keeps q) as (E1 & _); [exact Hm|]; rewrite E1 end. cbn [p_k].
    rewrite clamp_id by (first [apply (@fZ_le K 0); lia|apply fZ_le; lia]). apply round_int. exact HF.
  Qed.
  Lemma fold_le l v b : (forall x, In x l -> fle x b) -> fle v b -> fle (fold_left (fun m v => if flt K m v then v else m) l v) b.
  Proof using. clear. revert v. induction l as [|x l IH]; intros v H Hv; [exact Hv|]. cbn [fold_left]. apply IH; [intros; apply H; right; assumption|]. destruct (flt K v x); [apply H; left; reflexivity|exact Hv]. Qed.
  Lemma top_le (x : mat K) top b : max_entry K x = Ok top -> (forall i j, i < mh x -> j < mw x -> fle (mat_at x i j) b) -> fle top b.
  Proof using.
    clear. intros E H. assert (Q : forall v, In v (all_entries x) -> fle v b). { rewrite entries_cells. intros v Hv. apply in_map_iff in Hv. destruct Hv as (c & <- & Hc). apply in_cells in Hc. apply H; apply Hc. }
    unfold max_entry in E. destruct (all_entries x) as [|v l]; [discriminate|]. injection E as <-. apply fold_le; [intros; apply Q; right; assumption|apply Q; left; reflexivity].
  Qed.
  (** But not the index of the longest wave vectors, if their length is rounded up: whatever is moved, they are not shown (unless k was set before the figure was opened). *)
  Theorem C108_reach_refuted v k angle sector mode p l kmap anglemap angle' sector' z i j : floors K floor -> (forall a b, fle 0 (hyp a b)) ->
    open_panel v k angle sector (f1 K) mode = Ok p -> _init_map hyp arg v = Ok (kmap, anglemap) ->
    fft2_sector_indexmap K pi floor kmap anglemap angle' sector' (f1 K) = Ok z -> i < mh kmap -> j < mw kmap -> (i, j) <> (0%nat, 0%nat) -> mat_at z i j <> (-1)%Z ->
    (forall i' j', i' < mh kmap -> j' < mw kmap -> fle (mat_at kmap i' j') (mat_at kmap i j)) -> flt K (fadd K (fZ (floor (mat_at kmap i j))) (fdiv K (f1 K) (fZ 2))) (mat_at kmap i j) = true ->
    (pyround K floor (p_k (slide l p)) < mat_at z i j)%Z.
  Proof.
    intros HF Hy Eo Ei Ez Hi Hj N Z1 Hmax Hup. destruct (@C108_values v k angle sector (f1 K) mode p l HF Hy Eo) as (_ & _ & R).
    destruct (@open_ok v k angle sector (f1 K) mode p Eo) as (maps & top & v' & ok & a & Em & Et & Ek & _). rewrite Ei in Em. injection Em as <-. cbn [fst] in Et. rewrite Ek in R.
    pose proof (@top_le kmap top _ Et Hmax) as T. set (kv := mat_at kmap i j) in *.
    assert (F : (floor top <= floor kv)%Z). { destruct (HF top) as [F1 _]. destruct (HF kv) as [_ F2]. assert (Q : flt K (fZ (floor top)) (fZ (floor kv + 1)) = true) by (eapply fle_lt_trans; [eapply fle_trans; eassumption|exact F2]). apply fZ_lt_inv in Q. lia. }
    assert (D : mh anglemap = mh kmap /\ mw anglemap = mw kmap /\ forall i j, fle 0 (mat_at kmap i j)).
    { clear - Ei Hy. unfold _init_map in Ei. destruct (as_fft2_shape _ _ _) as [[h w]|]; [|discriminate Ei]. cbn [bind] in Ei. unfold fft2_kangle in Ei. destruct (fft2_grid _ _ _ _) as [[ki kj]|]; [|discriminate Ei]. cbn [bind] in Ei. unfold _kangle in Ei.
      injection Ei as <- <-. cbn. repeat split. intros. apply Hy. }
    destruct D as (D1 & D2 & D3).
    assert (P : fle (fopp K (fZ 180)) angle' /\ fle angle' (fZ 180) /\ flt K 0 sector' = true /\ fle sector' (fZ 180)).
    { clear - Ez. unfold fft2_sector_indexmap in Ez. destruct (_ || _)%bool eqn:E1 in Ez; [discriminate Ez|]. destruct (fleb K sector' _ || _)%bool eqn:E2 in Ez; [discriminate Ez|]. apply orb_false_iff in E1, E2. destruct E1 as [A1 A2], E2 as [S1 S2].
      repeat split; [exact A1|exact A2| |exact S2]. unfold fleb in S1. apply negb_false_iff in S1. exact S1. }
    destruct P as (A1 & A2 & S1 & S2).
    destruct (@indexmap_ok K pi floor HF kmap anglemap angle' sector' (f1 K)) as (z' & E' & _ & _ & _ & G); try assumption; try lia; try (apply flt_0_1); [intros; apply D3|]. rewrite Ez in E'. injection E' as <-.
    specialize (G i j Hi Hj N). fold kv in G. unfold ring_of in G. destruct (in_sector _ _ _ _ _ _ _); [|contradiction]. destruct G as (r & Er & _ & O). rewrite Er.
    assert (Q : flt K (fZ (floor kv)) (fZ (Z.of_nat r)) = true).
    { rewrite fZ_nat. eapply flt_le_trans with (y := fsub K kv (fdiv K (f1 K) (fZ 2))).
      - apply (proj2 (flt_sub _ _ _)). apply (proj1 (flt_sub _ _ _)) in Hup. match goal with |- flt _ _ ?a = true => match type of Hup with flt _ _ ?b = true => replace a with b by ring end end. exact Hup.
      - apply (proj2 (fle_sub _ _ _)). apply (proj1 (fle_sub _ _ _)) in O. match goal with |- fle _ ?a => match type of O with fle _ ?b => replace a with b by ring end end. exact O. }
    apply fZ_lt_inv in Q. lia.
  Qed.
End C108.
Print Assumptions C108_nearest.
Print Assumptions C108_values.
Print Assumptions C108_opened.
Print Assumptions C108_drawn.
Print Assumptions C108_placed.
Print Assumptions C108_zero_refuted.
Print Assumptions C108_reach.
Print Assumptions C108_reach_refuted.

(** The half plane of 3x5 frames, lengths as sums of absolute values: the longest wave vectors have length 11/3 and index 4, the slider of k ends at 3.
    A sector of zero keeps the curve until the sector is moved again. *)
Definition sumnorm (a b : QcO) : QcO := let abs (x : QcO) := if flt QcO x (q 0) then fopp QcF x else x in fadd QcF (abs a) (abs b).
Definition half33 : mat Z := Prop_Map.table 0%Z [[0; 2; 4]; [3; 7; 6]; [3; 6; 9]]%Z.
Definition view35 : viewer QcO Z := match set_data (viewer_init QcO Z (Some (3, 5)%Z) None) (Full half33) with Ok v => v | Raise _ => viewer_init QcO Z None None end.
Definition session35 (l : list (move QcO)) : res (Z * Q * option (string * Z) * list Q) :=
  let* p := open_panel pi7 qfloor sumnorm octant (fun z => z) zmean (fun _ _ => false) view35 (q 0) (q 0) (q 100) (q 1) "real" in
  let p := slide pi7 qfloor sumnorm octant (fun z => z) zmean (fun _ _ => false) l p in
  Ok (p_kmax p, this (p_k p), p_drawn p, [this (p_angle p); this (p_sector p)]).
Example C108_example :
  (let* (m, a) := _init_map sumnorm octant view35 in let* z := fft2_sector_indexmap QcO pi7 qfloor m a (q 0) (q 100) (q 1) in Ok (entries z, this (mat_at m 1 2))) =
    Ok ([[0; 1; 2; -1; -1]; [-1; 3; 4; -1; -1]; [-1; 3; 4; -1; -1]]%Z, (11 # 3)%Q) /\
  session35 [] = Ok (3%Z, 0%Q, Some ("real", 0%Z), [0; 100]%Q) /\ session35 [SlideK QcO (q 2)] = Ok (3%Z, 2%Q, Some ("real", 4%Z), [0; 100]%Q) /\
  session35 [SlideK QcO (q 9)] = Ok (3%Z, 3%Q, Some ("real", 6%Z), [0; 100]%Q) /\
  session35 [SlideK QcO (q 2); SlideAngle QcO (q 100)] = Ok (3%Z, 2%Q, Some ("real", 3%Z), [90; 100]%Q) /\
  session35 [SlideK QcO (q 2); SlideSector QcO (q (-1)); SlideK QcO (q 3); Select QcO "abs"] = Ok (3%Z, 3%Q, Some ("real", 4%Z), [0; 0]%Q) /\
  session35 [SlideK QcO (q 2); SlideSector QcO (q (-1)); SlideK QcO (q 3); Select QcO "abs"; SlideSector QcO (q 100)] = Ok (3%Z, 3%Q, Some ("abs", 6%Z), [0; 100]%Q) /\
  map (pyround QcO qfloor) [fdiv QcF (q 1) (q 2); fdiv QcF (q 3) (q 2); fdiv QcF (q 5) (q 2); fdiv QcF (q 8) (q 3)] = [0; 2; 2; 3]%Z.
Proof. repeat split; vm_compute; reflexivity. Qed.
