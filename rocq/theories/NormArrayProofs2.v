(** Every step of the normalization of arrays is the step of the normalization of each pixel. *)
From Coq Require Import String.
From Verif Require Import Base NormModel NormArrayModel NormArrayProofs.
Open Scope string_scope.
Open Scope nat_scope.
Local Notation length := List.length.
Set Implicit Arguments.

Section Sim.
  Variable K : Fld.
  Notation C := (Cx K).
  Variable V : Type.
  Variable O : NormOps K V.
  Variable denoise : list (fval V) -> list (fval V).
  Hypothesis denoise_length : forall l, length (denoise l) = length l.
  (** The pixels of the result and the length of the delay *)
  Variable s : list nat.
  Variable n : nat.
  Local Notation full := (s ++ [n])%list.

  (** The array R has at every pixel the row r, or both fail in the same way *)
  Definition sim (R : res (nd (fval V))) (r : list nat -> res (list (fval V))) : Prop :=
    match R with
    | Ok out => shape out = full /\ forall p, valid p s -> r p = Ok (row out p)
    | Raise e => forall p, valid p s -> r p = Raise e
    end.
  Definition simK (R : res (nd K)) (r : list nat -> res K) : Prop :=
    match R with
    | Ok out => shape out = s /\ forall p, valid p s -> r p = Ok (at_ out p)
    | Raise e => forall p, valid p s -> r p = Raise e
    end.
  Lemma sim_bind R r F f : sim R r -> (forall out, shape out = full -> sim (F out) (fun p => f p (row out p))) -> sim (bind R F) (fun p => bind (r p) (f p)).
  Proof using.
    destruct R as [out|e]; cbn [bind sim].
    - intros (E & H) HF. specialize (HF out E). destruct (F out) as [o|e]; cbn [sim] in *; [destruct HF as [E2 HF]; split; [exact E2|]|]; intros p Hp; rewrite (H p Hp); cbn [bind]; apply HF; exact Hp.
    - intros H _ p Hp. rewrite (H p Hp). reflexivity.
  Qed.
  Lemma simK_bind R r F f : simK R r -> (forall out, shape out = s -> sim (F out) (fun p => f p (at_ out p))) -> sim (bind R F) (fun p => bind (r p) (f p)).
  Proof using.
    destruct R as [out|e]; cbn [bind simK].
    - intros (E & H) HF. specialize (HF out E). destruct (F out) as [o|e]; cbn [sim] in *; [destruct HF as [E2 HF]; split; [exact E2|]|]; intros p Hp; rewrite (H p Hp); cbn [bind]; apply HF; exact Hp.
    - intros H _ p Hp. rewrite (H p Hp). reflexivity.
  Qed.
  Lemma sim_ext R r r' : (forall p, valid p s -> r' p = r p) -> sim R r -> sim R r'.
  Proof using. intros H. destruct R as [o|e]; cbn [sim]; [intros (E & G); split; [exact E|]|intros G]; intros p Hp; rewrite (H p Hp); apply G; exact Hp. Qed.
  Lemma sim_ok out r : shape out = full -> (forall p, valid p s -> r p = map (fun t => at_ out (p ++ [t])%list) (seq 0 n)) -> sim (Ok out) (fun p => Ok (r p)).
  Proof using. intros E H. split; [exact E|]. intros p Hp. rewrite (H p Hp), (row_map p E). reflexivity. Qed.
  Lemma ewise_sim A (shapes : list (list nat)) (f : list nat -> A) : Forall (fun b => fits b full) shapes -> ewise (full :: shapes) f = Ok (Nd full f).
  Proof using. intros H. unfold ewise. rewrite bcast_all_fit by exact H. reflexivity. Qed.
  Lemma inplace_sim A B (x : nd A) (y : nd B) f : shape x = full -> fits (shape y) full -> inplace x y f = Ok (Nd full (fun p => f (look x p) (look y p))).
  Proof using. intros E H. unfold inplace. rewrite E, bcast_all_fit by (constructor; [exact H|constructor]). cbn [bind]. destruct (list_eq_dec Nat.eq_dec full full) as [_|N]; [reflexivity|congruence]. Qed.
  Lemma cells_ok lens m f : Forall (fun l => l = m) lens -> cells (V := V) lens m f = Ok (map f (seq 0 m)).
  Proof using. intros H. unfold cells. replace (forallb (Nat.eqb m) lens) with true; [reflexivity|]. symmetry. apply forallb_forall. intros l Hl. rewrite Forall_forall in H. rewrite (H l Hl). apply Nat.eqb_refl. Qed.

  (** The variance and what a pixel sees of it *)
  Variable variance : sarr K.
  Variable mask : option (nd bool).
  Variable vs : list nat -> statarg K.
  Hypothesis scale_sim : simK (scale_factor_nd K variance mask) (fun p => scale_factor K (vs p)).

  Lemma offset_sim F f : (forall off, shape off = (s ++ [1])%list -> (forall p t, valid p s -> look off (p ++ [t]) = look off (p ++ [0])) -> sim (F off) (fun p => f p (look off (p ++ [0])))) ->
    sim (bind (_variance2offset_nd K variance mask) F) (fun p => bind (scale_factor K (vs p)) (f p)).
  Proof using scale_sim.
    intros HF. unfold _variance2offset_nd. pose proof scale_sim as S. destruct (scale_factor_nd K variance mask) as [sf|e]; cbn [simK bind] in *.
    - destruct S as (E & S). specialize (HF (newaxis sf)). assert (Hn : shape (newaxis sf) = (s ++ [1])%list) by (cbn [newaxis shape]; rewrite E; reflexivity).
      specialize (HF Hn). assert (Hl : forall p t, valid p s -> look (newaxis sf) (p ++ [t]) = at_ sf p) by (intros p t Hp; apply (look_new _ E Hp)).
      assert (HF' := HF (fun p t Hp => eq_trans (Hl p t Hp) (eq_sym (Hl p 0 Hp)))). eapply sim_ext; [|exact HF']. intros p Hp. rewrite (S p Hp). cbn [bind]. rewrite (Hl p 0 Hp). reflexivity.
    - intros p Hp. rewrite (S p Hp). reflexivity.
  Qed.
  Lemma shift_sim c data off (g : list nat -> K) : shape data = full -> shape off = (s ++ [1])%list -> (forall p t, valid p s -> look off (p ++ [t]) = g p) ->
    sim (inplace (Nd (shape data) (fun p => fv_map (op_scal O c) (at_ data p))) off (fun x o => fv_map (fun x => op_shift O x o) x))
        (fun p => Ok (map (fv_map (fun x => op_shift O (op_scal O c x) (g p))) (row data p))).
  Proof using.
    intros E Eo Hl. rewrite inplace_sim; [|exact E|rewrite Eo; apply fits_new]. apply sim_ok; [reflexivity|]. intros p Hp. rewrite (row_map p E), map_map. apply map_ext_in. intros t Ht. apply in_seq in Ht. cbn [at_].
    rewrite (Hl p t Hp). rewrite (@look_full _ _ s n) by (cbn [shape]; try assumption; lia). cbn [at_]. destruct (at_ data (p ++ [t])%list); reflexivity.
  Qed.
  Lemma corr2diff_sim data : shape data = full -> sim (_corr2diff_nd O data variance mask) (fun p => _corr2diff O (row data p) (vs p)).
  Proof using scale_sim.
    intros E. unfold _corr2diff_nd, _corr2diff. apply offset_sim. intros off Eo Hl.
    apply (@shift_sim (fopp K (fadd K (f1 K) (f1 K))) data (Nd (shape off) (fun p => fmul K (at_ off p) (fadd K (f1 K) (f1 K)))) (fun p => fmul K (look off (p ++ [0])) (fadd K (f1 K) (f1 K))) E Eo).
    intros p t Hp. rewrite <- (Hl p t Hp). reflexivity.
  Qed.
  Lemma diff2corr_sim data : shape data = full -> sim (_diff2corr_nd O data variance mask) (fun p => _diff2corr O (row data p) (vs p)).
  Proof using scale_sim.
    intros E. unfold _diff2corr_nd, _diff2corr. apply offset_sim. intros off Eo Hl.
    apply (@shift_sim (fopp K (fdiv K (f1 K) (fadd K (f1 K) (f1 K)))) data off (fun p => look off (p ++ [0])) E Eo). exact Hl.
  Qed.

  (** A formula: one ufunc *)
  Lemma cell_sim A lens d count (f : V -> nat -> A -> fval V) (g : list nat -> A) (h : list nat -> nat -> A) F shapes : shape d = full -> shape count = [n] ->
    Forall (fun b => fits b full) shapes -> (forall p, valid p s -> Forall (fun l => l = n) (lens p)) -> (forall p t, valid p s -> t < n -> g (p ++ [t])%list = h p t) -> 
    (forall p, F p = f (look d p) (look (expand (rank d - rank count) count) p) (g p)) ->
    sim (ewise (shape d :: shape (expand (rank d - rank count) count) :: shapes) F) (fun p => cells (length (rowc count) :: lens p) (length (row d p)) (fun i => f (nth i (row d p) (op_zero O)) (nth i (rowc count) 0) (h p i))).
  Proof using.
    intros Ed Ec Hs Hl Hg HF. assert (Er : rank d - rank count = length s) by (unfold rank; rewrite Ed, Ec, app_length; cbn [length]; lia). rewrite Er in *. rewrite (shape_count _ Ec), Ed. rewrite ewise_sim by (constructor; [apply fits_count|exact Hs]).
    apply (@sim_ext _ (fun p => Ok (map (fun i => f (nth i (row d p) (op_zero O)) (nth i (rowc count) 0) (h p i)) (seq 0 n)))).
    - intros p Hp. rewrite (row_length p Ed), (rowc_length Ec). apply cells_ok. constructor; [reflexivity|]. apply Hl. exact Hp.
    - apply sim_ok; [reflexivity|]. intros p Hp. apply map_ext_in. intros t Ht. apply in_seq in Ht. cbn [at_]. rewrite HF. rewrite (@row_nth _ d s n) by (assumption || lia). rewrite (@rowc_nth _ count n) by (assumption || lia). rewrite Hg by (assumption || lia).
      rewrite (@look_full _ d s n) by (assumption || lia). rewrite <- (valid_length Hp). rewrite (@look_count _ count n) by (assumption || lia). reflexivity.
  Qed.
  Lemma look_row A (x : nd A) p t d : shape x = full -> valid p s -> t < n -> look x (p ++ [t]) = nth t (row x p) d.
  Proof using. intros E Hp Ht. rewrite (look_full E Hp Ht), (row_nth p d E Ht). reflexivity. Qed.

  Arguments look_row {A x p t} d _ _ _.

  Lemma formula_sim data bg1 bg2 norm mode : wf data s n -> shape bg1 = s -> shape bg2 = s ->
    sim (formula_nd O data (newaxis bg1) (newaxis bg2) variance mask norm mode) (fun p => normalize_formula O (pix data p) (at_ bg1 p) (at_ bg2 p) (vs p) norm mode).
  Proof using scale_sim.
    intros Hw E1 E2.
    assert (L1 : forall p t, valid p s -> look (newaxis bg1) (p ++ [t]) = at_ bg1 p) by (intros p t Hp; apply (look_new _ E1 Hp)).
    assert (L2 : forall p t, valid p s -> look (newaxis bg2) (p ++ [t]) = at_ bg2 p) by (intros p t Hp; apply (look_new _ E2 Hp)).
    assert (F1 : fits (shape (newaxis bg1)) full) by (cbn [newaxis shape]; rewrite E1; apply fits_new).
    assert (F2 : fits (shape (newaxis bg2)) full) by (cbn [newaxis shape]; rewrite E2; apply fits_new).
    assert (TM : forall R r, sim R r -> sim (let* r := R in if String.eqb mode "diff" then _corr2diff_nd O r variance mask else Ok r) (fun p => let* r := r p in if String.eqb mode "diff" then _corr2diff O r (vs p) else Ok r)).
    { intros R r H. apply sim_bind; [exact H|]. intros out Eo. destruct (String.eqb mode "diff"); [apply corr2diff_sim; exact Eo|]. split; [exact Eo|]. intros; reflexivity. }
    assert (TM2 : forall R r, sim R r -> sim (let* r := R in if String.eqb mode "corr" then _diff2corr_nd O r variance mask else Ok r) (fun p => let* r := r p in if String.eqb mode "corr" then _diff2corr O r (vs p) else Ok r)).
    { intros R r H. apply sim_bind; [exact H|]. intros out Eo. destruct (String.eqb mode "corr"); [apply diff2corr_sim; exact Eo|]. split; [exact Eo|]. intros; reflexivity. }
    destruct data as [d count sq s1 s2|d count s1 s2|]; [| |intros p Hp; reflexivity].
    - destruct Hw as (Ed & Ec & Eq & Es1 & Es2). unfold formula_nd, normalize_formula, pix.
      assert (M : forall F f, (forall m1 m2, shape m1 = full -> shape m2 = full -> sim (F (m1, m2)) (fun p => f p (row m1 p, row m2 p))) ->
        sim (bind (let* m1 := need s1 in Ok (m1, match s2 with Some m2 => m2 | None => m1 end)) F)
            (fun p => bind (let* m1 := need (option_map (fun x => row x p) s1) in Ok (m1, match option_map (fun x => row x p) s2 with Some m2 => m2 | None => m1 end)) (f p))).
      { intros F f H. destruct s1 as [m1|]; cbn [need bind option_map]; [|intros p Hp; reflexivity]. destruct s2 as [m2|]; cbn [option_map]; apply H; assumption. }
      assert (Q : forall F f, (forall q, shape q = full -> sim (F q) (fun p => f p (row q p))) -> sim (bind (need sq) F) (fun p => bind (need (option_map (fun x => row x p) sq)) (f p))).
      { intros F f H. destruct sq as [q|]; cbn [need bind option_map]; [apply H; exact Eq|intros p Hp; reflexivity]. }
      destruct (norm =? 1)%Z.
      { apply TM. eapply (@cell_sim (C * C) (fun _ => []) d count (fun a b g => op_corr_baseline O a b (fst g) (snd g)) (fun p => (look (newaxis bg1) p, look (newaxis bg2) p)) (fun p _ => (at_ bg1 p, at_ bg2 p))); try assumption; try reflexivity.
        - repeat constructor; assumption. 
        - constructor.
        - intros p t Hp Ht. rewrite L1, L2 by exact Hp. reflexivity. }
      destruct (norm =? 2)%Z.
      { apply offset_sim. intros off Eo Lo. apply Q. intros q Eqq. apply TM.
        eapply (@cell_sim (C * C * K * K) (fun p => [length (row q p)]) d count (fun a b g => op_struct_baseline O a b (fst (fst (fst g))) (snd (fst (fst g))) (snd (fst g)) (snd g)) (fun p => (look (newaxis bg1) p, look (newaxis bg2) p, look off p, look q p)) (fun p i => (at_ bg1 p, at_ bg2 p, look off (p ++ [0]), nth i (row q p) (f0 K)))); try assumption; try reflexivity.
        - repeat constructor; try assumption; [rewrite Eo; apply fits_new|rewrite Eqq; apply fits_full].
        - intros p Hp. constructor; [apply (row_length _ Eqq)|constructor].
        - intros p t Hp Ht. rewrite L1, L2, Lo by exact Hp. rewrite (look_row (f0 K) Eqq Hp Ht). reflexivity. }
      destruct ((norm =? 5) || (norm =? 13))%Z%bool.
      { apply M. intros m1 m2 Em1 Em2. apply TM.
        eapply (@cell_sim (C * C * C * C) (fun p => [length (row m1 p); length (row m2 p)]) d count (fun a b g => op_corr_subtracted O a b (fst (fst (fst g))) (snd (fst (fst g))) (snd (fst g)) (snd g)) (fun p => (look (newaxis bg1) p, look (newaxis bg2) p, look m1 p, look m2 p)) (fun p i => (at_ bg1 p, at_ bg2 p, nth i (row m1 p) (c0 K), nth i (row m2 p) (c0 K)))); try assumption; try reflexivity.
        - repeat constructor; try assumption; [rewrite Em1|rewrite Em2]; apply fits_full.
        - intros p Hp. repeat constructor; [apply (row_length _ Em1)|apply (row_length _ Em2)].
        - intros p t Hp Ht. rewrite L1, L2 by exact Hp. rewrite (look_row (c0 K) Em1 Hp Ht), (look_row (c0 K) Em2 Hp Ht). reflexivity. }
      destruct (norm =? 9)%Z.
      { apply M. intros m1 m2 Em1 Em2. apply TM.
        eapply (@cell_sim (C * C) (fun p => [length (row m1 p); length (row m2 p)]) d count (fun a b g => op_corr_compensated O a b (fst g) (snd g)) (fun p => (look m1 p, look m2 p)) (fun p i => (nth i (row m1 p) (c0 K), nth i (row m2 p) (c0 K)))); try assumption; try reflexivity.
        - repeat constructor; try assumption; [rewrite Em1|rewrite Em2]; apply fits_full.
        - intros p Hp. repeat constructor; [apply (row_length _ Em1)|apply (row_length _ Em2)].
        - intros p t Hp Ht. rewrite (look_row (c0 K) Em1 Hp Ht), (look_row (c0 K) Em2 Hp Ht). reflexivity. }
      destruct ((norm =? 6) || (norm =? 14))%Z%bool.
      { apply offset_sim. intros off Eo Lo. apply M. intros m1 m2 Em1 Em2. apply Q. intros q Eqq. apply TM.
        eapply (@cell_sim (C * C * K * K * C * C) (fun p => [length (row q p); length (row m1 p); length (row m2 p)]) d count (fun a b g => op_struct_subtracted O a b (fst (fst (fst (fst (fst g))))) (snd (fst (fst (fst (fst g))))) (snd (fst (fst (fst g)))) (snd (fst (fst g))) (snd (fst g)) (snd g))
          (fun p => (look (newaxis bg1) p, look (newaxis bg2) p, look off p, look q p, look m1 p, look m2 p)) (fun p i => (at_ bg1 p, at_ bg2 p, look off (p ++ [0]), nth i (row q p) (f0 K), nth i (row m1 p) (c0 K), nth i (row m2 p) (c0 K)))); try assumption; try reflexivity.
        - repeat constructor; try assumption; [rewrite Eo; apply fits_new|rewrite Eqq; apply fits_full|rewrite Em1; apply fits_full|rewrite Em2; apply fits_full].
        - intros p Hp. repeat constructor; [apply (row_length _ Eqq)|apply (row_length _ Em1)|apply (row_length _ Em2)].
        - intros p t Hp Ht. rewrite L1, L2, Lo by exact Hp. rewrite (look_row (c0 K) Em1 Hp Ht), (look_row (c0 K) Em2 Hp Ht), (look_row (f0 K) Eqq Hp Ht). reflexivity. }
      destruct (norm =? 10)%Z.
      { apply offset_sim. intros off Eo Lo. apply M. intros m1 m2 Em1 Em2. apply Q. intros q Eqq. apply TM.
        eapply (@cell_sim (K * K * C * C) (fun p => [length (row q p); length (row m1 p); length (row m2 p)]) d count (fun a b g => op_struct_compensated O a b (fst (fst (fst g))) (snd (fst (fst g))) (snd (fst g)) (snd g))
          (fun p => (look off p, look q p, look m1 p, look m2 p)) (fun p i => (look off (p ++ [0]), nth i (row q p) (f0 K), nth i (row m1 p) (c0 K), nth i (row m2 p) (c0 K)))); try assumption; try reflexivity.
        - repeat constructor; try assumption; [rewrite Eo; apply fits_new|rewrite Eqq; apply fits_full|rewrite Em1; apply fits_full|rewrite Em2; apply fits_full].
        - intros p Hp. repeat constructor; [apply (row_length _ Eqq)|apply (row_length _ Em1)|apply (row_length _ Em2)].
        - intros p t Hp Ht. rewrite Lo by exact Hp. rewrite (look_row (c0 K) Em1 Hp Ht), (look_row (c0 K) Em2 Hp Ht), (look_row (f0 K) Eqq Hp Ht). reflexivity. }
      intros p Hp; reflexivity.
    - destruct Hw as (Ed & Ec & Es1 & Es2). unfold formula_nd, normalize_formula, pix.
      assert (DM : exists dm, ewise [shape (newaxis bg2); shape (newaxis bg1)] (fun p => csub (look (newaxis bg2) p) (look (newaxis bg1) p)) = Ok dm /\ shape dm = (s ++ [1])%list /\ forall p t, valid p s -> look dm (p ++ [t]) = csub (at_ bg2 p) (at_ bg1 p)).
      { unfold ewise. cbn [newaxis shape]. rewrite E1, E2. rewrite bcast_all_fit by (constructor; [apply fits_refl|constructor]). cbn [bind]. eexists. split; [reflexivity|]. split; [reflexivity|]. intros p t Hp. unfold look at 1. cbn [shape at_]. rewrite ix_last, (ix_id Hp). cbn [Nat.eqb]. rewrite L1, L2 by exact Hp. reflexivity. }
      destruct DM as (dm & EDM & Edm & Ldm).
      destruct (norm =? 2)%Z.
      { rewrite EDM. cbn [bind]. destruct (op_cdiff_1 O) as [op|]; cbn [need bind]; [|intros p Hp; reflexivity]. apply TM2.
        eapply (@cell_sim C (fun _ => []) d count (fun a b g => op a b g) (fun p => look dm p) (fun p _ => csub (at_ bg2 p) (at_ bg1 p))); try assumption; try reflexivity.
        - repeat constructor. rewrite Edm. apply fits_new.
        - constructor.
        - intros p t Hp Ht. apply Ldm. exact Hp. }
      destruct ((norm =? 6) || (norm =? 14))%Z%bool.
      { rewrite EDM. cbn [bind]. destruct (op_cdiff_3 O) as [op|]; cbn [need bind]; [|intros p Hp; reflexivity]. destruct s1 as [m1|]; cbn [need bind option_map]; [|intros p Hp; reflexivity]. destruct s2 as [m2|]; cbn [need bind option_map]; [|intros p Hp; reflexivity]. cbn [oshape] in *. apply TM2.
        eapply (@cell_sim (C * C * C) (fun p => [length (row m1 p); length (row m2 p)]) d count (fun a b g => op a b (fst (fst g)) (snd (fst g)) (snd g)) (fun p => (look dm p, look m1 p, look m2 p)) (fun p i => (csub (at_ bg2 p) (at_ bg1 p), nth i (row m1 p) (c0 K), nth i (row m2 p) (c0 K)))); try assumption; try reflexivity.
        - repeat constructor; [rewrite Edm; apply fits_new|rewrite Es1; apply fits_full|rewrite Es2; apply fits_full].
        - intros p Hp. repeat constructor; [apply (row_length _ Es1)|apply (row_length _ Es2)].
        - intros p t Hp Ht. rewrite Ldm by exact Hp. rewrite (look_row (c0 K) Es1 Hp Ht), (look_row (c0 K) Es2 Hp Ht). reflexivity. }
      intros p Hp; reflexivity.
  Qed.
End Sim.
