(** C97: streams of frames with any number of axes. *)
From Coq Require Import String ZifyBool ZifyNat.
From Verif Require Import Base Kernels KernelProofs PairSpec CoreModel CoreProofs CoreApi VecModel VecProofs FftModel Examples NormModel CorrModel CorrSpec Prop_Norm1 NormArrayModel NormArrayProofs AxisModel AxisProofs AxisProofs2 AxisProofs3
  MultiModel Prop_Multi LevelArrayModel LevelArrayProofs MultiArrayModel MultiArrayProofs MultiArrayProofs2 MultiArrayProofs3 MultiArrayProofs4 MultiArrayProofs5 Prop_MultiArray StreamModel StreamSpec StreamParts StreamFits StreamRegular Prop_Stream1
  StreamArrayModel StreamArrayProofs StreamArrayProofs2 StreamArrayProofs3 StreamArrayProofs4 StreamArrayProofs5.
Open Scope string_scope.
Open Scope nat_scope.
Open Scope list_scope.
Local Notation length := List.length.
Set Implicit Arguments.

(** The two tuples have the pixels [fr] (and the levels as first axis of the second one), the means and variances the
    pixels [k]; for a pixel [p] they are, at [p] and at [x p], what [one] gives for it; they exist if no pixel alone is an
    error. *)
Definition stream_results (K : Fld) (V : CMon) (fr k : list nat) (x : list nat -> list nat) (one : list nat -> res (yielded K V)) (r : res (oyielded K V)) : Prop :=
  (forall fast slow b1 b2 v1 v2, r = Ok ((fast, slow), (b1, b2), (v1, v2)) ->
     (exists m, all_shaped fast (fr ++ [m])) /\ (exists L m, all_shaped slow (L :: fr ++ [m])) /\ (shape b1 = k /\ shape b2 = k /\ shape v1 = k /\ shape v2 = k) /\
     forall p, valid p fr -> one p = Ok ((pix fast p, levels_at slow p), (at_ b1 (x p), at_ b2 (x p)), (at_ v1 (x p), at_ v2 (x p)))) /\
  ((exists p, valid p fr) -> (forall p, valid p fr -> exists v, one p = Ok v) -> exists y, r = Ok y).
Definition iter_results (K : Fld) (V : CMon) (fr k : list nat) (x : list nat -> list nat) (one : list nat -> res (cdata K V * (Cx K * Cx K) * (K * K))) (r : res (ndata K V * (nd (Cx K) * nd (Cx K)) * (nd K * nd K))) : Prop :=
  (forall d b1 b2 v1 v2, r = Ok (d, (b1, b2), (v1, v2)) ->
     (exists m, all_shaped d (fr ++ [m])) /\ (shape b1 = k /\ shape b2 = k /\ shape v1 = k /\ shape v2 = k) /\
     forall p, valid p fr -> one p = Ok (pix d p, (at_ b1 (x p), at_ b2 (x p)), (at_ v1 (x p), at_ v2 (x p)))) /\
  ((exists p, valid p fr) -> (forall p, valid p fr -> exists v, one p = Ok v) -> exists y, r = Ok y).
Definition iter_auto_results (K : Fld) (V : CMon) (fr k : list nat) (x : list nat -> list nat) (one : list nat -> res (cdata K V * Cx K * K)) (r : res (ndata K V * nd (Cx K) * nd K)) : Prop :=
  (forall d b v, r = Ok (d, b, v) ->
     (exists m, all_shaped d (fr ++ [m])) /\ (shape b = k /\ shape v = k) /\ forall p, valid p fr -> one p = Ok (pix d p, at_ b (x p), at_ v (x p))) /\
  ((exists p, valid p fr) -> (forall p, valid p fr -> exists v, one p = Ok v) -> exists y, r = Ok y).
(** With a mask: the pixels of the mask are what [one] gives for them, all others are filled with np.nan. *)
Definition stream_masked (K : Fld) (V : CMon) (nanv : V) (nank : K) (nanc : Cx K) (mask : nd bool) (one : list nat -> res (yielded K V)) (r : res (oyielded K V)) : Prop :=
  let s := shape mask in
  (forall fast slow b1 b2 v1 v2, r = Ok ((fast, slow), (b1, b2), (v1, v2)) ->
     (exists m, all_shaped fast (s ++ [m])) /\ (exists L m, all_shaped slow (L :: s ++ [m])) /\ (shape b1 = s /\ shape b2 = s /\ shape v1 = s /\ shape v2 = s) /\
     (forall p, valid p s -> at_ mask p = true -> one p = Ok ((pix fast p, levels_at slow p), (at_ b1 p, at_ b2 p), (at_ v1 p, at_ v2 p))) /\
     (forall p, valid p s -> at_ mask p = false -> blank nanv nank nanc (pix fast p) /\ Forall (blank nanv nank nanc) (levels_at slow p) /\ at_ b1 p = nanc /\ at_ b2 p = nanc /\ at_ v1 p = nank /\ at_ v2 p = nank)) /\
  ((exists p, valid p s /\ at_ mask p = true) -> (forall p, valid p s -> at_ mask p = true -> exists v, one p = Ok v) -> exists y, r = Ok y).
Definition iter_masked (K : Fld) (V : CMon) (nanv : V) (nank : K) (nanc : Cx K) (mask : nd bool) (one : list nat -> res (cdata K V * (Cx K * Cx K) * (K * K))) (r : res (ndata K V * (nd (Cx K) * nd (Cx K)) * (nd K * nd K))) : Prop :=
  let s := shape mask in
  (forall d b1 b2 v1 v2, r = Ok (d, (b1, b2), (v1, v2)) ->
     (exists m, all_shaped d (s ++ [m])) /\ (shape b1 = s /\ shape b2 = s /\ shape v1 = s /\ shape v2 = s) /\
     (forall p, valid p s -> at_ mask p = true -> one p = Ok (pix d p, (at_ b1 p, at_ b2 p), (at_ v1 p, at_ v2 p))) /\
     (forall p, valid p s -> at_ mask p = false -> blank nanv nank nanc (pix d p) /\ at_ b1 p = nanc /\ at_ b2 p = nanc /\ at_ v1 p = nank /\ at_ v2 p = nank)) /\
  ((exists p, valid p s /\ at_ mask p = true) -> (forall p, valid p s -> at_ mask p = true -> exists v, one p = Ok v) -> exists y, r = Ok y).
Definition iter_auto_masked (K : Fld) (V : CMon) (nanv : V) (nank : K) (nanc : Cx K) (mask : nd bool) (one : list nat -> res (cdata K V * Cx K * K)) (r : res (ndata K V * nd (Cx K) * nd K)) : Prop :=
  let s := shape mask in
  (forall d b v, r = Ok (d, b, v) ->
     (exists m, all_shaped d (s ++ [m])) /\ (shape b = s /\ shape v = s) /\
     (forall p, valid p s -> at_ mask p = true -> one p = Ok (pix d p, at_ b p, at_ v p)) /\
     (forall p, valid p s -> at_ mask p = false -> blank nanv nank nanc (pix d p) /\ at_ b p = nanc /\ at_ v p = nank)) /\
  ((exists p, valid p s /\ at_ mask p = true) -> (forall p, valid p s -> at_ mask p = true -> exists v, one p = Ok v) -> exists y, r = Ok y).

(** The random choices of a pixel are those of all the pixels. *)
Definition same_choices (K : Fld) (w : nworld K) (ws : list nat -> world K) : Prop := forall p, w_rs (ws p) = nw_rs w /\ w_rs_bg (ws p) = nw_rs_bg w /\ w_rs_tail (ws p) = nw_rs_tail w.
Definition all_shapes (A : Type) (k : list nat) (frames : list (nd A * nd A)) : Prop := Forall (fun x => shape (fst x) = k /\ shape (snd x) = k) frames.

Lemma bind_assoc A B D (a : res A) (f : A -> res B) (g : B -> res D) : bind a (fun x => bind (f x) g) = bind (bind a f) g.
Proof. destruct a; reflexivity. Qed.
Lemma bind_same A B (a a' : res A) (f f' : A -> res B) : a = a' -> (forall x, f x = f' x) -> bind a f = bind a' f'.
Proof. intros -> E. destruct a'; cbn [bind]; [apply E|reflexivity]. Qed.
Lemma pw_results K (V : CMon) fr k x (one one' : list nat -> res (yielded K V)) r : (forall p, valid p fr -> one p = one' p) -> pixelwise fr (oyield x) (oshaped fr k) one' r -> stream_results fr k x one r.
Proof.
  intros E H. split.
  - intros fast slow b1 b2 v1 v2 ->. destruct H as (((H1 & H2) & H3) & H). split; [exact H1|]. split; [exact H2|]. split; [exact H3|]. intros p Hp. rewrite (E p Hp). exact (H p Hp).
  - intros Ex Al. destruct r as [y|e]; [exists y; reflexivity|]. destruct (H Ex). intros p Hp. rewrite <- (E p Hp). apply Al. exact Hp.
Qed.
Definition cut (K : Fld) (V : CMon) (y : yielded K V) : cdata K V * (Cx K * Cx K) * (K * K) := let '((fast, _), b, v) := y in (fast, b, v).
Definition cut_nd (K : Fld) (V : CMon) (y : oyielded K V) : ndata K V * (nd (Cx K) * nd (Cx K)) * (nd K * nd K) := let '((fast, _), b, v) := y in (fast, b, v).
Definition cut1 (K : Fld) (V : CMon) (y : yielded K V) : cdata K V * Cx K * K := let '((fast, _), b, v) := y in (fast, fst b, fst v).
Definition cut1_nd (K : Fld) (V : CMon) (y : oyielded K V) : ndata K V * nd (Cx K) * nd K := let '((fast, _), b, v) := y in (fast, fst b, fst v).
Lemma pw_iter K (V : CMon) fr k x (one : list nat -> res (cdata K V * (Cx K * Cx K) * (K * K))) (one' : list nat -> res (yielded K V)) r r' :
  (forall p, valid p fr -> one p = let* y := one' p in Ok (cut y)) -> r = (let* y := r' in Ok (cut_nd y)) -> pixelwise fr (oyield x) (oshaped fr k) one' r' -> iter_results V fr k x one r.
Proof.
  intros E -> H. split.
  - intros d b1 b2 v1 v2 ER. destruct r' as [[[[fast slow] [c1 c2]] [u1 u2]]|e]; [|discriminate]. cbn [bind cut_nd] in ER. apply ok_same in ER. injection ER as -> -> -> -> ->. destruct H as (((H1 & H2) & H3) & H). split; [exact H1|]. split; [exact H3|]. intros p Hp. rewrite (E p Hp), (H p Hp). reflexivity.
  - intros Ex Al. destruct r' as [y|e]; [exists (cut_nd y); reflexivity|]. destruct (H Ex). intros p Hp. destruct (Al p Hp) as (v & Ev). rewrite (E p Hp) in Ev. destruct (one' p) as [y|]; [exists y; reflexivity|discriminate].
Qed.
Lemma pw_iter_auto K (V : CMon) fr k x (one : list nat -> res (cdata K V * Cx K * K)) (one' : list nat -> res (yielded K V)) r r' :
  (forall p, valid p fr -> one p = let* y := one' p in Ok (cut1 y)) -> r = (let* y := r' in Ok (cut1_nd y)) -> pixelwise fr (oyield x) (oshaped fr k) one' r' -> iter_auto_results V fr k x one r.
Proof.
  intros E -> H. split.
  - intros d b v ER. destruct r' as [[[[fast slow] [c1 c2]] [u1 u2]]|e]; [|discriminate]. cbn [bind cut1_nd fst] in ER. apply ok_same in ER. injection ER as -> -> ->. destruct H as (((H1 & H2) & (H3 & _ & H4 & _)) & H). split; [exact H1|]. split; [split; assumption|]. intros p Hp. rewrite (E p Hp), (H p Hp). reflexivity.
  - intros Ex Al. destruct r' as [y|e]; [exists (cut1_nd y); reflexivity|]. destruct (H Ex). intros p Hp. destruct (Al p Hp) as (v & Ev). rewrite (E p Hp) in Ev. destruct (one' p) as [y|]; [exists y; reflexivity|discriminate].
Qed.
Lemma pw_masked K (V : CMon) nanv nank nanc mask (one : list nat -> res (yielded K V)) (one' : list nat -> res (yielded K V)) r :
  (forall p, valid p [length (positions mask)] -> one (nth (hd 0 p) (positions mask) []) = one' p) ->
  pixelwise [length (positions mask)] (fun d p => oyield (fun q => q) d (nth (hd 0 p) (positions mask) [])) (blank_out nanv nank nanc mask) one' r -> stream_masked nanv nank nanc mask one r.
Proof.
  intros E H. split.
  - intros fast slow b1 b2 v1 v2 ->. destruct H as ((((H1 & H2) & H3) & H4 & H5) & H). split; [exact H1|]. split; [exact H2|]. split; [exact H4|]. split.
    + intros p Hp Hm. destruct (masked_place (Logic.conj Hp Hm)) as (i & Hi & <-). assert (Vi : valid [i] [length (positions mask)]) by (constructor; [exact Hi|constructor]). rewrite (E [i] Vi : one (nth i (positions mask) []) = one' [i]). exact (H [i] Vi).
    + intros p Hp Hm. destruct (H3 p Hp Hm) as (B1 & B2). split; [exact B1|]. split; [exact B2|]. exact (H5 p Hm).
  - intros (p & Hp & Hm) Al. destruct r as [y|e]; [exists y; reflexivity|]. destruct (masked_place (Logic.conj Hp Hm)) as (i & Hi & _). destruct H; [exists [i]; constructor; [exact Hi|constructor]|].
    intros q Hq. destruct (valid_line Hq) as (j & -> & Hj). rewrite <- (E [j] Hq). cbn [hd]. destruct (place_masked _ Hj) as (V1 & V2). apply Al; assumption.
Qed.
Lemma masked_iter K (V : CMon) nanv nank nanc mask (one : list nat -> res (cdata K V * (Cx K * Cx K) * (K * K))) (one' : list nat -> res (yielded K V)) r r' :
  (forall p, one p = let* y := one' p in Ok (cut y)) -> r = (let* y := r' in Ok (cut_nd y)) -> stream_masked nanv nank nanc mask one' r' -> iter_masked V nanv nank nanc mask one r.
Proof.
  intros E -> (H1 & H2). split.
  - intros d b1 b2 v1 v2 ER. destruct r' as [[[[fast slow] [c1 c2]] [u1 u2]]|e]; [|discriminate]. cbn [bind cut_nd] in ER. apply ok_same in ER. injection ER as -> -> -> -> ->. destruct (H1 _ _ _ _ _ _ eq_refl) as (S1 & _ & S3 & P & B).
    split; [exact S1|]. split; [exact S3|]. split; [intros p Hp Hm; rewrite E, (P p Hp Hm); reflexivity|]. intros p Hp Hm. destruct (B p Hp Hm) as (B1 & _ & B2). split; [exact B1|exact B2].
  - intros Ex Al. destruct H2 as (y & ->); [exact Ex| |exists (cut_nd y); reflexivity]. intros p Hp Hm. destruct (Al p Hp Hm) as (v & Ev). rewrite E in Ev. destruct (one' p) as [y|]; [exists y; reflexivity|discriminate].
Qed.
Lemma masked_iter_auto K (V : CMon) nanv nank nanc mask (one : list nat -> res (cdata K V * Cx K * K)) (one' : list nat -> res (yielded K V)) r r' :
  (forall p, one p = let* y := one' p in Ok (cut1 y)) -> r = (let* y := r' in Ok (cut1_nd y)) -> stream_masked nanv nank nanc mask one' r' -> iter_auto_masked V nanv nank nanc mask one r.
Proof.
  intros E -> (H1 & H2). split.
  - intros d b v ER. destruct r' as [[[[fast slow] [c1 c2]] [u1 u2]]|e]; [|discriminate]. cbn [bind cut1_nd fst] in ER. apply ok_same in ER. injection ER as -> -> ->. destruct (H1 _ _ _ _ _ _ eq_refl) as (S1 & _ & (S3 & _ & S4 & _) & P & B).
    split; [exact S1|]. split; [split; assumption|]. split; [intros p Hp Hm; rewrite E, (P p Hp Hm); reflexivity|]. intros p Hp Hm. destruct (B p Hp Hm) as (B1 & _ & B2 & _ & B3 & _). auto.
  - intros Ex Al. destruct H2 as (y & ->); [exact Ex| |exists (cut1_nd y); reflexivity]. intros p Hp Hm. destruct (Al p Hp Hm) as (v & Ev). rewrite E in Ev. destruct (one' p) as [y|]; [exists y; reflexivity|discriminate].
Qed.

Lemma pw_view fr X Y (proj proj' : X -> list nat -> Y) good one r : (forall z p, valid p fr -> proj' z p = proj z p) -> pixelwise fr proj good one r -> pixelwise fr proj' good one r.
Proof. intros E H. destruct r as [z|e]; [|exact H]. destruct H as (G & H). split; [exact G|]. intros p Hp. rewrite (E z p Hp). exact (H p Hp). Qed.
Section Streams.
  Variable K : Fld.
  Notation C := (Cx K).
  Variable W : nat -> C.
  Variable w : nworld K.
  Variables (nank : K) (nanc : C).
  Variables (level_size n : option nat) (norm : option Z) (method : option string) (count len : option nat) (period : nat) (binning nlevel : option Z) (chunk_size : option nat) (auto_background : bool) (mode : string) (stats : bool).
  (** The values of the pixel [p] *)
  Notation two p frames := (map (fun x : nd C * nd C => (at_ (fst x) p, at_ (snd x) p)) frames) (only parsing).
  Notation one p frames := (map (fun x : nd C => at_ x p) frames) (only parsing).
  Notation cross1 w p frames t1 t2 := (iccorr_multi W w (two p frames) t1 t2 level_size norm method count len period binning nlevel chunk_size auto_background mode stats) (only parsing).
  Notation complex1 w p frames t1 t2 := (iccorr_multi_complex W w (two p frames) t1 t2 level_size norm method count len period binning nlevel chunk_size auto_background mode stats) (only parsing).
  Notation auto1 w p frames t := (iacorr_multi W w (one p frames) t level_size norm method count len period binning nlevel chunk_size auto_background mode stats) (only parsing).
  Notation cross frames t1 t2 divisor mask := (iccorr_multi_nd W w nank nanc frames t1 t2 level_size norm method count len period binning nlevel chunk_size auto_background mode stats divisor mask) (only parsing).
  Notation complex frames t1 t2 divisor mask := (iccorr_multi_complex_nd W w nank nanc frames t1 t2 level_size norm method count len period binning nlevel chunk_size auto_background mode stats divisor mask) (only parsing).
  Notation auto frames t divisor mask := (iacorr_multi_nd W w nank nanc frames t level_size norm method count len period binning nlevel chunk_size auto_background mode stats divisor mask) (only parsing).

  Lemma real_auto : forall s, false = false -> false = false /\ @ac_pixels K (fmon K) false (ac_real W w) (acorr W) (choice w s) s.
  Proof. intros s _. split; [reflexivity|]. apply ac_real_pixels. Qed.
  Lemma cross_lay fr s k divisor mask phi xi view good frames t1 t2 : @layout K (fmon K) nank nank nanc true fr s k divisor mask phi xi view good frames ->
    pixelwise fr view good (fun q => cross1 (world_at w s (phi q)) (xi q) frames t1 t2) (cross frames t1 t2 divisor mask).
  Proof.
    intros H. unfold iccorr_multi_nd, iccorr_multi, iccorr_multi_gen_nd, iccorr_multi_gen. destruct (xorb _ _); [apply pw_raise; intros; eexists; reflexivity|].
    refine (@multi_pixels K w (fmon K) false nank nank nanc (cc_real W w) (ac_real W w) (ccorr W) (acorr W) fr s k (@cc_real_pixels K W w s) divisor mask phi xi view good true frames t1 t2 period level_size chunk_size binning method count len auto_background nlevel norm stats mode _ H). discriminate.
  Qed.
  Lemma complex_lay fr s k divisor mask phi xi view good frames t1 t2 : @layout K (cmon K) nanc nank nanc true fr s k divisor mask phi xi view good frames ->
    pixelwise fr view good (fun q => complex1 (world_at w s (phi q)) (xi q) frames t1 t2) (complex frames t1 t2 divisor mask).
  Proof.
    intros H. unfold iccorr_multi_complex_nd, iccorr_multi_complex, iccorr_multi_gen_nd, iccorr_multi_gen. destruct (xorb _ _); [apply pw_raise; intros; eexists; reflexivity|].
    refine (@multi_pixels K w (cmon K) true nanc nank nanc (cc_complex W w) (@ac_none K) (ccorr_complex W) (acorr_complex W) fr s k (@cc_complex_pixels K W w s) divisor mask phi xi view good true frames t1 t2 period level_size chunk_size binning method count len auto_background nlevel norm stats mode _ H). discriminate.
  Qed.
  Lemma one_frames p (frames : list (nd C)) : map (fun x => (x, c0 K)) (one p frames) = map (pixel_of false p) (map (fun x => (x, x)) frames).
  Proof. rewrite !map_map. reflexivity. Qed.
  Lemma auto_lay fr s k divisor mask phi xi view good frames t : @layout K (fmon K) nank nank nanc false fr s k divisor mask phi xi view good (map (fun x => (x, x)) frames) ->
    pixelwise fr view good (fun q => auto1 (world_at w s (phi q)) (xi q) frames t) (auto frames t divisor mask).
  Proof.
    intros H. unfold iacorr_multi_nd, iacorr_multi, iacorr_multi_gen_nd, iacorr_multi_gen. eapply pw_ext; [intros q _; rewrite one_frames; reflexivity|].
    exact (@multi_pixels K w (fmon K) false nank nank nanc (cc_real W w) (ac_real W w) (ccorr W) (acorr W) fr s k (@cc_real_pixels K W w s) divisor mask phi xi view good false (map (fun x => (x, x)) frames) t None period level_size chunk_size binning method count len auto_background nlevel norm stats mode (real_auto s) H).
  Qed.
  Notation icross1 w p frames t1 t2 := (iccorr W w (two p frames) t1 t2 n norm method count len chunk_size auto_background mode stats) (only parsing).
  Notation icomplex1 w p frames t1 t2 := (iccorr_complex W w (two p frames) t1 t2 n norm method count len chunk_size auto_background mode stats) (only parsing).
  Notation iauto1 w p frames t := (iacorr W w (one p frames) t n norm method count len chunk_size auto_background mode stats) (only parsing).
  Notation icross frames t1 t2 divisor mask := (iccorr_nd W w nank nanc frames t1 t2 n norm method count len chunk_size auto_background mode stats divisor mask) (only parsing).
  Notation icomplex frames t1 t2 divisor mask := (iccorr_complex_nd W w nank nanc frames t1 t2 n norm method count len chunk_size auto_background mode stats divisor mask) (only parsing).
  Notation iauto frames t divisor mask := (iacorr_nd W w nank nanc frames t n norm method count len chunk_size auto_background mode stats divisor mask) (only parsing).
  Lemma icross_lay fr s k divisor mask phi xi x frames t1 t2 : @layout K (fmon K) nank nank nanc true fr s k divisor mask phi xi (oyield x) (oshaped fr k) frames ->
    iter_results (fmon K) fr k x (fun q => icross1 (world_at w s (phi q)) (xi q) frames t1 t2) (icross frames t1 t2 divisor mask).
  Proof.
    intros H. unfold iccorr_nd, iccorr, iccorr_gen_nd, iccorr_gen. destruct (xorb _ _); [split; [discriminate|]; intros (p & Hp) Al; destruct (Al p Hp); discriminate|].
    destruct (_default_norm norm _ true) as [nm|e]; cbn [bind]; [|split; [discriminate|]; intros (p & Hp) Al; destruct (Al p Hp); discriminate].
    eapply pw_iter; [| |refine (@multi_pixels K w (fmon K) false nank nank nanc (cc_real W w) (ac_real W w) (ccorr W) (acorr W) fr s k (@cc_real_pixels K W w s) divisor mask phi xi (oyield x) (oshaped fr k) true frames t1 t2 1 n chunk_size None method count len auto_background (Some 0%Z) (Some nm) stats mode _ H); discriminate].
    - intros p Hp. cbv beta. rewrite <- bind_assoc. apply bind_same; [reflexivity|]. intros ys. match goal with |- bind ?l _ = _ => destruct l as [[[[fast slow] b] v]|] end; reflexivity.
    - rewrite <- bind_assoc. apply bind_same; [reflexivity|]. intros ys. match goal with |- bind ?l _ = _ => destruct l as [[[[fast slow] b] v]|] end; reflexivity.
  Qed.
  Lemma icomplex_lay fr s k divisor mask phi xi x frames t1 t2 : @layout K (cmon K) nanc nank nanc true fr s k divisor mask phi xi (oyield x) (oshaped fr k) frames ->
    iter_results (cmon K) fr k x (fun q => icomplex1 (world_at w s (phi q)) (xi q) frames t1 t2) (icomplex frames t1 t2 divisor mask).
  Proof.
    intros H. unfold iccorr_complex_nd, iccorr_complex, iccorr_gen_nd, iccorr_gen. destruct (xorb _ _); [split; [discriminate|]; intros (p & Hp) Al; destruct (Al p Hp); discriminate|].
    destruct (_default_norm norm _ true) as [nm|e]; cbn [bind]; [|split; [discriminate|]; intros (p & Hp) Al; destruct (Al p Hp); discriminate].
    eapply pw_iter; [| |refine (@multi_pixels K w (cmon K) true nanc nank nanc (cc_complex W w) (@ac_none K) (ccorr_complex W) (acorr_complex W) fr s k (@cc_complex_pixels K W w s) divisor mask phi xi (oyield x) (oshaped fr k) true frames t1 t2 1 n chunk_size None method count len auto_background (Some 0%Z) (Some nm) stats mode _ H); discriminate].
    - intros p Hp. cbv beta. rewrite <- bind_assoc. apply bind_same; [reflexivity|]. intros ys. match goal with |- bind ?l _ = _ => destruct l as [[[[fast slow] b] v]|] end; reflexivity.
    - rewrite <- bind_assoc. apply bind_same; [reflexivity|]. intros ys. match goal with |- bind ?l _ = _ => destruct l as [[[[fast slow] b] v]|] end; reflexivity.
  Qed.
  Lemma iauto_lay fr s k divisor mask phi xi x frames t : @layout K (fmon K) nank nank nanc false fr s k divisor mask phi xi (oyield x) (oshaped fr k) (map (fun x => (x, x)) frames) ->
    iter_auto_results (fmon K) fr k x (fun q => iauto1 (world_at w s (phi q)) (xi q) frames t) (iauto frames t divisor mask).
  Proof.
    intros H. unfold iacorr_nd, iacorr, iacorr_gen_nd, iacorr_gen.
    destruct (_default_norm norm _ false) as [nm|e]; cbn [bind]; [|split; [discriminate|]; intros (p & Hp) Al; destruct (Al p Hp); discriminate].
    eapply pw_iter_auto; [| |exact (@multi_pixels K w (fmon K) false nank nank nanc (cc_real W w) (ac_real W w) (ccorr W) (acorr W) fr s k (@cc_real_pixels K W w s) divisor mask phi xi (oyield x) (oshaped fr k) false (map (fun x => (x, x)) frames) t None 1 n chunk_size None method count len auto_background (Some 0%Z) (Some nm) stats mode (real_auto s) H)].
    - intros p Hp. cbv beta. rewrite one_frames, <- bind_assoc. apply bind_same; [reflexivity|]. intros ys. match goal with |- bind ?l _ = _ => destruct l as [[[[fast slow] b] v]|] end; reflexivity.
    - rewrite <- bind_assoc. apply bind_same; [reflexivity|]. intros ys. match goal with |- bind ?l _ = _ => destruct l as [[[[fast slow] b] v]|] end; reflexivity.
  Qed.
  Lemma plain V nanv cross axis a divisor k s fr xi (frames : list (nd C * nd C)) : frames_ok axis a divisor k s /\ out_frame k s = fr -> (forall p, valid p fr -> unravel k fr p = xi p) -> all_shapes k frames ->
    @layout K V nanv nank nanc cross fr s k divisor None (unravel s fr) xi (oyield xi) (oshaped fr k) frames.
  Proof.
    intros ((H1 & H2 & _ & _ & H3 & _ & H4) & E) HX HF. assert (L : @layout K V nanv nank nanc cross fr s k divisor None (unravel s fr) (unravel k fr) (oyield (unravel k fr)) (oshaped fr k) frames).
    { rewrite <- E in *. apply plain_layout; try assumption. eapply Forall_impl; [|exact HF]. intros y (E1 & E2). auto. }
    destruct L as (L1 & L2 & (ys & L3 & L4) & L5 & L6 & L7). split; [exact L1|]. split; [exact L2|]. split; [exists ys; split; [exact L3|]; intros q Hq; rewrite (L4 q Hq), (HX q Hq); reflexivity|]. split; [exact L5|]. split; [exact L6|].
    intros cor nm mf L ms l Hl. destruct (L7 cor nm mf L ms l Hl) as (zs & Z1 & Z2 & Z3). exists zs. split; [exact Z1|]. split; [exact Z2|]. intros q Hq. rewrite (Z3 q Hq). apply map_ext. intros [[[g h] [c d]] [u v]]. cbn [oyield]. rewrite (HX q Hq). reflexivity.
  Qed.
  Lemma twice k (frames : list (nd C)) : Forall (fun x => shape x = k) frames -> all_shapes k (map (fun x => (x, x)) frames).
  Proof. intros H. apply Forall_map. eapply Forall_impl; [|exact H]. auto. Qed.

  Lemma always_same s (phi : list nat -> list nat) : same_choices w (fun p => world_at w s (phi p)).
  Proof. repeat split. Qed.
  Lemma id_pixels k : forall p, valid p k -> unravel k k p = (fun p => p) p.
  Proof. intros p Hp. exact (unravel_id Hp). Qed.
  Lemma line_pixels P : forall p, valid p [1; P] -> unravel [P] [1; P] p = tl p.
  Proof. intros p Hp. inversion Hp as [|x ? q ? Hx Hq]; subst. cbn [tl]. assert (x = 0) by lia. subst x. apply unravel_one. exact Hq. Qed.

  (** Frames that do not have exactly one axis: every pixel is the stream of its own values. *)
  Theorem C97_multi frames k t1 t2 : length k <> 1 -> all_shapes k frames ->
    exists ws, same_choices w ws /\ stream_results k k (fun p => p) (fun p => cross1 (ws p) p frames t1 t2) (cross frames t1 t2 None None) /\
      stream_results k k (fun p => p) (fun p => complex1 (ws p) p frames t1 t2) (complex frames t1 t2 None None).
  Proof.
    intros Hk HF. pose proof (@frames_same 0%Z 0 k Hk (Nat.le_0_l _)) as F. exists (fun p => world_at w k (unravel k k p)). split; [apply always_same|].
    split; (eapply pw_results; [intros p _; reflexivity|]); [eapply cross_lay; (eapply plain; [exact F|apply (@id_pixels k)|exact HF])|eapply complex_lay; (eapply plain; [exact F|apply (@id_pixels k)|exact HF])].
  Qed.
  Theorem C97_multi_auto frames k t : length k <> 1 -> Forall (fun x => shape x = k) frames ->
    exists ws, same_choices w ws /\ stream_results k k (fun p => p) (fun p => auto1 (ws p) p frames t) (auto frames t None None).
  Proof.
    intros Hk HF. pose proof (@frames_same 0%Z 0 k Hk (Nat.le_0_l _)) as F. exists (fun p => world_at w k (unravel k k p)). split; [apply always_same|].
    eapply pw_results; [intros p _; reflexivity|]. eapply auto_lay. (eapply plain; [exact F|apply (@id_pixels k)|exact (twice HF)]).
  Qed.
  (** The same without levels *)
  Theorem C97_iter frames k t1 t2 : length k <> 1 -> all_shapes k frames ->
    exists ws, same_choices w ws /\ iter_results (fmon K) k k (fun p => p) (fun p => icross1 (ws p) p frames t1 t2) (icross frames t1 t2 None None) /\
      iter_results (cmon K) k k (fun p => p) (fun p => icomplex1 (ws p) p frames t1 t2) (icomplex frames t1 t2 None None).
  Proof.
    intros Hk HF. pose proof (@frames_same 0%Z 0 k Hk (Nat.le_0_l _)) as F. exists (fun p => world_at w k (unravel k k p)). split; [apply always_same|].
    split; [eapply icross_lay|eapply icomplex_lay]; (eapply plain; [exact F|apply (@id_pixels k)|exact HF]).
  Qed.
  Theorem C97_iter_auto frames k t : length k <> 1 -> Forall (fun x => shape x = k) frames ->
    exists ws, same_choices w ws /\ iter_auto_results (fmon K) k k (fun p => p) (fun p => iauto1 (ws p) p frames t) (iauto frames t None None).
  Proof.
    intros Hk HF. pose proof (@frames_same 0%Z 0 k Hk (Nat.le_0_l _)) as F. exists (fun p => world_at w k (unravel k k p)). split; [apply always_same|].
    eapply iauto_lay. (eapply plain; [exact F|apply (@id_pixels k)|exact (twice HF)]).
  Qed.
  (** A divisor of the number of pixels of frames with two axes changes nothing. *)
  Theorem C97_divisor frames t1 t2 h v d t : d <> 0 -> d * t = h * v -> all_shapes [h; v] frames ->
    exists ws, same_choices w ws /\ stream_results [h; v] [h; v] (fun p => p) (fun p => cross1 (ws p) p frames t1 t2) (cross frames t1 t2 (Some (Z.of_nat d)) None) /\
      stream_results [h; v] [h; v] (fun p => p) (fun p => complex1 (ws p) p frames t1 t2) (complex frames t1 t2 (Some (Z.of_nat d)) None) /\
      iter_results (fmon K) [h; v] [h; v] (fun p => p) (fun p => icross1 (ws p) p frames t1 t2) (icross frames t1 t2 (Some (Z.of_nat d)) None) /\
      iter_results (cmon K) [h; v] [h; v] (fun p => p) (fun p => icomplex1 (ws p) p frames t1 t2) (icomplex frames t1 t2 (Some (Z.of_nat d)) None).
  Proof.
    intros Hd Hdt HF. pose proof (@frames_divided 0%Z h v d t Hd Hdt) as F. exists (fun p => world_at w [d; t] (unravel [d; t] [h; v] p)). split; [apply always_same|].
    split; [|split; [|split]]; try (eapply pw_results; [intros p _; reflexivity|]); [eapply cross_lay|eapply complex_lay|eapply icross_lay|eapply icomplex_lay]; (eapply plain; [exact F|apply (@id_pixels [h; v])|exact HF]).
  Qed.
  Theorem C97_divisor_auto frames t1 h v d t : d <> 0 -> d * t = h * v -> Forall (fun x => shape x = [h; v]) frames ->
    exists ws, same_choices w ws /\ stream_results [h; v] [h; v] (fun p => p) (fun p => auto1 (ws p) p frames t1) (auto frames t1 (Some (Z.of_nat d)) None) /\
      iter_auto_results (fmon K) [h; v] [h; v] (fun p => p) (fun p => iauto1 (ws p) p frames t1) (iauto frames t1 (Some (Z.of_nat d)) None).
  Proof.
    intros Hd Hdt HF. pose proof (@frames_divided 0%Z h v d t Hd Hdt) as F. exists (fun p => world_at w [d; t] (unravel [d; t] [h; v] p)). split; [apply always_same|].
    split; try (eapply pw_results; [intros p _; reflexivity|]); [eapply auto_lay|eapply iauto_lay]; (eapply plain; [exact F|apply (@id_pixels [h; v])|exact (twice HF)]).
  Qed.
  (** Frames with one axis: the right data, behind an additional axis of length one; the means and variances without it. *)
  Theorem C97_one_axis frames t1 t2 P : all_shapes [P] frames ->
    exists ws, same_choices w ws /\ stream_results [1; P] [P] (@tl nat) (fun p => cross1 (ws p) (tl p) frames t1 t2) (cross frames t1 t2 None None) /\
      stream_results [1; P] [P] (@tl nat) (fun p => complex1 (ws p) (tl p) frames t1 t2) (complex frames t1 t2 None None) /\
      iter_results (fmon K) [1; P] [P] (@tl nat) (fun p => icross1 (ws p) (tl p) frames t1 t2) (icross frames t1 t2 None None) /\
      iter_results (cmon K) [1; P] [P] (@tl nat) (fun p => icomplex1 (ws p) (tl p) frames t1 t2) (icomplex frames t1 t2 None None).
  Proof.
    intros HF. pose proof (frames_line P) as F. exists (fun p => world_at w [1; P] (unravel [1; P] [1; P] p)). split; [apply always_same|].
    split; [|split; [|split]]; try (eapply pw_results; [intros p _; reflexivity|]); [eapply cross_lay|eapply complex_lay|eapply icross_lay|eapply icomplex_lay]; (eapply plain; [exact F|apply (@line_pixels P)|exact HF]).
  Qed.
  Theorem C97_one_axis_auto frames t P : Forall (fun x => shape x = [P]) frames ->
    exists ws, same_choices w ws /\ stream_results [1; P] [P] (@tl nat) (fun p => auto1 (ws p) (tl p) frames t) (auto frames t None None) /\
      iter_auto_results (fmon K) [1; P] [P] (@tl nat) (fun p => iauto1 (ws p) (tl p) frames t) (iauto frames t None None).
  Proof.
    intros HF. pose proof (frames_line P) as F. exists (fun p => world_at w [1; P] (unravel [1; P] [1; P] p)). split; [apply always_same|].
    split; try (eapply pw_results; [intros p _; reflexivity|]); [eapply auto_lay|eapply iauto_lay]; (eapply plain; [exact F|apply (@line_pixels P)|exact (twice HF)]).
  Qed.
  (** A mask with two axes *)
  Lemma masked_worlds (mask : nd bool) : exists ws, same_choices w ws /\ forall p, valid p [length (positions mask)] -> ws (nth (hd 0 p) (positions mask) []) = world_at w [length (positions mask)] p.
  Proof.
    exists (fun q => world_at w [length (positions mask)] [match place_in_mask q (positions mask) with Some i => i | None => 0 end]). split; [repeat split|]. intros p Hp. destruct (valid_line Hp) as (i & -> & Hi). cbn [hd]. rewrite place_found; [reflexivity|apply positions_nodup|exact Hi].
  Qed.
  Theorem C97_mask frames t1 t2 mask : rank mask = 2 -> all_shapes (shape mask) frames ->
    exists ws, same_choices w ws /\ stream_masked (V := fmon K) nank nank nanc mask (fun p => cross1 (ws p) p frames t1 t2) (cross frames t1 t2 None (Some mask)) /\
      stream_masked (V := cmon K) nanc nank nanc mask (fun p => complex1 (ws p) p frames t1 t2) (complex frames t1 t2 None (Some mask)).
  Proof.
    intros HR HF. destruct (masked_worlds mask) as (ws & HS & HW). exists ws. split; [exact HS|].
    assert (HF' : Forall (fun x : nd C * nd C => shape (fst x) = shape mask /\ (true = true -> shape (snd x) = shape mask)) frames) by (eapply Forall_impl; [|exact HF]; intros y (E1 & E2); auto).
    split; (eapply pw_masked; [intros p Hp; rewrite (HW p Hp); reflexivity|]).
    - pose proof (@masked_layout K (fmon K) nank nank nanc true mask frames HR HF') as L. cbv zeta in L. exact (@cross_lay _ _ _ _ _ _ _ _ _ _ t1 t2 L).
    - pose proof (@masked_layout K (cmon K) nanc nank nanc true mask frames HR HF') as L. cbv zeta in L. exact (@complex_lay _ _ _ _ _ _ _ _ _ _ t1 t2 L).
  Qed.
  Theorem C97_mask_auto frames t mask : rank mask = 2 -> Forall (fun x => shape x = shape mask) frames ->
    exists ws, same_choices w ws /\ stream_masked (V := fmon K) nank nank nanc mask (fun p => auto1 (ws p) p frames t) (auto frames t None (Some mask)).
  Proof.
    intros HR HF. destruct (masked_worlds mask) as (ws & HS & HW). exists ws. split; [exact HS|].
    assert (HF' : Forall (fun x : nd C * nd C => shape (fst x) = shape mask /\ (false = true -> shape (snd x) = shape mask)) (map (fun x => (x, x)) frames)) by (apply Forall_map; eapply Forall_impl; [|exact HF]; intros y E1; auto).
    eapply pw_masked; [intros p Hp; rewrite (HW p Hp); reflexivity|].
    pose proof (@masked_layout K (fmon K) nank nank nanc false mask _ HR HF') as L. cbv zeta in L. exact (@auto_lay _ _ _ _ _ _ _ _ _ frames t L).
  Qed.
  (** iccorr and iacorr with a mask *)
  Theorem C97_mask_iter frames t1 t2 mask : rank mask = 2 -> all_shapes (shape mask) frames ->
    exists ws, same_choices w ws /\ iter_masked (fmon K) nank nank nanc mask (fun p => icross1 (ws p) p frames t1 t2) (icross frames t1 t2 None (Some mask)) /\
      iter_masked (cmon K) nanc nank nanc mask (fun p => icomplex1 (ws p) p frames t1 t2) (icomplex frames t1 t2 None (Some mask)).
  Proof.
    intros HR HF. destruct (masked_worlds mask) as (ws & HS & HW). exists ws. split; [exact HS|].
    assert (HF' : Forall (fun x : nd C * nd C => shape (fst x) = shape mask /\ (true = true -> shape (snd x) = shape mask)) frames) by (eapply Forall_impl; [|exact HF]; intros y (E1 & E2); auto).
    split.
    - pose proof (@masked_layout K (fmon K) nank nank nanc true mask frames HR HF') as L. cbv zeta in L.
      unfold iccorr_nd, iccorr, iccorr_gen_nd, iccorr_gen. destruct (xorb _ _); [split; [discriminate|]; intros (p & Hp & Hm) Al; destruct (Al p Hp Hm); discriminate|].
      destruct (_default_norm norm _ true) as [nm|e]; cbn [bind]; [|split; [discriminate|]; intros (p & Hp & Hm) Al; destruct (Al p Hp Hm); discriminate].
      eapply masked_iter with (one' := fun p => let* ys := multi_iter (fmon K) false (ccorr W) (acorr W) (ws p) true (two p frames) t1 t2 1 n chunk_size None method count len auto_background (Some 0%Z) (Some nm) stats mode in last_yield ys).
      3: { eapply pw_masked; [|refine (@multi_pixels K w (fmon K) false nank nank nanc (cc_real W w) (ac_real W w) (ccorr W) (acorr W) _ _ _ (@cc_real_pixels K W w _) _ _ _ _ _ _ true frames t1 t2 1 n chunk_size None method count len auto_background (Some 0%Z) (Some nm) stats mode _ L); discriminate].
        intros p Hp. rewrite (HW p Hp). reflexivity. }
      + intros p. rewrite <- bind_assoc. apply bind_same; [reflexivity|]. intros ys. match goal with |- bind ?l _ = _ => destruct l as [[[[fast slow] b] v]|] end; reflexivity.
      + rewrite <- bind_assoc. apply bind_same; [reflexivity|]. intros ys. match goal with |- bind ?l _ = _ => destruct l as [[[[fast slow] b] v]|] end; reflexivity.
    - pose proof (@masked_layout K (cmon K) nanc nank nanc true mask frames HR HF') as L. cbv zeta in L.
      unfold iccorr_complex_nd, iccorr_complex, iccorr_gen_nd, iccorr_gen. destruct (xorb _ _); [split; [discriminate|]; intros (p & Hp & Hm) Al; destruct (Al p Hp Hm); discriminate|].
      destruct (_default_norm norm _ true) as [nm|e]; cbn [bind]; [|split; [discriminate|]; intros (p & Hp & Hm) Al; destruct (Al p Hp Hm); discriminate].
      eapply masked_iter with (one' := fun p => let* ys := multi_iter (cmon K) true (ccorr_complex W) (acorr_complex W) (ws p) true (two p frames) t1 t2 1 n chunk_size None method count len auto_background (Some 0%Z) (Some nm) stats mode in last_yield ys).
      3: { eapply pw_masked; [|refine (@multi_pixels K w (cmon K) true nanc nank nanc (cc_complex W w) (@ac_none K) (ccorr_complex W) (acorr_complex W) _ _ _ (@cc_complex_pixels K W w _) _ _ _ _ _ _ true frames t1 t2 1 n chunk_size None method count len auto_background (Some 0%Z) (Some nm) stats mode _ L); discriminate].
        intros p Hp. rewrite (HW p Hp). reflexivity. }
      + intros p. rewrite <- bind_assoc. apply bind_same; [reflexivity|]. intros ys. match goal with |- bind ?l _ = _ => destruct l as [[[[fast slow] b] v]|] end; reflexivity.
      + rewrite <- bind_assoc. apply bind_same; [reflexivity|]. intros ys. match goal with |- bind ?l _ = _ => destruct l as [[[[fast slow] b] v]|] end; reflexivity.
  Qed.
  Theorem C97_mask_iter_auto frames t mask : rank mask = 2 -> Forall (fun x => shape x = shape mask) frames ->
    exists ws, same_choices w ws /\ iter_auto_masked (fmon K) nank nank nanc mask (fun p => iauto1 (ws p) p frames t) (iauto frames t None (Some mask)).
  Proof.
    intros HR HF. destruct (masked_worlds mask) as (ws & HS & HW). exists ws. split; [exact HS|].
    assert (HF' : Forall (fun x : nd C * nd C => shape (fst x) = shape mask /\ (false = true -> shape (snd x) = shape mask)) (map (fun x => (x, x)) frames)) by (apply Forall_map; eapply Forall_impl; [|exact HF]; intros y E1; auto).
    pose proof (@masked_layout K (fmon K) nank nank nanc false mask _ HR HF') as L. cbv zeta in L.
    unfold iacorr_nd, iacorr, iacorr_gen_nd, iacorr_gen.
    destruct (_default_norm norm _ false) as [nm|e]; cbn [bind]; [|split; [discriminate|]; intros (p & Hp & Hm) Al; destruct (Al p Hp Hm); discriminate].
    eapply masked_iter_auto with (one' := fun p => let* ys := multi_iter (fmon K) false (ccorr W) (acorr W) (ws p) false (map (fun x => (x, c0 K)) (one p frames)) t None 1 n chunk_size None method count len auto_background (Some 0%Z) (Some nm) stats mode in last_yield ys).
    3: { eapply pw_masked; [|exact (@multi_pixels K w (fmon K) false nank nank nanc (cc_real W w) (ac_real W w) (ccorr W) (acorr W) _ _ _ (@cc_real_pixels K W w _) _ _ _ _ _ _ false (map (fun x => (x, x)) frames) t None 1 n chunk_size None method count len auto_background (Some 0%Z) (Some nm) stats mode (real_auto _) L)].
      intros p Hp. rewrite (HW p Hp), one_frames. reflexivity. }
    - intros p. rewrite <- bind_assoc. apply bind_same; [reflexivity|]. intros ys. match goal with |- bind ?l _ = _ => destruct l as [[[[fast slow] b] v]|] end; reflexivity.
    - rewrite <- bind_assoc. apply bind_same; [reflexivity|]. intros ys. match goal with |- bind ?l _ = _ => destruct l as [[[[fast slow] b] v]|] end; reflexivity.
  Qed.
End Streams.
Print Assumptions C97_multi.
Print Assumptions C97_multi_auto.
Print Assumptions C97_iter.
Print Assumptions C97_iter_auto.
Print Assumptions C97_divisor.
Print Assumptions C97_divisor_auto.
Print Assumptions C97_one_axis.
Print Assumptions C97_one_axis_auto.
Print Assumptions C97_mask.
Print Assumptions C97_mask_auto.
Print Assumptions C97_mask_iter.
Print Assumptions C97_mask_iter_auto.

(** At regular times the arrays of the stream are those that ccorr gives for the processed frames in memory, whatever the
    methods of storing them and the uninitialised memory; [f1] and [f2] are the arrays of the frames, time first. *)
Theorem C97_in_memory K (W : nat -> Cx K) w nank nanc n chunk_size count len method total h D m norm nm auto_background stats frames k :
  regular_args n chunk_size count len total h D -> method_arg method m -> (m = "fft" -> all_roots W) -> _default_norm norm m true = Ok nm -> h * 2 ^ D <= length frames ->
  length k <> 1 -> all_shapes k frames -> (exists p, valid p k) ->
  exists d b v, iccorr_nd W w nank nanc frames None None (Some n) norm method count len chunk_size auto_background "full" stats None None = Ok (d, b, v) /\
    (forall p, valid p k -> forall al, ccorr W al (stream_signal auto_background h (h * 2 ^ D) (map (fun x => at_ (fst x) p) frames)) (stream_signal auto_background h (h * 2 ^ D) (map (fun x => at_ (snd x) p) frames))
      None None (Some n) norm (Some m) None None None = Ok (pix d p)) /\
    forall f1 f2 contig contig' align, shape f1 = length frames :: k -> shape f2 = length frames :: k ->
      (forall t p x, nth_error frames t = Some x -> at_ f1 (t :: p) = at_ (fst x) p /\ at_ f2 (t :: p) = at_ (snd x) p) -> auto_background = false -> length frames = h * 2 ^ D ->
      exists d', ccorr_nd W contig' contig f1 f2 None None 0 (Some n) norm align (Some m) None None None = Ok d' /\ forall p, valid p k -> pix d' p = pix d p.
Proof.
  intros HA HM HW HN HL Hk HF Ex.
  destruct (@C97_iter K W w nank nanc (Some n) norm method count len chunk_size auto_background "full" stats frames k None None Hk HF) as (ws & _ & (R1 & R2) & _).
  assert (P : forall p, exists d b v, iccorr W (ws p) (map (fun x => (at_ (fst x) p, at_ (snd x) p)) frames) None None (Some n) norm method count len chunk_size auto_background "full" stats = Ok (d, b, v) /\
    forall al, ccorr W al (stream_signal auto_background h (h * 2 ^ D) (map (fun x => at_ (fst x) p) frames)) (stream_signal auto_background h (h * 2 ^ D) (map (fun x => at_ (snd x) p) frames)) None None (Some n) norm (Some m) None None None = Ok d).
  { intros p. destruct (@C32_regular K W (ws p) n chunk_size count len method total h D m norm nm auto_background stats (map (fun x => (at_ (fst x) p, at_ (snd x) p)) frames) HA HM HW HN) as (d & b & v & E & H); [rewrite map_length; exact HL|].
    exists d, b, v. split; [exact E|]. intros al. specialize (H al). rewrite !map_map in H. exact H. }
  destruct (R2 Ex) as ([[d [b1 b2]] [v1 v2]] & ER); [intros p _; destruct (P p) as (d & b & v & E & _); exists (d, b, v); exact E|].
  destruct (R1 _ _ _ _ _ ER) as (_ & _ & HP). exists d, (b1, b2), (v1, v2). split; [exact ER|].
  assert (HC : forall p, valid p k -> forall al, ccorr W al (stream_signal auto_background h (h * 2 ^ D) (map (fun x => at_ (fst x) p) frames)) (stream_signal auto_background h (h * 2 ^ D) (map (fun x => at_ (snd x) p) frames)) None None (Some n) norm (Some m) None None None = Ok (pix d p)).
  { intros p Hp al. destruct (P p) as (d0 & b & v & E & H). rewrite (HP p Hp) in E. apply ok_same in E. injection E as <- _ _. apply H. }
  split; [exact HC|]. intros f1 f2 contig contig' align S1 S2 HX Ha Hlen.
  assert (Ea : norm_axis (rank f1) 0 = Ok 0) by (unfold rank; rewrite S1; cbn [length]; unfold norm_axis; destruct (Z.leb_spec (- Z.of_nat (S (length k))) 0); [|lia]; destruct (Z.ltb_spec 0 (Z.of_nat (S (length k)))); [reflexivity|lia]).
  pose proof (@ccorr_pixels K W contig contig' f1 f2 None None 0 (Some n) norm align (Some m) None None None 0 Ea) as H. rewrite S1, S2 in H. specialize (H eq_refl ltac:(discriminate) ltac:(discriminate) ltac:(discriminate)). change (del 0 (length frames :: k)) with k in H.
  assert (SE : forall p, valid p k -> series f1 0 p = stream_signal auto_background h (h * 2 ^ D) (map (fun x => at_ (fst x) p) frames) /\ series f2 0 p = stream_signal auto_background h (h * 2 ^ D) (map (fun x => at_ (snd x) p) frames)).
  { intros p Hp. rewrite Ha. unfold stream_signal. rewrite <- Hlen, !firstn_all2 by (rewrite map_length; lia). unfold series. rewrite S1, S2. cbn [nth]. split; (apply nth_ext with (d := c0 K) (d' := c0 K); [rewrite !map_length, seq_length; reflexivity|]); intros t Ht; rewrite map_length, seq_length in Ht;
      (destruct (nth_error frames t) as [x|] eqn:En; [|apply nth_error_None in En; lia]); destruct (HX t p x En) as (X1 & X2).
    - rewrite (nth_indep _ (c0 K) (at_ f1 (ins 0 0 p))) by (rewrite map_length, seq_length; exact Ht). rewrite (map_nth (fun i => at_ f1 (ins 0 i p))), seq_nth by exact Ht. cbn [ins firstn skipn app Nat.add]. etransitivity; [exact X1|]. symmetry. apply nth_error_nth. apply (map_nth_error (fun x => at_ (fst x) p) _ _ En).
    - rewrite (nth_indep _ (c0 K) (at_ f2 (ins 0 0 p))) by (rewrite map_length, seq_length; exact Ht). rewrite (map_nth (fun i => at_ f2 (ins 0 i p))), seq_nth by exact Ht. cbn [ins firstn skipn app Nat.add]. etransitivity; [exact X2|]. symmetry. apply nth_error_nth. apply (map_nth_error (fun x => at_ (snd x) p) _ _ En). }
  destruct (ccorr_nd W contig' contig f1 f2 None None 0 (Some n) norm align (Some m) None None None) as [d'|e].
  - exists d'. split; [reflexivity|]. destruct H as (_ & H). intros p Hp. specialize (H p Hp). destruct (SE p Hp) as (E1 & E2). rewrite E1, E2 in H. cbn [option_map] in H. rewrite (HC p Hp) in H. apply ok_same in H. symmetry. exact H.
  - exfalso. apply (H Ex). intros p Hp. exists (pix d p). destruct (SE p Hp) as (E1 & E2). rewrite E1, E2. cbn [option_map]. apply HC. exact Hp.
Qed.
Print Assumptions C97_in_memory.

Definition zworld : nworld QcF := {|
  nw_contig := fun _ => true; nw_contig' := fun j => j =? 1; nw_rs := fun _ => false; nw_rs_bg := fun _ => true; nw_rs_tail := fun _ => false;
  nw_e1 := fun _ _ _ => cz 5 6; nw_e2 := fun _ _ _ => cz 7 8; nw_es1 := fun _ _ _ => q 9; nw_es2 := fun _ _ _ => q 10;
  nw_bg := (fun _ => cz 1 2, fun _ => cz 3 4); nw_var := (fun _ => q 5, fun _ => q 6) |}.
Definition zframe k t : nd (Cx QcF) := Nd [2; 2] (fun p => match p with [i; j] => yval k t i j | _ => c0 QcF end).
Definition zframes n := map (fun t => (zframe 1 t, zframe 2 t)) (seq 0 n).
Definition zline k t : nd (Cx QcF) := Nd [4] (fun p => match p with [i] => yval k t (i / 2) (i mod 2) | _ => c0 QcF end).
Definition zlines n := map (fun t => (zline 1 t, zline 2 t)) (seq 0 n).
Definition zcross frames divisor mask := iccorr_multi_nd nW zworld (q (-1)) (cz (-1) (-1)) frames None None (Some 2) (Some NORM_STANDARD) None (Some 8) None 1 None None (Some 4) false "full" true divisor mask.
Definition zshow (r : res (oyielded QcF (fmon QcF))) ps x :=
  match r with
  | Ok ((a, b), (b1, b2), (v1, v2)) => Some (first_shape a, first_shape b, shape b1, map (fun p => (hd (0, 0)%Z (show_cor (pix a p)), map (fun r => hd (0, 0)%Z (show_cor r)) (levels_at b p), showc (at_ b1 (x p)), show (at_ v2 (x p)))) ps)
  | Raise _ => None
  end.
Definition zerr (r : res (oyielded QcF (fmon QcF))) := match r with Ok _ => None | Raise e => Some e end.
(** The values of the pixel (1, 0) alone; the frames, the frames divided for threads, the frames as lines of pixels, the
    frames with a mask: first value of the data, of the levels, mean of the first and variance of the second stream *)
Example C97_example :
  let one := ((608, 1), [(599, 2); (1141, 8)], ((23, 4), (7, 2)), (371, 16))%Z in
  let nan := ((-1, 1), [(-1, 1); (-1, 1)], ((-1, 1), (-1, 1)), (-1, 1))%Z in
  all_shapes [2; 2] (zframes 8) /\ all_shapes [4] (zlines 8) /\ rank ymask = 2 /\ regular_args 2 (Some 4) (Some 8) None 8 4 1 /\
  match iccorr_multi nW s_world (map (fun x => (at_ (fst x) [1; 0], at_ (snd x) [1; 0])) (zframes 8)) None None (Some 2) (Some NORM_STANDARD) None (Some 8) None 1 None None (Some 4) false "full" true with
  | Ok ((a, b), (b1, b2), (v1, v2)) => (hd (0, 0)%Z (show_cor a), map (fun r => hd (0, 0)%Z (show_cor r)) b, showc b1, show v2)
  | Raise _ => nan
  end = one /\
  zshow (zcross (zframes 8) None None) [[1; 0]] (fun p => p) = Some ([2; 2; 2], [2; 2; 2; 2], [2; 2], [one]) /\
  zshow (zcross (zframes 8) (Some 4%Z) None) [[1; 0]] (fun p => p) = Some ([2; 2; 2], [2; 2; 2; 2], [2; 2], [one]) /\
  zshow (zcross (zlines 8) None None) [[0; 2]] (@tl nat) = Some ([1; 4; 2], [2; 1; 4; 2], [4], [one]) /\
  zshow (zcross (zframes 8) None (Some ymask)) [[0; 0]; [1; 0]] (fun p => p) = Some ([2; 2; 2], [2; 2; 2; 2], [2; 2], [nan; one]).
Proof.
  cbv zeta. split; [repeat constructor|]. split; [repeat constructor|]. split; [reflexivity|]. split; [repeat split; try (cbn; lia); auto|]. vm_compute. repeat split.
Qed.
(** Documented: "thread_divisor : int, optional. If specified, input frame is reshaped to 2D with first axis of length
    specified with the argument" and "mask : ndarray, optional. If specified, computation is done only over elements
    specified by the mask". Frames with one axis and a divisor above one, and masks with one axis, are errors. A mask with
    a divisor is an error or gives an axis too many. *)
Theorem C97_divisor_refuted : exists frames : list (nd (Cx QcF) * nd (Cx QcF)), all_shapes [4] frames /\ length frames = 8 /\
  zerr (zcross frames None None) = None /\ zerr (zcross frames (Some 2%Z) None) = Some ValueError /\ zerr (zcross frames None (Some (Nd [4] (fun _ => true)))) = Some ValueError.
Proof. exists (zlines 8). split; [repeat constructor|]. vm_compute. repeat split. Qed.
Print Assumptions C97_divisor_refuted.
Theorem C97_mask_divisor_refuted : exists (frames : list (nd (Cx QcF) * nd (Cx QcF))) mask, all_shapes [2; 2] frames /\ length frames = 8 /\ shape mask = [2; 2] /\
  zerr (zcross frames (Some 3%Z) (Some mask)) = Some ValueError /\ zshow (zcross frames (Some 1%Z) (Some mask)) [] (fun p => p) = Some ([1; 2; 2; 2], [2; 1; 2; 2; 2], [2; 2], []).
Proof. exists (zframes 8), ymask. split; [repeat constructor|]. vm_compute. repeat split. Qed.
Print Assumptions C97_mask_divisor_refuted.
(** Frames of another shape are not noticed if they have as many pixels: they are read as a frame of the first shape. *)
Theorem C97_other_shape_refuted : exists frames x, all_shapes [2; 2] frames /\ length frames = 7 /\ shape x = [4] /\
  zerr (zcross (frames ++ [(zframe 1 7, x)]) None None) = None /\ zerr (zcross (frames ++ [(zframe 1 7, Nd [2; 3] (fun _ => c0 QcF))]) None None) = Some ValueError.
Proof. exists (zframes 7), (zline 2 7). split; [repeat constructor|]. vm_compute. repeat split. Qed.
Print Assumptions C97_other_shape_refuted.
