(** C85: positions of Brownian particles; their velocity, step and initial coordinates. *)
From Verif Require Import Base Ordered Examples SimModel SimProofs2 WalkModel WalkProofs.
Set Implicit Arguments.
Local Open Scope nat_scope.

Section Meaning.
  Variable K : OFld.
  (** An argument that numpy can use for n particles with two coordinates each: a number, one number
      per coordinate, one row for every particle or for all *)
  Definition usable (n : nat) (a : arr K) : Prop :=
    match a with
    | AScal _ => True
    | AVec v => length v = 1 \/ length v = 2
    | AMat l => length l = 1 \/ length l = n
    | ACol l => length l = 1 \/ length l = n
    end.
  (** What it says about coordinate c of particle j *)
  Definition element (a : arr K) (j : nat) (c : bool) : K :=
    match a with
    | AScal k => k
    | AVec [k] => k
    | AVec v => nth (if c then 1 else 0) v (f0 K)
    | AMat [p] => if c then snd p else fst p
    | AMat l => let p := nth j l (f0 K, f0 K) in if c then snd p else fst p
    | ACol [k] => k
    | ACol l => nth j l (f0 K)
    end.
  Lemma usable_fits n a : usable n a -> fits n a.
  Proof.
    unfold fits. destruct a as [k|v|l|l]; cbn [usable arr_fits arr_rows]; intros H; split; auto.
    destruct H as [->| ->]; reflexivity.
  Qed.
  Lemma element_at a j c : arr_fits a = true -> arr_at a j c = element a j c.
  Proof.
    destruct a as [k|v|l|l]; cbn [arr_fits arr_at element].
    - reflexivity.
    - destruct v as [|x [|y [|]]]; cbn; try discriminate; reflexivity.
    - intros _. destruct l as [|p [|q l]]; cbn [length]; unfold row_of; cbn [Nat.eqb]; try reflexivity.
    - intros _. destruct l as [|p [|q l]]; cbn [length]; unfold row_of; cbn [Nat.eqb]; reflexivity.
  Qed.
End Meaning.

Section Walk.
  Variable K : OFld.
  Variable fsqrt : K -> K.
  Add Field Kpw : (flaw K).
  Local Notation "0" := (f0 K).
  Local Notation "x + y" := (fadd K x y).
  Local Notation "x * y" := (fmul K x y).
  Local Notation pt := (point K).
  Definition total (t : nat) (f : nat -> K) : K := Sum (fmon K) (seq 0 t) f.
  Lemma total_S t f : total (S t) f = total t f + f t.
  Proof. unfold total. rewrite seq_S, Sum_app. cbn [Sum fold_right Nat.add]. change (Sum (fmon K) (seq 0 t) f + (f t + 0) = Sum (fmon K) (seq 0 t) f + f t). ring. Qed.
  Lemma element_amul n (a : arr K) k j c : usable n a -> j < n -> element (amul a k) j c = element a j c * k.
  Proof.
    intros U Hj. pose proof (usable_fits _ _ U) as F. rewrite <- !element_at; [|exact (proj1 F)|exact (proj1 (fits_amul k F))].
    destruct F as [F [E|E]]; apply arr_at_amul; rewrite ?E; auto; lia.
  Qed.
  Lemma usable_amul n (a : arr K) k : usable n a -> usable n (amul a k).
  Proof. destruct a; cbn; rewrite ?map_length; auto. Qed.

  (** brownian_walk: whatever delta, velocity and the random numbers are, as long as they fit the
      particles the walk yields exactly count arrays of n points of the box, every one following from
      the one before by normal variables times delta sqrt(dt) plus the velocity, up to multiples of the box *)
  Theorem C85_walk normals count h w (delta velocity : given_as K) dt (x0 : list pt) : archimedean K -> flt K 0 h = true -> flt K 0 w = true ->
    let n := length x0 in
    (forall x, length x = n -> usable n match delta with Fixed a => a | Callable f => f x end) ->
    (forall x, length x = n -> usable n match velocity with Fixed a => a | Callable f => f x end) ->
    exists l m, (forall fuel, m < fuel -> walk fsqrt fuel normals (Points x0) count [h; w] delta dt velocity = Some (l, None)) /\
      length l = count /\ Forall (fun y : list pt => length y = n /\ Forall (in_box (h, w)) y) l /\
      (forall j c, 0 < count -> j < n -> congruent K (coord (h, w) c) (coord (nth j x0 (0, 0)) c) (coord (nth j (nth 0 l []) (0, 0)) c)) /\
      forall t j c, S t < count -> j < n ->
        congruent K (coord (h, w) c)
          (coord (nth j (nth t l []) (0, 0)) c + normals t j c * (element match delta with Fixed a => a | Callable f => f (nth t l []) end j c * fsqrt dt)
           + match velocity with Fixed a => element a j c * dt | Callable f => element (f (nth t l [])) j c end)
          (coord (nth j (nth (S t) l []) (0, 0)) c).
  Proof.
    intros A Hh Hw n Ud Uv.
    destruct (@mirror_points_ends K (h, w) x0 A Hh Hw) as (y & m0 & By & Cy & Fy).
    assert (Ly : length y = n) by (symmetry; exact (Forall2_length' Cy)).
    assert (US : forall x : list pt, length x = n -> usable n (scale_now fsqrt delta dt x)).
    { intros x Lx. specialize (Ud x Lx). destruct delta; cbn [scale_now]; apply usable_amul; exact Ud. }
    assert (UV : forall x : list pt, length x = n -> usable n (velocity_now velocity dt x)).
    { intros x Lx. specialize (Uv x Lx). destruct velocity; cbn [velocity_now]; [apply usable_amul|]; exact Uv. }
    destruct (@walk_from_ok K fsqrt normals h w delta velocity dt n A Hh Hw (fun x Lx => usable_fits _ _ (US x Lx)) (fun x Lx => usable_fits _ _ (UV x Lx)) count O y Ly By)
      as (l & m & W & L & B & H0 & ST).
    exists l, (Nat.add m0 m). split; [|split; [exact L|split; [exact B|split]]].
    - intros fuel Hf. cbn [walk]. rewrite Fy, W by lia. reflexivity.
    - intros j c Hc Hj. rewrite H0 by exact Hc. apply same_coord. exact (Forall2_nth' (0, 0) (0, 0) Cy Hj).
    - intros t j c Ht Hj. specialize (ST t j c Ht Hj). cbn [Nat.add] in ST.
      assert (Lt : length (nth t l []) = n). { rewrite Forall_forall in B. apply (B (nth t l [])). apply nth_In. lia. }
      assert (E : next_at fsqrt normals delta velocity dt t (nth t l []) j c =
        coord (nth j (nth t l []) (0, 0)) c + normals t j c * (element match delta with Fixed a => a | Callable f => f (nth t l []) end j c * fsqrt dt)
           + match velocity with Fixed a => element a j c * dt | Callable f => element (f (nth t l [])) j c end).
      { unfold next_at, moved. rewrite !element_at by (refine (proj1 (usable_fits n _ _)); auto).
        specialize (Ud _ Lt). specialize (Uv _ Lt). f_equal; [f_equal; f_equal|].
        - destruct delta; cbn [scale_now]; exact (element_amul _ (fsqrt dt) c Ud Hj).
        - destruct velocity; cbn [velocity_now]; [exact (element_amul _ dt c Uv Hj)|reflexivity]. }
      rewrite <- E. exact ST.
  Qed.

  Lemma element_rows n (f : nat -> pt) j c : j < n -> element (AMat (map f (seq 0 n))) j c = coord (f j) c.
  Proof.
    intros Hj. rewrite <- element_at by reflexivity. cbn [arr_at]. rewrite map_length, seq_length. f_equal.
    assert (E : row_of n j = j) by (unfold row_of; destruct (Nat.eqb_spec n 1); lia). rewrite E.
    rewrite (nth_indep _ (0, 0) (f O)) by (rewrite map_length, seq_length; lia). rewrite map_nth, seq_nth by lia. reflexivity.
  Qed.
  (** The initial coordinates, given or random in the box *)
  Definition initial (uniform : nat -> bool -> K) (h w : K) (x0 : option (list pt)) (j : nat) (c : bool) : K :=
    match x0 with
    | None => uniform j c * coord (h, w) c
    | Some x0 => coord (nth j x0 (0, 0)) c
    end.
  (** brownian_particles with a fixed velocity and a fixed delta: the position of every particle at
      every time, up to multiples of the box *)
  Theorem C85_particles uniform normals count h w (num_particles : nat) (delta velocity : arr K) dt (x0 : option (list pt)) : archimedean K -> flt K 0 h = true -> flt K 0 w = true ->
    usable num_particles delta -> usable num_particles velocity -> match x0 with None => True | Some x0 => length x0 = num_particles end ->
    exists l m, (forall fuel, m < fuel ->
        brownian_particles fsqrt fuel uniform normals count [h; w] (Z.of_nat num_particles) (Fixed delta) dt (Fixed velocity) (option_map Points x0) = Some (l, None)) /\
      length l = count /\ Forall (fun y : list pt => length y = num_particles /\ Forall (in_box (h, w)) y) l /\
      forall t j c, t < count -> j < num_particles ->
        congruent K (coord (h, w) c)
          (initial uniform h w x0 j c + (total t (fun s => normals s j c) * (element delta j c * fsqrt dt) + fnat K t * (element velocity j c * dt)))
          (coord (nth j (nth t l []) (0, 0)) c).
  Proof.
    intros A Hh Hw Ud Uv Hx. set (n := num_particles) in *.
    set (p0 := match x0 with None => map (fun i => (uniform i false * h, uniform i true * w)) (seq 0 n) | Some x0 => x0 end : list pt).
    assert (Lp : length p0 = n). { unfold p0. destruct x0; [exact Hx|]. rewrite map_length, seq_length. reflexivity. }
    assert (I0 : forall j c, j < n -> coord (nth j p0 (0, 0)) c = initial uniform h w x0 j c).
    { intros j c Hj. unfold p0, initial. destruct x0; [reflexivity|]. assert (E : forall f : nat -> pt, nth j (map f (seq 0 n)) (0, 0) = f j).
      { intros f. rewrite (nth_indep _ (0, 0) (f O)) by (rewrite map_length, seq_length; lia). rewrite map_nth, seq_nth by lia. reflexivity. }
      rewrite E. destruct c; reflexivity. }
    set (v0 := AMat (map (fun i => (arr_at velocity i false, arr_at velocity i true)) (seq 0 n))).
    assert (E0 : forall j c, j < n -> element v0 j c = element velocity j c).
    { intros j c Hj. unfold v0. rewrite element_rows by exact Hj. rewrite <- element_at by exact (proj1 (usable_fits _ _ Uv)). destruct c; reflexivity. }
    destruct (@C85_walk normals count h w (Fixed delta) (Fixed v0) dt p0 A Hh Hw) as (l & m & W & L & B & S0 & ST).
    { intros _ _. rewrite Lp. exact Ud. }
    { intros _ _. rewrite Lp. unfold v0. cbn [usable]. rewrite map_length, seq_length. auto. }
    rewrite Lp in B, S0, ST. exists l, m. split; [|split; [exact L|split; [exact B|]]].
    - intros fuel Hf. unfold brownian_particles.
      assert (X : match option_map Points x0 with
        | None => if (Z.of_nat n <? 0)%Z then Raise ValueError else Ok (Points (map (fun i => (uniform i false * h, uniform i true * w)) (seq 0 (Z.to_nat (Z.of_nat n)))))
        | Some x0 => if (Z.of_nat (start_len x0) =? Z.of_nat n)%Z then Ok x0 else Raise ValueError end = Ok (Points p0)).
      { unfold p0. destruct x0 as [x0|]; cbn [option_map start_len].
        - rewrite Hx, Z.eqb_refl. reflexivity.
        - rewrite Nat2Z.id. destruct (Z.ltb_spec (Z.of_nat n) 0%Z); [lia|reflexivity]. }
      cbv zeta. rewrite X. unfold fill. cbn [start_len]. rewrite Lp. destruct (usable_fits _ _ Uv) as [F R].
      assert (R' : ((arr_rows velocity =? 1) || (arr_rows velocity =? n))%bool = true). { apply Bool.orb_true_iff. rewrite !Nat.eqb_eq. exact R. }
      rewrite F, R'. cbn [andb]. apply W. exact Hf.
    - intros t j c Ht Hj. induction t as [|t IH].
      + eapply congruent_trans; [|apply S0; assumption]. rewrite I0 by exact Hj. unfold total. cbn [seq]. rewrite Sum_nil. change (fnat K 0%nat) with 0. change (m0 (fmon K)) with 0.
        match goal with |- congruent K _ ?a ?b => replace a with b by ring end. apply congruent_refl.
      + eapply congruent_trans; [|apply ST; [exact Ht|exact Hj]]. rewrite E0 by exact Hj.
        assert (Ht' : t < count) by lia. apply (fun H => congruent_add (normals t j c * (element delta j c * fsqrt dt) + element velocity j c * dt) H) in IH; [|exact Ht'].
        rewrite total_S, fnat_S. match type of IH with congruent K _ ?a ?b => match goal with |- congruent K _ ?a' ?b' => replace a' with a by ring; replace b' with b by ring end end. exact IH.
  Qed.
  (** With delta = 0 the particles drift: after t frames by t times velocity times dt. *)
  Theorem C85_drift uniform normals count h w (num_particles : nat) (velocity : arr K) dt (x0 : option (list pt)) : archimedean K -> flt K 0 h = true -> flt K 0 w = true ->
    usable num_particles velocity -> match x0 with None => True | Some x0 => length x0 = num_particles end ->
    exists l m, (forall fuel, m < fuel ->
        brownian_particles fsqrt fuel uniform normals count [h; w] (Z.of_nat num_particles) (Fixed (AScal 0)) dt (Fixed velocity) (option_map Points x0) = Some (l, None)) /\
      forall t j c, t < count -> j < num_particles ->
        congruent K (coord (h, w) c) (initial uniform h w x0 j c + fnat K t * (element velocity j c * dt)) (coord (nth j (nth t l []) (0, 0)) c).
  Proof.
    intros A Hh Hw Uv Hx. destruct (@C85_particles uniform normals count h w num_particles (AScal 0) velocity dt x0 A Hh Hw Logic.I Uv Hx) as (l & m & W & _ & _ & P).
    exists l, m. split; [exact W|]. intros t j c Ht Hj. specialize (P t j c Ht Hj). cbn [element] in P.
    match type of P with congruent K _ ?a _ => match goal with |- congruent K _ ?b _ => replace b with a by ring end end. exact P.
  Qed.

  (** A callable velocity is used as it is, a fixed one is multiplied by dt: the callable must return
      the displacement in one step. *)
  Theorem C85_callable fuel normals x0 count shape delta dt (velocity : arr K) :
    walk fsqrt fuel normals x0 count shape delta dt (Callable (fun _ => amul velocity dt)) = walk fsqrt fuel normals x0 count shape delta dt (Fixed velocity).
  Proof.
    assert (E : forall h w k i x, walk_from fsqrt fuel normals (h, w) delta (Callable (fun _ => amul velocity dt)) dt i k x = walk_from fsqrt fuel normals (h, w) delta (Fixed velocity) dt i k x).
    { intros h w k. induction k as [|k IH]; intros i x; [reflexivity|]. cbn [walk_from velocity_now]. destruct (make_step (normals i) x _ _) as [x'|]; [|reflexivity].
      destruct (mirror_points fuel (h, w) x'); [|reflexivity]. rewrite IH. reflexivity. }
    unfold walk. destruct x0 as [l|l|k|k]; try reflexivity; destruct shape as [|h [|w [|]]]; try reflexivity; destruct (mirror_points fuel (h, w) _); try reflexivity; apply E.
  Qed.

  (** "delta: a callable that returns an array of shape (len(x0),)": with three or more particles such
      an array does not fit, and the walk ends with an exception after the first frame. *)
  Theorem C85_delta_refuted normals (x0 : list pt) count h w (deltas : list pt -> list K) dt velocity : archimedean K -> flt K 0 h = true -> flt K 0 w = true ->
    3 <= length x0 -> (forall x, length (deltas x) = length x0) ->
    exists first m, forall fuel, m < fuel ->
      walk fsqrt fuel normals (Points x0) (S count) [h; w] (Callable (fun x => AVec (deltas x))) dt velocity = Some ([first], Some ValueError).
  Proof.
    intros A Hh Hw H3 Hl. destruct (@mirror_points_ends K (h, w) x0 A Hh Hw) as (y & m0 & By & Cy & Fy). exists y, m0. intros fuel Hf.
    cbn [walk]. rewrite Fy by exact Hf. cbn [walk_from]. unfold make_step. cbn [scale_now amul arr_fits]. rewrite map_length, Hl.
    destruct (Nat.eqb_spec (length x0) 1); [lia|]. destruct (Nat.eqb_spec (length x0) 2); [lia|]. reflexivity.
  Qed.

  (** Initial coordinates whose number is not num_particles are refused, and so are those that are not
      two-dimensional; a velocity that does not fit is refused before the first frame. *)
  Theorem C85_refused fuel uniform normals count shape num_particles delta dt velocity (x0 : start K) :
    let run := brownian_particles fsqrt fuel uniform normals count shape num_particles delta dt velocity (Some x0) in
    (Z.of_nat (start_len x0) <> num_particles -> run = Some ([], Some ValueError)) /\
    (forall l v, Z.of_nat (start_len x0) = num_particles -> x0 = Points l -> velocity = Fixed v -> ~ usable (length l) v -> run = Some ([], Some ValueError)) /\
    (forall n, Z.of_nat n = num_particles -> x0 = Flat n -> run = Some ([], Some match velocity with Fixed _ => IndexError | Callable _ => ValueError end)) /\
    (forall n, x0 = Wide n -> run = Some ([], Some ValueError)).
  Proof.
    intros run. unfold run, brownian_particles. split; [|split; [|split]].
    - intros H. destruct (Z.eqb_spec (Z.of_nat (start_len x0)) num_particles); [contradiction|]. reflexivity.
    - intros l v H -> -> HU. cbn [start_len] in *. rewrite (proj2 (Z.eqb_eq _ _) H). unfold fill. cbn [start_len].
      destruct (((arr_rows v =? 1) || (arr_rows v =? length l)) && arr_fits v)%bool eqn:E; [|reflexivity]. exfalso. apply HU. clear HU run. apply Bool.andb_true_iff in E. destruct E as [E1 E2].
      apply Bool.orb_true_iff in E1. rewrite !Nat.eqb_eq in E1. destruct v as [k|u|r|r]; cbn [usable arr_rows arr_fits] in *; auto. apply Bool.orb_true_iff in E2. rewrite !Nat.eqb_eq in E2. exact E2.
    - intros n H ->. cbn [start_len]. rewrite (proj2 (Z.eqb_eq _ _) H). destruct velocity; reflexivity.
    - intros n ->. cbn [start_len]. destruct (Z.of_nat n =? num_particles)%Z; [|reflexivity]. destruct velocity as [v|f]; cbn [fill]; [reflexivity|]. cbn [walk]. destruct shape as [|? [|? [|]]]; reflexivity.
  Qed.
  (** A frame size that does not consist of two numbers *)
  Theorem C85_shape fuel uniform normals count shape num_particles delta dt velocity (x0 : option (list pt)) : length shape <> 2 ->
    brownian_particles fsqrt fuel uniform normals count shape num_particles delta dt velocity (option_map Points x0) = Some ([], Some ValueError).
  Proof.
    intros H. unfold brownian_particles. destruct x0 as [x0|]; cbn [option_map].
    - destruct (_ =? _)%Z; [|reflexivity]. destruct velocity as [v|f].
      + unfold fill. destruct (_ && _)%bool; [|reflexivity]. cbn [walk]. destruct shape as [|? [|? [|]]]; try reflexivity. exfalso. apply H. reflexivity.
      + cbn [walk]. destruct shape as [|? [|? [|]]]; try reflexivity. exfalso. apply H. reflexivity.
    - destruct (_ <? _)%Z; [reflexivity|]. destruct shape as [|? [|? [|]]]; try reflexivity. exfalso. apply H. reflexivity.
  Qed.
  (** A fixed delta or velocity that does not fit two or more particles, or none: the first frame is
      yielded and the walk ends with ValueError. *)
  Theorem C85_unusable normals (x0 : list pt) count h w (delta velocity : arr K) dt : archimedean K -> flt K 0 h = true -> flt K 0 w = true ->
    length x0 <> 1 -> ~ (usable (length x0) delta /\ usable (length x0) velocity) ->
    exists first m, forall fuel, m < fuel -> walk fsqrt fuel normals (Points x0) (S count) [h; w] (Fixed delta) dt (Fixed velocity) = Some ([first], Some ValueError).
  Proof.
    intros A Hh Hw H1 HU. destruct (@mirror_points_ends K (h, w) x0 A Hh Hw) as (y & m0 & By & Cy & Fy). exists y, m0. intros fuel Hf.
    assert (Ly : length y = length x0) by (symmetry; clear - Cy; induction Cy; cbn; congruence).
    assert (R : forall (a : arr K) k, arr_rows (amul a k) = arr_rows a) by (intros a0 k0; destruct a0; cbn; rewrite ?map_length; reflexivity).
    assert (FT : forall (a : arr K) k, arr_fits (amul a k) = arr_fits a) by (intros a0 k0; destruct a0; cbn; rewrite ?map_length; reflexivity).
    assert (US : forall a : arr K, arr_fits a = true -> arr_rows a = 1 \/ arr_rows a = length x0 -> usable (length x0) a). { intros [?|v|?|?]; cbn; auto. intros E _. apply Bool.orb_true_iff in E. rewrite !Nat.eqb_eq in E. exact E. }
    cbn [walk]. rewrite Fy by exact Hf. cbn [walk_from]. unfold make_step. cbn [scale_now velocity_now]. rewrite !FT, !R, Ly.
    destruct (arr_fits delta) eqn:F1; [|reflexivity]. destruct (arr_fits velocity) eqn:F2; [|reflexivity]. cbn [andb negb].
    assert (BD : forall k, bdim (length x0) k = if ((k =? 1) || (k =? length x0))%bool then Ok (length x0) else Raise ValueError).
    { intros k. unfold bdim. destruct (Nat.eqb_spec (length x0) k); destruct (Nat.eqb_spec k 1); destruct (Nat.eqb_spec (length x0) 1); destruct (Nat.eqb_spec k (length x0)); try lia; reflexivity. }
    rewrite BD. destruct ((arr_rows delta =? 1) || (arr_rows delta =? length x0))%bool eqn:E1; [|reflexivity]. cbn [bind]. rewrite BD. destruct ((arr_rows velocity =? 1) || (arr_rows velocity =? length x0))%bool eqn:E2; [|reflexivity].
    exfalso. apply HU. apply Bool.orb_true_iff in E1, E2. rewrite !Nat.eqb_eq in E1, E2. split; apply US; assumption.
  Qed.
  (** Initial coordinates given as a column: every particle starts on the diagonal, and the velocity must be one number
      or one for every particle; it is used for both coordinates.  Others are refused. *)
  Theorem C85_column fuel uniform normals count h w delta dt (velocity : arr K) (l : list K) :
    let run x v := brownian_particles fsqrt fuel uniform normals count [h; w] (Z.of_nat (length l)) delta dt (Fixed v) (Some x) in
    match velocity with
    | AScal _ | AVec [_] => run (Column l) velocity = run (Points (map (fun k => (k, k)) l)) velocity
    | ACol r => if ((length r =? 1) || (length r =? length l))%bool then run (Column l) velocity = run (Points (map (fun k => (k, k)) l)) velocity
                else run (Column l) velocity = Some ([], Some ValueError)
    | AVec _ | AMat _ => run (Column l) velocity = Some ([], Some ValueError)
    end.
  Proof.
    intros run.
    assert (M : forall i x (d v v' : arr K), arr_rows v = arr_rows v' -> arr_fits v = arr_fits v' -> (forall j c, arr_at v j c = arr_at v' j c) -> make_step (normals i) x d v = make_step (normals i) x d v').
    { intros i x d v v' E1 E2 E3. unfold make_step. rewrite E1, E2. destruct (negb _); [reflexivity|]. destruct (bdim _ _) as [n|]; [|reflexivity]. cbn [bind]. destruct (bdim _ _) as [m|]; [|reflexivity]. cbn [bind]. f_equal. apply map_ext. intros j. rewrite !E3. reflexivity. }
    assert (WF : forall v v' : arr K, arr_rows (amul v dt) = arr_rows (amul v' dt) -> arr_fits (amul v dt) = arr_fits (amul v' dt) -> (forall j c, arr_at (amul v dt) j c = arr_at (amul v' dt) j c) ->
      forall k i x, walk_from fsqrt fuel normals (h, w) delta (Fixed v) dt i k x = walk_from fsqrt fuel normals (h, w) delta (Fixed v') dt i k x).
    { intros v v' E1 E2 E3 k. induction k as [|k IH]; intros i x; [reflexivity|]. cbn [walk_from velocity_now]. rewrite (M i x _ _ _ E1 E2 E3). destruct (make_step _ _ _ _) as [x'|]; [|reflexivity]. destruct (mirror_points _ _ x'); [|reflexivity]. rewrite IH. reflexivity. }
    assert (OK : forall (g : nat -> K) v, (forall i, arr_at v i false = g i) -> (forall i, arr_at v i true = g i) -> ((arr_rows v =? 1) || (arr_rows v =? length l))%bool = true -> arr_fits v = true -> match v with AMat _ => false | AVec u => length u =? 1 | _ => true end = true ->
      run (Column l) v = run (Points (map (fun k => (k, k)) l)) v).
    { intros g v G1 G2 R1 F1 F2. unfold run, brownian_particles. cbn [start_len]. rewrite map_length, Z.eqb_refl. unfold fill. cbn [start_len]. rewrite map_length, R1, F1, F2. cbn [andb walk]. destruct (mirror_points fuel (h, w) _) as [x|]; [|reflexivity]. apply WF.
      - cbn. rewrite !map_length. reflexivity.
      - reflexivity.
      - intros j c. cbn [amul arr_at]. rewrite !map_length, !map_map, seq_length. cbn [fst snd]. set (rr := row_of (length l) j).
        assert (Q : forall (g' : nat -> K) d, nth rr (map g' (seq 0 (length l))) d = if rr <? length l then g' rr else d). { intros g' d. destruct (Nat.ltb_spec rr (length l)). - rewrite (nth_indep _ d (g' 0%nat)) by (rewrite map_length, seq_length; assumption). rewrite map_nth, seq_nth by assumption. reflexivity. - apply nth_overflow. rewrite map_length, seq_length. assumption. }
        rewrite Q. match goal with |- _ = coord (nth rr (map ?f _) ?d) c => assert (Q' : nth rr (map f (seq 0 (length l))) d = if rr <? length l then f rr else d) end.
        { destruct (Nat.ltb_spec rr (length l)). - match goal with |- nth rr (map ?f _) ?d = _ => rewrite (nth_indep _ d (f 0%nat)) by (rewrite map_length, seq_length; assumption); rewrite (map_nth f), seq_nth by assumption end. reflexivity. - apply nth_overflow. rewrite map_length, seq_length. assumption. }
        match type of Q' with _ = ?z => transitivity (coord (z : pt) c); [|exact (f_equal (fun y0 : pt => coord y0 c) (eq_sym Q'))] end. destruct (rr <? length l); destruct c; cbn [coord fst snd]; rewrite ?G1, ?G2; reflexivity. }
    destruct velocity as [k|[|x [|y u]]|u|r].
    - apply (OK (fun _ => k)); reflexivity.
    - unfold run, brownian_particles. cbn [start_len]. rewrite Z.eqb_refl. reflexivity.
    - apply (OK (fun _ => x)); reflexivity.
    - unfold run, brownian_particles. cbn [start_len]. rewrite Z.eqb_refl. reflexivity.
    - unfold run, brownian_particles. cbn [start_len]. rewrite Z.eqb_refl. unfold fill. rewrite Bool.andb_false_r. reflexivity.
    - destruct ((length r =? 1) || (length r =? length l))%bool eqn:E.
      + apply (OK (fun i => nth (row_of (length r) i) r 0)); try reflexivity. exact E.
      + unfold run, brownian_particles. cbn [start_len]. rewrite Z.eqb_refl. unfold fill. cbn [arr_rows start_len]. rewrite E. reflexivity.
  Qed.
End Walk.
Print Assumptions C85_unusable.
Print Assumptions C85_column.
Print Assumptions C85_walk.
Print Assumptions C85_particles.
Print Assumptions C85_drift.
Print Assumptions C85_callable.
Print Assumptions C85_delta_refuted.
Print Assumptions C85_refused.
Print Assumptions C85_shape.

Definition show_walk (r : option (list (list (point QcO)) * option pyexc)) := match r with Some (l, e) => Some (map (map (fun p => (show (fst p), show (snd p)))) l, e) | None => None end.
Definition qroot : QcO -> QcO := fun x => x.
(** "If velocity is callable, it must ... return an array of velocities": with dt = 2 one particle
    with velocity (1, 0) moves by 2 in a step if the velocity is fixed and by 1 if it is a callable. *)
Theorem C85_callable_refuted : exists normals x0 shape (dt : QcO) (velocity : arr QcO),
  let run v := show_walk (walk qroot 9 normals (Points x0) 3 shape (Fixed (@AScal QcO (q 0))) dt v) in
  run (Fixed velocity) = Some ([[((0, 1), (0, 1))]; [((2, 1), (0, 1))]; [((4, 1), (0, 1))]], None)%Z /\
  run (Callable (fun _ => velocity)) = Some ([[((0, 1), (0, 1))]; [((1, 1), (0, 1))]; [((2, 1), (0, 1))]], None)%Z.
Proof. exists (fun _ _ _ => q 1), [(q 0, q 0)], [q 8; q 8], (q 2), (@AVec QcO [q 1; q 0]). split; vm_compute; reflexivity. Qed.
Print Assumptions C85_callable_refuted.
(** Two particles and a callable that returns one delta for each of them: the deltas are used for the
    coordinates.  With one row for each particle they are used for the particles. *)
Theorem C85_delta_axis_refuted : exists normals x0 shape (deltas : list QcO),
  let run d := show_walk (walk qroot 9 normals (Points x0) 2 shape (Callable (fun _ => d)) (q 1) (Fixed (@AScal QcO (q 0)))) in
  run (@AVec QcO deltas) = Some ([[((0, 1), (0, 1)); ((0, 1), (0, 1))]; [((1, 1), (2, 1)); ((1, 1), (2, 1))]], None)%Z /\
  run (@ACol QcO deltas) = Some ([[((0, 1), (0, 1)); ((0, 1), (0, 1))]; [((1, 1), (1, 1)); ((2, 1), (2, 1))]], None)%Z.
Proof. exists (fun _ _ _ => q 1), [(q 0, q 0); (q 0, q 0)], [q 8; q 8], [q 1; q 2]. split; vm_compute; reflexivity. Qed.
Print Assumptions C85_delta_axis_refuted.
(** "Length of the array equals number of particles": one particle and three deltas make three. *)
Theorem C85_number_refuted : exists uniform normals shape (delta : arr QcO),
  show_walk (brownian_particles qroot 9 uniform normals 2 shape 1 (Fixed delta) (q 1) (Fixed (@AScal QcO (q 0))) None)
  = Some ([[((4, 1), (4, 1))]; [((5, 1), (5, 1)); ((6, 1), (6, 1)); ((7, 1), (7, 1))]], None)%Z.
Proof. exists (fun _ _ => fdiv QcO (q 1) (q 2)), (fun _ _ _ => q 1), [q 8; q 8], (@ACol QcO [q 1; q 2; q 3]). vm_compute. reflexivity. Qed.
Print Assumptions C85_number_refuted.
(** Two particles in a box of 4 x 5, with noise, a velocity for each of them and dt = 2 *)
Example C85_holds : show_walk (brownian_particles qroot 20 (fun _ _ => q 0) (fun t j c => q (Z.of_nat (t + j))) 3 [q 4; q 5] 2 (Fixed (@AVec QcO [q 1; q 2])) (q 2) (Fixed (@AMat QcO [(q 1, q 0); (q 0, q (-1))])) (Some (@Points QcO [(q 1, q 1); (q 9, q 3)])))
  = Some ([[((1, 1), (1, 1)); ((1, 1), (3, 1))]; [((3, 1), (1, 1)); ((3, 1), (0, 1))]; [((3, 1), (0, 1)); ((3, 1), (1, 1))]], None)%Z /\
  usable 2 (@AVec QcO [q 1; q 2] : arr QcO) /\ usable 2 (@AMat QcO [(q 1, q 0); (q 0, q (-1))] : arr QcO).
Proof. split; [vm_compute; reflexivity|]. split; right; reflexivity. Qed.
(** Two particles on a column, velocities for each of them; three deltas for two particles *)
Example C85_column_example :
  show_walk (brownian_particles qroot 20 (fun _ _ => q 0) (fun t j c => q 0) 2 [q 8; q 8] 2 (Fixed (@AScal QcO (q 0))) (q 1) (Fixed (@ACol QcO [q 1; q 2])) (Some (@Column QcO [q 3; q 4])))
  = Some ([[((3, 1), (3, 1)); ((4, 1), (4, 1))]; [((4, 1), (4, 1)); ((6, 1), (6, 1))]], None)%Z /\
  ~ usable 2 (@ACol QcO [q 1; q 2; q 3] : arr QcO).
Proof. split; [vm_compute; reflexivity|]. intros [H|H]; discriminate H. Qed.
