(** C54 - C58, C70 - C72: the simulator. *)
From Coq Require Import ZifyBool ZifyNat.
From Verif Require Import Base KernelProofs Ordered ThreadModel SimModel SimProofs SimProofs2 SimProofs3 Archimedean Examples.
Set Implicit Arguments.
Local Open Scope Z_scope.

(* ------------------------------------------------------------------ *)
(** * C54: data_trigger *)
(** [x for i, x in enumerate(data) if i in indices] *)
Theorem C54_selects (A : Type) (data : list A) indices : indices <> [] -> (forall i, In i indices -> 0 <= i) ->
  data_trigger data indices = Ok (map snd (filter (fun p => existsb (Z.eqb (fst p)) indices) (combine (arange (length data)) data))).
Proof.
  intros H0 HN. unfold data_trigger. destruct (sorted_set indices) as [|ii t] eqn:E.
  - exfalso. destruct indices as [|x l]; [exact (H0 eq_refl)|]. assert (X : In x (sorted_set (x :: l))) by (apply sorted_set_in; left; reflexivity). rewrite E in X. exact X.
  - f_equal. rewrite trigger_loop_spec; [|rewrite <- E; apply sorted_set_inc|apply HN, sorted_set_in; rewrite E; left; reflexivity]. rewrite <- E. f_equal. apply filter_ext_in. intros p _.
    destruct (existsb (Z.eqb (fst p)) indices) eqn:X; [apply existsb_eq_in, sorted_set_in, existsb_eq_in; exact X|]. apply existsb_eq_notin. intros Y. rewrite sorted_set_in, <- existsb_eq_in in Y. congruence.
Qed.
Print Assumptions C54_selects.
Theorem C54_negative (A : Type) (data : list A) indices i : In i indices -> i < 0 -> data_trigger data indices = Ok [].
Proof.
  intros Hi Hn. unfold data_trigger. pose proof (sorted_set_inc indices) as S. rewrite <- sorted_set_in in Hi. destruct (sorted_set indices) as [|ii t]; [destruct Hi|]. f_equal. apply trigger_blocked. destruct Hi as [->|Hi]; [exact Hn|]. destruct S as [S _]. specialize (S i Hi). lia.
Qed.
Print Assumptions C54_negative.
Theorem C54_empty (A : Type) (data : list A) : data_trigger data [] = Raise IndexError.
Proof. reflexivity. Qed.
Print Assumptions C54_empty.
(** Data after the last index is not looked at. *)
Theorem C54_prefix (A : Type) (data more : list A) indices : indices <> [] -> (forall i, In i indices -> 0 <= i < Z.of_nat (length data)) -> data_trigger (data ++ more) indices = data_trigger data indices.
Proof.
  intros H0 HN. rewrite !C54_selects by (assumption || (intros i Hi; apply HN in Hi; lia)). do 2 f_equal. rewrite app_length. unfold arange. rewrite seq_app, map_app. cbn [Nat.add].
  assert (E : forall (p : list Z) (q : list A) p' q', length p = length q -> combine (p ++ p') (q ++ q') = combine p q ++ combine p' q').
  { intros p. induction p as [|x p IHp]; intros [|y q] p' q' E; try discriminate; [reflexivity|]. cbn [app combine]. rewrite IHp by (cbn in E; lia). reflexivity. }
  rewrite E by (rewrite map_length, seq_length; reflexivity). rewrite filter_app. replace (filter _ (combine (map Z.of_nat (seq (length data) (length more))) more)) with (@nil (Z * A)); [rewrite app_nil_r; reflexivity|].
  symmetry. match goal with |- filter ?f ?l = [] => assert (G : forall p, In p l -> f p = false) end.
  { intros [a b] Hp. apply in_combine_l in Hp. apply in_map_iff in Hp. destruct Hp as (k & <- & Hk). apply in_seq in Hk. apply existsb_eq_notin. intros X. cbn [fst] in X. apply HN in X. lia. }
  revert G. generalize (combine (map Z.of_nat (seq (length data) (length more))) more). induction l as [|p l IH]; intros G; [reflexivity|]. cbn [filter]. rewrite G by (left; reflexivity). apply IH. intros; apply G; right; assumption.
Qed.
Print Assumptions C54_prefix.
Example C54_holds : data_trigger [10; 11; 12; 13; 14] [3; 1; 3; 9] = Ok [11; 13] /\ data_trigger [10; 11; 12] [2; -1] = Ok [].
Proof. split; reflexivity. Qed.

(* ------------------------------------------------------------------ *)
(** * C55: particles_video *)
Definition increases (t : list Z) : Prop := forall k, (S k < length t)%nat -> nth k t 0 < nth (S k) t 0.
(** All exposures of pair k come before those of pair k+1. *)
Definition paired (t1 t2 : list Z) : Prop := length t1 = length t2 /\ forall k, (S k < length t1)%nat -> Z.max (nth k t1 0) (nth k t2 0) < Z.min (nth (S k) t1 0) (nth (S k) t2 0).
Lemma increases_inc t : increases t -> increasing t.
Proof.
  induction t as [|a t IH]; intros H; [exact I|]. assert (It : increases t) by (intros k Hk; apply (H (S k)); cbn; lia). specialize (IH It). split; [|exact IH]. intros y Hy. destruct t as [|b t]; [destruct Hy|]. assert (Hb : a < b) by (apply (H 0%nat); cbn; lia).
  destruct Hy as [<-|Hy]; [exact Hb|]. destruct IH as [IH _]. specialize (IH y Hy). lia.
Qed.
Lemma paired_chain t1 : forall t2 i, paired t1 t2 -> (forall t, In t (t1 ++ t2) -> i <= t) -> chain i t1 t2.
Proof.
  induction t1 as [|a t1 IH]; intros [|b t2] i [HL HP] Hi; try discriminate; [exact I|]. split; [specialize (Hi a (or_introl eq_refl)) as A; assert (B : i <= b) by (apply Hi, in_or_app; right; left; reflexivity); lia|].
  assert (P' : paired t1 t2) by (split; [cbn in HL; lia|]; intros k Hk; apply (HP (S k)); cbn; lia). 
  assert (G : forall k, (k < length t1)%nat -> Z.max a b + 1 <= Z.min (nth k t1 0) (nth k t2 0)).
  { induction k as [|k IHk]; intros Hk; [specialize (HP 0%nat ltac:(cbn; lia)); cbn [nth] in HP; lia|]. destruct P' as [_ P']. specialize (P' k Hk). specialize (IHk ltac:(lia)). lia. }
  apply IH; [exact P'|]. intros t Ht. apply in_app_or in Ht. destruct Ht as [Ht|Ht]; apply (In_nth _ _ 0) in Ht; destruct Ht as (k & Hk & <-); (assert (Hk' : (k < length t1)%nat) by (cbn in HL; lia)); specialize (G k Hk'); lia.
Qed.
Lemma chain_paired t1 : forall t2 i, chain i t1 t2 -> paired t1 t2.
Proof.
  induction t1 as [|a t1 IH]; intros [|b t2] i H; try contradiction; [split; [reflexivity|intros k Hk; cbn in Hk; lia]|]. destruct H as [H1 H2]. destruct (IH _ _ H2) as [L P]. split; [cbn; lia|]. intros [|k] Hk; cbn [nth length] in *; [|apply P; lia].
  destruct t1 as [|a' t1], t2 as [|b' t2]; try contradiction; cbn in Hk; try lia. destruct H2 as [H2 _]. cbn [nth]. lia.
Qed.
Theorem C55_pairs (P F : Type) (d : P) (frame1 frame2 : P -> F) particles t1 t2 : paired t1 t2 -> (forall t, In t (t1 ++ t2) -> 0 <= t < Z.of_nat (length particles)) ->
  particles_video_dual frame1 frame2 particles t1 t2 = map (fun p => (frame1 (nth (Z.to_nat (fst p)) particles d), frame2 (nth (Z.to_nat (snd p)) particles d))) (combine t1 t2).
Proof.
  intros HP HT. unfold particles_video_dual. rewrite (@dual_chain P F d frame1 frame2 t1 t2 0 particles); [|apply paired_chain; [exact HP|intros; apply HT; assumption]|intros t Ht; apply HT in Ht; lia].
  apply map_ext. intros p. unfold pick. rewrite !Z.sub_0_r. reflexivity.
Qed.
Print Assumptions C55_pairs.
(** For increasing times within the simulation no pair is lost if and only if they are paired. *)
Theorem C55_iff (P F : Type) (d : P) (frame1 frame2 : P -> F) particles t1 t2 : length t1 = length t2 -> increases t1 -> increases t2 -> (forall t, In t (t1 ++ t2) -> 0 <= t < Z.of_nat (length particles)) ->
  (length (particles_video_dual frame1 frame2 particles t1 t2) <= length t1)%nat /\ (length (particles_video_dual frame1 frame2 particles t1 t2) = length t1 <-> paired t1 t2).
Proof.
  intros HL I1 I2 HT. split; [apply (@dual_bound P F d frame1 frame2 particles 0 t1 t2 None None)|]. split.
  - intros H. apply (@chain_paired t1 t2 0). apply (@dual_full P F d frame1 frame2 t1 t2 0 particles); try assumption; try (apply increases_inc; assumption).
    + destruct t1 as [|a t1]; [exact I|]. apply (HT a). left. reflexivity.
    + destruct t2 as [|b t2]; [exact I|]. apply (HT b). apply in_or_app. right. left. reflexivity.
  - intros H. rewrite (@C55_pairs P F d) by assumption. rewrite map_length, combine_length. lia.
Qed.
Print Assumptions C55_iff.
(** One camera: the frames at the times up to the first one that does not increase. *)
Theorem C55_single (P F : Type) (d : P) (frame1 : P -> F) particles good rest : increases good -> (forall t, In t good -> 0 <= t < Z.of_nat (length particles)) -> (forall b t, rest = b :: t -> b <= last good (-1)) ->
  particles_video_single frame1 particles (good ++ rest) = map (fun t => frame1 (nth (Z.to_nat t) particles d)) good.
Proof.
  intros HI HT HB. unfold particles_video_single. rewrite (@single_good P F d frame1 frame1 good 0 particles rest).
  - apply map_ext. intros t. unfold pick. rewrite Z.sub_0_r. reflexivity.
  - apply increases_inc. exact HI.
  - destruct good as [|a good]; [exact I|]. apply (HT a). left. reflexivity.
  - intros t Ht. apply HT in Ht. lia.
  - exact HB.
Qed.
Print Assumptions C55_single.
Example C55_holds : paired [0; 3; 5] [1; 2; 5] /\ particles_video_dual (fun x => x) (fun x => x + 100) [10; 11; 12; 13; 14; 15] [0; 3; 5] [1; 2; 5] = [(10, 111); (13, 112); (15, 115)] /\
  particles_video_single (fun x => x) [10; 11; 12; 13; 14; 15] [1; 4; 4; 5] = [11; 14].
Proof. split; [|split; reflexivity]. split; [reflexivity|]. intros [|[|k]] Hk; cbn in *; lia. Qed.
(** Times that increase on both cameras but are not paired: a frame is lost silently. *)
Theorem C55_lost_refuted : exists particles t1 t2, length t1 = length t2 /\ increases t1 /\ increases t2 /\ (forall t, In t (t1 ++ t2) -> 0 <= t < Z.of_nat (length particles)) /\
  particles_video_dual (fun x : Z => x) (fun x => x) particles t1 t2 = [(11, 12)] /\ length t1 = 2%nat.
Proof.
  exists [10; 11; 12; 13], [0; 1], [2; 3]. split; [reflexivity|]. split; [intros [|[|k]] Hk; cbn in *; lia|]. split; [intros [|[|k]] Hk; cbn in *; lia|]. split; [intros t Ht; cbn in *; lia|]. split; reflexivity.
Qed.
Print Assumptions C55_lost_refuted.

(* ------------------------------------------------------------------ *)
(** * C56: random trigger times *)
Theorem C56_single nframes n dt_min raw : 1 <= n -> dt_min <= n ->
  exists t, create_random_time nframes n dt_min raw = Ok t /\ length t = nframes /\
    (forall k, (k < nframes)%nat -> Z.of_nat k * n <= nth k t 0 < Z.of_nat (k + 1) * n) /\ increases t /\
    forall k, (S k < nframes)%nat -> dt_min <= nth (S k) t 0 - nth k t 0.
Proof.
  intros Hn Hd. unfold create_random_time. destruct (@random_time_total n dt_min raw nframes 0 0 Hn Hd ltac:(lia)) as (t & E). exists t. split; [exact E|]. destruct (@random_time_spec n dt_min raw nframes 0 0 t E) as (L & B & G).
  split; [exact L|]. split; [exact B|]. split.
  - intros k Hk. pose proof (B k ltac:(lia)) as B1. pose proof (B (S k) ltac:(lia)) as B2. rewrite !Nat.add_0_l in *. nia.
  - intros k Hk. apply (G (S k)). exact Hk.
Qed.
Print Assumptions C56_single.
(** A longer minimum distance may or may not be met: either an error or the promised times. *)
Theorem C56_long nframes n dt_min raw t : create_random_time nframes n dt_min raw = Ok t -> length t = nframes /\ forall k, (S k < nframes)%nat -> dt_min <= nth (S k) t 0 - nth k t 0.
Proof. intros E. destruct (@random_time_spec n dt_min raw nframes 0 0 t E) as (L & B & G). split; [exact L|]. intros k Hk. apply (G (S k)). exact Hk. Qed.
Print Assumptions C56_long.
Theorem C56_long_refuted : forall n, 1 <= n -> exists raw, create_random_time 2 n (n + 1) raw = Raise ValueError.
Proof.
  intros n Hn. exists (fun _ => n - 1 - Z.max 0 1). unfold create_random_time. cbn [random_time_loop]. unfold randint. replace (n + 1 - n + 0) with 1 by lia. replace (Z.max 0 1) with 1 by lia.
  destruct (Z.ltb_spec 1 n) as [C|C]; [|reflexivity]. cbn [bind]. rewrite (Z.mod_small (n - 1 - 1)) by lia. replace (Z.max 0 (n + 1 - n + (1 + (n - 1 - 1)))) with n by lia. rewrite Z.ltb_irrefl. reflexivity.
Qed.
Print Assumptions C56_long_refuted.
(** Two cameras: period k contains both exposures k, so the pairing condition holds. *)
Theorem C56_dual nframes n raw1 raw2 : 1 <= n -> exists t1 t2, create_random_times1 nframes n raw1 raw2 = Ok (t1, t2) /\ length t1 = nframes /\ length t2 = nframes /\
  (forall k, (k < nframes)%nat -> 2 * n * Z.of_nat k <= nth k t1 0 < 2 * n * Z.of_nat k + n /\ (nth k t2 0 = 2 * n * Z.of_nat k \/ nth k t2 0 = 2 * n * Z.of_nat k + n)) /\ paired t1 t2 /\ increases t1 /\ increases t2.
Proof.
  intros Hn. destruct (@times1_spec nframes n raw1 raw2 Hn) as (t1 & t2 & E & L1 & L2 & N). exists t1, t2. split; [exact E|]. split; [exact L1|]. split; [exact L2|].
  assert (B : forall k, (k < nframes)%nat -> 2 * n * Z.of_nat k <= nth k t1 0 < 2 * n * Z.of_nat k + n /\ (nth k t2 0 = 2 * n * Z.of_nat k \/ nth k t2 0 = 2 * n * Z.of_nat k + n)).
  { intros k Hk. destruct (N k Hk) as [-> ->]. pose proof (Z.mod_pos_bound (raw1 k) n ltac:(lia)). pose proof (Z.mod_pos_bound (raw2 k) 2 ltac:(lia)). split; [lia|]. assert (X : raw2 k mod 2 = 0 \/ raw2 k mod 2 = 1) by lia. destruct X as [-> | ->]; [left|right]; lia. }
  split; [exact B|]. split; [split; [lia|]; intros k Hk|split; intros k Hk]; pose proof (B k ltac:(lia)); pose proof (B (S k) ltac:(lia)); nia.
Qed.
Print Assumptions C56_dual.
Theorem C56_dual2 nframes n raw1 raw2 raw3 : 1 <= n -> exists t1 t2, create_random_times2 nframes n raw1 raw2 raw3 = Ok (t1, t2) /\ length t1 = nframes /\ length t2 = nframes /\
  (forall k, (k < nframes)%nat -> 2 * n * Z.of_nat k <= nth k t1 0 < 2 * n * Z.of_nat k + n /\ (nth k t2 0 = 2 * n * Z.of_nat k \/ nth k t2 0 = 2 * n * Z.of_nat k + n \/ nth k t2 0 = nth k t1 0)) /\ paired t1 t2 /\ increases t1 /\ increases t2.
Proof.
  intros Hn. destruct (@times2_spec nframes n raw1 raw2 raw3 Hn) as (t1 & t2 & E & L1 & L2 & N). exists t1, t2. split; [exact E|]. split; [exact L1|]. split; [exact L2|].
  assert (B : forall k, (k < nframes)%nat -> 2 * n * Z.of_nat k <= nth k t1 0 < 2 * n * Z.of_nat k + n /\ (nth k t2 0 = 2 * n * Z.of_nat k \/ nth k t2 0 = 2 * n * Z.of_nat k + n \/ nth k t2 0 = nth k t1 0)).
  { intros k Hk. destruct (N k Hk) as [E1 E2]. pose proof (Z.mod_pos_bound (raw1 k) n ltac:(lia)). pose proof (Z.mod_pos_bound (raw2 k) 2 ltac:(lia)). split; [lia|]. destruct (raw3 k mod (2 * n) =? 0); [right; right; exact E2|]. assert (X : raw2 k mod 2 = 0 \/ raw2 k mod 2 = 1) by lia. rewrite E2. destruct X as [-> | ->]; [left|right; left]; lia. }
  split; [exact B|]. split; [split; [lia|]; intros k Hk|split; intros k Hk]; pose proof (B k ltac:(lia)); pose proof (B (S k) ltac:(lia)); nia.
Qed.
Print Assumptions C56_dual2.
(** simple_brownian_video with such times gives exactly nframes dual frames, taken from the walk
    at these times. *)
Lemma fold_max l : forall x, x <= fold_left Z.max l x /\ forall y, In y l -> y <= fold_left Z.max l x.
Proof. induction l as [|a l IH]; intros x; [split; [cbn; lia|intros y []]|]. cbn [fold_left]. destruct (IH (Z.max x a)) as [A B]. split; [lia|]. intros y [<-|Hy]; [lia|apply B; exact Hy]. Qed.
Theorem C56_video (P F : Type) (frame1 frame2 : P -> F) walk t1 t2 : t1 <> [] -> paired t1 t2 -> (forall t, In t (t1 ++ t2) -> 0 <= t) ->
  simple_brownian_video frame1 frame2 walk t1 t2 = Ok (map (fun p => (frame1 (walk (Z.to_nat (fst p))), frame2 (walk (Z.to_nat (snd p))))) (combine t1 t2)).
Proof.
  intros H0 HP HN. assert (HL := proj1 HP). unfold simple_brownian_video. destruct t1 as [|a t1]; [destruct (H0 eq_refl)|]. destruct t2 as [|b t2]; [discriminate|]. cbn [zmax bind].
  destruct (fold_max t1 a) as [A1 A2], (fold_max t2 b) as [B1 B2]. set (m := Z.max (fold_left Z.max t1 a) (fold_left Z.max t2 b)). assert (M : forall t, In t ((a :: t1) ++ b :: t2) -> t <= m).
  { intros t Ht. apply in_app_or in Ht. destruct Ht as [[E|Ht]|[E|Ht]]; [lia|specialize (A2 t Ht); lia|lia|specialize (B2 t Ht); lia]. }
  f_equal. rewrite (@C55_pairs P F (walk 0%nat)) by (try exact HP; intros t Ht; rewrite map_length, seq_length; specialize (M t Ht); specialize (HN t Ht); lia).
  apply map_ext_in. intros [x y] Hp. pose proof (in_combine_l _ _ _ _ Hp) as Hx. pose proof (in_combine_r _ _ _ _ Hp) as Hy. cbn [fst snd].
  assert (Mx := M x (in_or_app _ _ _ (or_introl Hx))). assert (My := M y (in_or_app _ _ _ (or_intror Hy))). assert (Nx := HN x (in_or_app _ _ _ (or_introl Hx))). assert (Ny := HN y (in_or_app _ _ _ (or_intror Hy))).
  rewrite !nth_map_seq by lia. reflexivity.
Qed.
Print Assumptions C56_video.
Example C56_holds : create_random_time 4 5 3 (fun i => Z.of_nat (7 * i + 4)) = Ok [4; 9; 12; 15] /\ create_random_times1 3 4 (fun i => Z.of_nat (3 * i + 2)) (fun i => Z.of_nat i) = Ok ([2; 9; 16], [0; 12; 16]) /\
  create_random_times2 3 4 (fun i => Z.of_nat (3 * i + 2)) (fun i => Z.of_nat i) (fun i => Z.of_nat i - 1) = Ok ([2; 9; 16], [0; 9; 16]) /\
  simple_brownian_video (fun x : nat => x) (fun x => x + 100)%nat (fun i => i) [2; 9; 16] [0; 12; 16] = Ok [(2, 100); (9, 112); (16, 116)]%nat.
Proof. repeat split. Qed.

(* ------------------------------------------------------------------ *)
(** * C57: mirror, brownian_walk *)
(** The loop ends with the only point of [x0,x1) that differs from x by a multiple of the
    length; more iterations than needed are not made. *)
Theorem C57_mirror (K : OFld) (x x0 x1 : K) : archimedean K -> flt K x0 x1 = true ->
  exists y n, (forall fuel, (n < fuel)%nat -> mirror K fuel x x0 x1 = Some y) /\ inside K x0 x1 y /\ congruent K (fsub K x1 x0) x y /\
    forall z, inside K x0 x1 z -> congruent K (fsub K x1 x0) x z -> z = y.
Proof.
  intros A H. destruct (@mirror_ends K x0 x1 x A H) as (y & n & I1 & C & F). exists y, n. split; [exact F|]. split; [exact I1|]. split; [exact C|]. intros z I2 C2. exact (congruent_unique I1 I2 C C2).
Qed.
Print Assumptions C57_mirror.
(** Outside of the documented use: an empty box leaves x alone, a reversed one never ends. *)
Theorem C57_other_boxes (K : OFld) (x x0 x1 : K) fuel : (x0 = x1 -> mirror K fuel x x0 x1 = Some x) /\ (flt K x1 x0 = true -> mirror K fuel x x0 x1 = None).
Proof.
  split.
  - intros ->. unfold mirror, feqb. rewrite flt_irrefl. reflexivity.
  - intros H. unfold mirror, feqb. rewrite H, Bool.andb_false_r. apply mirror_reversed. exact H.
Qed.
Print Assumptions C57_other_boxes.
(** brownian_walk: exactly count arrays of points in the box, each obtained from the one before
    by the step of whatever generator, delta and velocity, up to multiples of the box *)
Theorem C57_walk (K : OFld) x0 count (shape : K * K) step : archimedean K -> flt K (f0 K) (fst shape) = true -> flt K (f0 K) (snd shape) = true ->
  exists l n, (forall fuel, (n < fuel)%nat -> brownian_walk fuel x0 count shape step = Some l) /\ length l = count /\ Forall (Forall (in_box shape)) l /\ is_walk shape step 0 l /\
    (count <> 0%nat -> exists first l', l = first :: l' /\ Forall2 (same_point shape) x0 first).
Proof.
  intros A H1 H2. destruct (@mirror_points_ends K shape x0 A H1 H2) as (y & m & B & C & F). destruct (@walk_ends K shape step count A H1 H2 0%nat y B) as (l & n & L & BL & W & E & FL).
  exists l, (n + m)%nat. split; [intros fuel Hf; unfold brownian_walk; rewrite F by lia; apply FL; lia|]. split; [exact L|]. split; [exact BL|]. split; [exact W|]. intros HC. destruct (E HC) as (l' & ->). exists y, l'. split; [reflexivity|exact C].
Qed.
Print Assumptions C57_walk.
Theorem C57_rationals : archimedean QcO.
Proof. exact Qc_archimedean. Qed.
Print Assumptions C57_rationals.
Definition show_points (l : option (list (list (point QcO)))) := match l with Some l => Some (map (map (fun p => (show (fst p), show (snd p)))) l) | None => None end.
(** A particle moving by (7, -3) in a box of 4 x 5 *)
Example C57_holds : show_points (brownian_walk (K := QcO) 9 [(q 9, q (-1))] 3 (q 4, q 5) (fun i x => map (fun p => (fadd QcO (fst p) (q 7), fadd QcO (snd p) (q (-3)))) x))
  = Some [[((1, 1), (4, 1))]; [((0, 1), (1, 1))]; [((3, 1), (3, 1))]].
Proof. vm_compute. reflexivity. Qed.

(* ------------------------------------------------------------------ *)
(** * C70: coordinate_transform *)
Theorem C70_inside (K : OFld) (shape : K * K) offset rotation data : archimedean K -> flt K (f0 K) (fst shape) = true -> flt K (f0 K) (snd shape) = true ->
  exists out n, (forall fuel, (n < fuel)%nat -> coordinate_transform fuel shape offset rotation data = Some out) /\ Forall (in_box shape) out /\ Forall2 (same_point shape) (map (transform shape offset rotation) data) out.
Proof.
  intros A H1 H2. destruct (@mirror_points_ends K shape (map (transform shape offset rotation) data) A H1 H2) as (y & m & B & C & F). exists y, m. split; [exact F|]. split; assumption.
Qed.
Print Assumptions C70_inside.
(** Without offset and rotation points of the box stay where they are. *)
Theorem C70_identity (K : OFld) fuel (shape : K * K) data : Forall (in_box shape) data -> coordinate_transform (S fuel) shape None None data = Some data.
Proof.
  intros H. unfold coordinate_transform. assert (E : forall p, transform shape None None p = p). { intros [a b]. apply transform_none. } rewrite (map_ext _ (fun p => p) E), map_id. apply mirror_points_inside. exact H.
Qed.
Print Assumptions C70_identity.
(** A rotation is one about the centre of the frame, followed by the offset: the centre moves by
    the offset and distances from it are kept. *)
Theorem C70_rotation (K : OFld) (shape : K * K) (offset : point K) c s p : fadd K (fmul K c c) (fmul K s s) = f1 K ->
  let T := transform shape (Some offset) (Some (c, s)) in
  let sq (u v : point K) := fadd K (fmul K (fsub K (fst u) (fst v)) (fsub K (fst u) (fst v))) (fmul K (fsub K (snd u) (snd v)) (fsub K (snd u) (snd v))) in
  T (frame_center K shape) = padd (frame_center K shape) offset /\ sq (T p) (T (frame_center K shape)) = sq p (frame_center K shape).
Proof. intros H. split; [apply transform_center|apply transform_distance; exact H]. Qed.
Print Assumptions C70_rotation.
(** A quarter turn in a 4 x 4 box with an offset of (1, 0) *)
Example C70_holds : show_points (match coordinate_transform (K := QcO) 9 (q 4, q 4) (Some (q 1, q 0)) (Some (q 0, q 1)) [(q 2, q 2); (q 3, q 2); (q 2, q 0)] with Some l => Some [l] | None => None end)
  = Some [[((3, 1), (2, 1)); ((3, 1), (3, 1)); ((1, 1), (2, 1))]].
Proof. vm_compute. reflexivity. Qed.

(* ------------------------------------------------------------------ *)
(** * C58: adc_clean, _inspect_frame_dtype *)
Theorem C58_clean (K : OFld) trunc saturation black_level maxv : truncates K trunc -> flt K (f0 K) saturation = true ->
  (forall x, (adc_clean K trunc x saturation black_level maxv <= maxv)%nat) /\
  (forall x y, fle x y -> (adc_clean K trunc x saturation black_level maxv <= adc_clean K trunc y saturation black_level maxv)%nat) /\
  (forall x, fle x black_level -> adc_clean K trunc x saturation black_level maxv = 0%nat) /\
  (forall x, fle (fadd K saturation black_level) x -> adc_clean K trunc x saturation black_level maxv = maxv).
Proof.
  intros HT Hs. assert (E : forall x, adc_clean K trunc x saturation black_level maxv = clip K trunc maxv (level K x saturation black_level maxv)) by reflexivity. repeat split.
  - intros x. rewrite E. apply clip_bound. exact HT.
  - intros x y H. rewrite !E. apply clip_mono; [exact HT|]. apply level_mono; assumption.
  - intros x H. rewrite E. apply clip_low; [exact HT|]. rewrite <- (@level_black K saturation black_level maxv Hs). apply level_mono; assumption.
  - intros x H. rewrite E. apply clip_high; [exact HT|]. rewrite <- (@level_sat K saturation black_level maxv Hs). apply level_mono; assumption.
Qed.
Print Assumptions C58_clean.
(** The fixed conversions adc_8bit .. adc_16bit; and they differ from adc by at most one step. *)
Theorem C58_bits (K : OFld) trunc saturation black_level bits : truncates K trunc -> flt K (f0 K) saturation = true ->
  (forall x, (adc_bits K trunc bits x saturation black_level <= 2 ^ bits - 1)%nat) /\
  (forall x y, fle x y -> (adc_bits K trunc bits x saturation black_level <= adc_bits K trunc bits y saturation black_level)%nat) /\
  (forall x, fle x black_level -> adc_bits K trunc bits x saturation black_level = 0%nat) /\
  (forall x, fle (fadd K saturation black_level) x -> adc_bits K trunc bits x saturation black_level = (2 ^ bits - 1)%nat) /\
  (forall x, (adc_clean K trunc x saturation black_level (2 ^ bits - 1) <= adc_bits K trunc bits x saturation black_level <= adc_clean K trunc x saturation black_level (2 ^ bits - 1) + 1)%nat).
Proof.
  intros HT Hs. repeat split.
  - intros x. rewrite adc_bits_scale. apply scale_bound. exact HT.
  - intros x y H. rewrite !adc_bits_scale. apply scale_mono; [exact HT|]. apply ratio_mono; assumption.
  - intros x H. rewrite adc_bits_scale. apply scale_low; [exact HT|]. rewrite <- (@ratio_black K saturation black_level Hs). apply ratio_mono; assumption.
  - intros x H. rewrite adc_bits_scale. apply scale_high. rewrite <- (@ratio_sat K saturation black_level Hs). apply ratio_mono; assumption.
  - rewrite adc_bits_scale. apply (@clip_scale K trunc HT bits).
  - rewrite adc_bits_scale. apply (@clip_scale K trunc HT bits).
Qed.
Print Assumptions C58_bits.
(** adc: a wrong noise model is refused, everything else stays in range, whatever the noise. *)
Theorem C58_adc (K : OFld) trunc noise frame saturation black_level bits model : truncates K trunc ->
  (model = NOther -> adc K trunc noise frame saturation black_level bits model = Raise ValueError) /\
  (model <> NOther -> exists out, adc K trunc noise frame saturation black_level bits model = Ok out /\ length out = length frame /\ forall v, In v out -> (v <= 2 ^ bits - 1)%nat).
Proof.
  intros HT. split; [intros ->; reflexivity|]. intros HM.
  assert (B : forall x, (adc_clean K trunc x saturation black_level (2 ^ bits - 1) <= 2 ^ bits - 1)%nat) by (intros x; apply (@clip_bound K trunc HT)).
  destruct model; try (destruct (HM eq_refl)); (eexists; split; [reflexivity|]; split; [apply map_length|]; intros v Hv; apply in_map_iff in Hv; destruct Hv as (x & <- & _); apply B).
Qed.
Print Assumptions C58_adc.
Theorem C58_rationals : truncates QcO qtrunc.
Proof. exact qtrunc_ok. Qed.
Print Assumptions C58_rationals.
Theorem C58_dtype dtype intensity : _inspect_frame_dtype dtype intensity = Ok dtype <-> (dtype = DUint8 /\ 0 <= intensity <= 255) \/ (dtype = DUint16 /\ 0 <= intensity).
Proof.
  unfold _inspect_frame_dtype. destruct dtype; cbn [fdtype_eqb negb].
  - destruct (Z.gtb_spec intensity 255), (Z.ltb_spec intensity 0); cbn [andb orb]; split; try discriminate; try (intros [[_ ?]|[? _]]; lia || discriminate); intros; try (left; split; [reflexivity|lia]); reflexivity.
  - rewrite Bool.andb_false_r. cbn [orb]. destruct (Z.ltb_spec intensity 0); split; try discriminate; try (intros [[? _]|[_ ?]]; lia || discriminate); intros; try (right; split; [reflexivity|lia]); reflexivity.
  - split; [discriminate|]. intros [[? _]|[? _]]; discriminate.
Qed.
Print Assumptions C58_dtype.
(** "Invalid intensity for dtype": intensities that do not fit into uint16 are accepted. *)
Theorem C58_dtype_refuted : exists intensity, 65535 < intensity /\ _inspect_frame_dtype DUint16 intensity = Ok DUint16.
Proof. exists 65536. split; [lia|reflexivity]. Qed.
Print Assumptions C58_dtype_refuted.
Example C58_holds : map (fun x => adc_clean QcO qtrunc (q x) (q 1000) (q 10) 255) [0; 10; 500; 505; 1009; 1010; 5000] = [0; 0; 124; 126; 254; 255; 255]%nat /\
  map (fun x => adc_bits QcO qtrunc 8 (q x) (q 1000) (q 10)) [0; 10; 500; 505; 1009; 1010; 5000] = [0; 0; 125; 126; 255; 255; 255]%nat.
Proof. split; vm_compute; reflexivity. Qed.

(* ------------------------------------------------------------------ *)
(** * C71: drawing *)
(** draw_psf on a frame of H x W pixels: if no particle is nearer than size to leaving the
    doubled frame, no access is outside the frame, and every pixel receives, modulo the range of
    the type, the sum of the spots of all particles over all pixels that wrap onto it. *)
Theorem C71_psf H W top psf size points im : (0 < H)%nat -> (0 < W)%nat -> 0 < top -> rect H W im ->
  (forall h w, In (h, w) points -> 0 <= h /\ 0 <= w /\ h + size < 2 * Z.of_nat H /\ w + size < 2 * Z.of_nat W) ->
  exists im', draw_psf top psf size 0 points im = Ok im' /\ rect H W im' /\
    ((forall a b, (a < H)%nat -> (b < W)%nat -> 0 <= get im a b < top) -> forall a b, (a < H)%nat -> (b < W)%nat -> 0 <= get im' a b < top) /\
    forall a b, (a < H)%nat -> (b < W)%nat -> get im' a b mod top = (get im a b +
      zsum (combine (seq 0 (length points)) points) (fun p =>
        zsum (zrange (fst (snd p) - size) (fst (snd p) + size + 1)) (fun i0 => zsum (zrange (snd (snd p) - size) (snd (snd p) + size + 1)) (fun j0 =>
          if (i0 mod Z.of_nat H =? Z.of_nat a) && (j0 mod Z.of_nat W =? Z.of_nat b) then psf (fst p) i0 j0 else 0)))) mod top.
Proof. intros. apply draw_psf_ok; assumption. Qed.
Print Assumptions C71_psf.
(** Points of the box and size at most the height and the width: always within the frame *)
Theorem C71_psf_box H W top psf size points im : (0 < H)%nat -> (0 < W)%nat -> 0 < top -> rect H W im -> size <= Z.of_nat H -> size <= Z.of_nat W ->
  (forall h w, In (h, w) points -> 0 <= h < Z.of_nat H /\ 0 <= w < Z.of_nat W) -> exists im', draw_psf top psf size 0 points im = Ok im' /\ rect H W im'.
Proof.
  intros HH HW HT R Sh Sw HP. destruct (@C71_psf H W top psf size points im HH HW HT R) as (im' & E & R' & _); [intros h w Hi; apply HP in Hi; lia|]. exists im'. split; assumption.
Qed.
Print Assumptions C71_psf_box.
(** Otherwise the compiled code accesses memory outside of the frame. *)
Theorem C71_psf_outside H W top psf size points im : (0 < H)%nat -> (0 < W)%nat -> 0 < top -> rect H W im -> 0 <= size -> (forall h w, In (h, w) points -> 0 <= h /\ 0 <= w) ->
  (exists h w, In (h, w) points /\ (2 * Z.of_nat H <= h + size \/ 2 * Z.of_nat W <= w + size)) -> draw_psf top psf size 0 points im = Raise OutOfBounds.
Proof. intros. apply (@draw_psf_out H W); assumption. Qed.
Print Assumptions C71_psf_outside.
Theorem C71_points H W top points intensity im : (0 < H)%nat -> (0 < W)%nat -> 0 < top -> rect H W im -> (forall h w, In (h, w) points -> 0 <= h < Z.of_nat H /\ 0 <= w < Z.of_nat W) ->
  (length points <> length intensity -> draw_points top im points intensity = Raise AssertionError) /\
  (length points = length intensity -> exists im', draw_points top im points intensity = Ok im' /\ rect H W im' /\
    forall a b, (a < H)%nat -> (b < W)%nat -> get im' a b mod top = (get im a b + zsum (combine points intensity) (fun p => if (fst (fst p) =? Z.of_nat a) && (snd (fst p) =? Z.of_nat b) then snd p else 0)) mod top).
Proof.
  intros HH HW HT R HP. unfold draw_points. split; intros HL.
  - replace (length points =? length intensity)%nat with false by lia. reflexivity.
  - rewrite HL, Nat.eqb_refl. destruct (@draw_points_ok H W top HH HW HT points intensity im R HP HL) as (im' & E & R' & _ & G). exists im'. split; [exact E|]. split; assumption.
Qed.
Print Assumptions C71_points.
Example C71_holds : draw_psf 256 (fun k i j => 10 * (i + 1) + j + Z.of_nat k) 1 0 [(0, 0); (2, 1)] [[1; 2; 3]; [4; 5; 6]; [7; 8; 9]] = Ok [[52; 55; 55]; [45; 48; 48]; [38; 41; 41]] /\
  draw_psf 256 (fun k i j => 1) 4 0 [(2, 0)] [[1; 2; 3]; [4; 5; 6]; [7; 8; 9]] = Raise OutOfBounds /\
  draw_points 256 [[1; 2]; [250; 5]] [(1, 0); (0, 1); (1, 0)] [3; 4; 5] = Ok [[1; 6]; [2; 5]].
Proof. repeat split. Qed.

(* ------------------------------------------------------------------ *)
(** * C72: draw_psf in parallel *)
(** One thread after the other gives the sum; *)
Theorem C72_serial top v todo : exists s, steps (race_step top) (Race v (map (fun p => (None, p)) todo)) s /\ r_todo s = [] /\ r_pixel s = fold_left (fun x p => (x + p) mod top) todo v.
Proof.
  revert v. induction todo as [|p todo IH]; intros v; [eexists; split; [apply steps_refl|split; reflexivity]|]. destruct (IH ((v + p) mod top)) as (s & S & E1 & E2). exists s. split; [|split; assumption].
  eapply steps_trans; [apply (@RRead top v [] p (map (fun p => (None, p)) todo))|]. eapply steps_trans; [apply (@RWrite top v [] v p (map (fun p => (None, p)) todo))|]. exact S.
Qed.
Print Assumptions C72_serial.
(** but two particles that cover the same pixel can lose one contribution when drawn by two
    threads. *)
Theorem C72_parallel_refuted : exists s, steps (race_step 256) (Race 0 [(None, 5); (None, 7)]) s /\ r_todo s = [] /\ r_pixel s = 7.
Proof.
  eexists. split; [|split; [|]].
  - eapply steps_trans; [apply (@RRead 256 0 [] 5 [(None, 7)])|]. eapply steps_trans; [apply (@RRead 256 0 [(Some 0, 5)] 7 [])|].
    eapply steps_trans; [apply (@RWrite 256 0 [] 0 5 [(Some 0, 7)])|]. eapply steps_trans; [apply (@RWrite 256 _ [] 0 7 [])|]. apply steps_refl.
  - reflexivity.
  - reflexivity.
Qed.
Print Assumptions C72_parallel_refuted.
