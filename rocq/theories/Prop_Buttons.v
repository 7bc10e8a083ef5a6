(** C103: The buttons of the video viewer. *)
From Coq Require Import ZifyBool ZifyNat.
From Verif Require Import Base ViewerModel Prop_Viewer ButtonModel.
Open Scope Z_scope.
Open Scope list_scope.
Local Notation length := List.length.
Set Implicit Arguments.

(** Induction over clicks and the clicks during their pauses *)
Section Induction.
  Variable P : click -> Prop.
  Hypothesis HN : P Next. Hypothesis HNF : P NextFast. Hypothesis HP : P Prev. Hypothesis HPF : P PrevFast. Hypothesis HS : P Stop.
  Hypothesis HPl : forall ps, Forall (Forall P) ps -> P (Play ps).
  Hypothesis HFF : forall ps, Forall (Forall P) ps -> P (FastForward ps).
  Fixpoint click_induction (c : click) : P c :=
    let fix one (p : list click) : Forall P p := match p with [] => Forall_nil P | c :: p => Forall_cons c (click_induction c) (one p) end in
    let fix all (ps : list (list click)) : Forall (Forall P) ps := match ps with [] => Forall_nil _ | p :: ps => Forall_cons p (one p) (all ps) end in
    match c with Next => HN | NextFast => HNF | Prev => HP | PrevFast => HPF | Stop => HS | Play ps => HPl (all ps) | FastForward ps => HFF (all ps) end.
End Induction.

Section Buttons.
  Variable count : Z.
  Hypothesis Hc : 1 <= count.
  (** The slider is on a frame of the video, and so were all frames that were asked for *)
  Definition inside (s : player) : Prop := 0 <= val s < 100 * count /\ 1 <= step s /\ Forall (fun i => 0 <= i < count) (shown s).
  Lemma set_val_inside v s : inside s -> 0 <= v < 100 * count -> inside (set_val v s).
  Proof using Hc. intros (_ & H2 & H3) Hv. split; [exact Hv|]. split; [exact H2|]. cbn. apply Forall_app. split; [exact H3|]. constructor; [|constructor]. rewrite Z.quot_div_nonneg by lia. split; [apply Z.div_pos; lia|apply Z.div_lt_upper_bound; lia]. Qed.
  Lemma set_playing_inside b s : inside s -> inside (set_playing b s).
  Proof using. intros H. exact H. Qed.
  Lemma advance_inside s : inside s -> inside (advance count s).
  Proof using Hc. intros H. unfold advance. destruct (Z.geb_spec (val s + step s) (100 * count)); [exact H|]. destruct H as (H1 & H2 & H3). apply set_val_inside; [split; [exact H1|split; assumption]|lia]. Qed.
  Lemma coast_inside fuel : forall s, inside s -> inside (coast count fuel s).
  Proof using Hc. induction fuel as [|fuel IH]; intros s H; [exact H|]. cbn [coast]. destruct (playing s); [apply IH, advance_inside, H|exact H]. Qed.
  Lemma coast_ends fuel : forall s, 1 <= step s -> (Z.to_nat (100 * count - val s) < fuel)%nat -> playing (coast count fuel s) = false.
  Proof using.
    induction fuel as [|fuel IH]; intros s Hs Hf; [lia|]. cbn [coast]. destruct (playing s) eqn:E; [|exact E]. unfold advance. destruct (Z.geb_spec (val s + step s) (100 * count)); [|apply IH; unfold set_val; cbn [val step]; lia].
    destruct fuel; reflexivity.
  Qed.
  Definition pause_ := fix pause (p : list click) (s : player) : player := match p with [] => s | c :: p => pause p (clicked count c s) end.
  Definition loop_ := fix loop (ps : list (list click)) (s : player) : player :=
    if playing s then match ps with [] => coast count (rounds count s) s | p :: ps => loop ps (advance count (pause_ p s)) end else s.
  Lemma clicked_play ps s : clicked count (Play ps) s = loop_ ps (set_step 100 (set_playing true s)) /\ clicked count (FastForward ps) s = loop_ ps (set_step count (set_playing true s)).
  Proof using. split; reflexivity. Qed.
  Lemma clicked_inside c : forall s, inside s -> inside (clicked count c s).
  Proof using Hc.
    assert (L : forall ps, Forall (Forall (fun c => forall s, inside s -> inside (clicked count c s))) ps -> forall s, inside s -> inside (loop_ ps s)).
    { induction 1 as [|p ps Hp _ IH]; intros s H; cbn [loop_]; destruct (playing s); try exact H; [apply coast_inside, H|]. apply IH, advance_inside. clear IH. revert s H. induction Hp as [|x p Hx _ IHp]; intros s H; [exact H|]. cbn [pause_]. apply IHp, Hx, H. }
    induction c using click_induction; intros s Hs; pose proof Hs as (H1 & H2 & H3); try (apply set_val_inside; [exact Hs|lia]); [exact Hs| |]; rewrite ?(proj1 (clicked_play ps s)), ?(proj2 (clicked_play ps s)); apply L; try assumption; (split; [exact H1|split; [cbn; lia|exact H3]]).
  Qed.
  Lemma session_inside l : forall s, inside s -> inside (session count l s).
  Proof using Hc. induction l as [|c l IH]; intros s H; [exact H|]. cbn. apply IH, clicked_inside, H. Qed.
  Lemma start_inside : inside player_start.
  Proof using Hc. unfold inside, player_start. cbn [val step shown]. split; [lia|]. split; [lia|constructor]. Qed.

  (** Whatever is clicked, also while the video is playing: only frames of the video are asked for. *)
  Theorem C103_range (A : Type) (video : list A) l : count = Z.of_nat (length video) -> forall i, In i (shown (session count l player_start)) -> exists f, update_list video i = Ok f.
  Proof using Hc.
    intros E i Hi. destruct (session_inside l start_inside) as (_ & _ & H). rewrite Forall_forall in H. specialize (H i Hi). destruct (@C84_list A video (Z.to_nat i)) as (f & Ef & _); [lia|]. exists f. rewrite Z2Nat.id in Ef by lia. exact Ef.
  Qed.
  Lemma pause_inside p : forall s, inside s -> inside (pause_ p s).
  Proof using Hc. induction p as [|c p IH]; intros s H; [exact H|]. cbn [pause_]. apply IH, clicked_inside, H. Qed.
  Lemma loop_ends ps : forall s, inside s -> playing (loop_ ps s) = false.
  Proof using Hc.
    induction ps as [|p ps IH]; intros s H; cbn [loop_]; destruct (playing s) eqn:E; try exact E; [|apply IH, advance_inside, pause_inside, H]. apply coast_ends; [apply H|unfold rounds; lia].
  Qed.
  (** Playing always ends: at the last frame at the latest, also if the user goes back or starts it again during the pauses. *)
  Theorem C103_ends c s : inside s -> (exists ps, c = Play ps \/ c = FastForward ps) -> playing (clicked count c s) = false.
  Proof using Hc. intros (H1 & H2 & H3) (ps & [-> | ->]); rewrite ?(proj1 (clicked_play ps s)), ?(proj2 (clicked_play ps s)); apply loop_ends; (split; [exact H1|split; [cbn; lia|exact H3]]). Qed.

  Lemma coast_shown m : forall fuel s, 1 <= step s -> playing s = true -> val s + Z.of_nat m * step s < 100 * count <= val s + (Z.of_nat m + 1) * step s -> (Z.to_nat (100 * count - val s) < fuel)%nat ->
    coast count fuel s = Player (val s + Z.of_nat m * step s) (step s) false (shown s ++ map (fun j => Z.quot (val s + Z.of_nat j * step s) 100) (seq 1 m)).
  Proof using.
    induction m as [|m IH]; intros fuel s Hs Hp Hv Hf; (destruct fuel as [|fuel]; [lia|]); cbn [coast]; rewrite Hp; unfold advance.
    - destruct (Z.geb_spec (val s + step s) (100 * count)); [|nia]. assert (E : coast count fuel (set_playing false s) = set_playing false s) by (destruct fuel; reflexivity). rewrite E. cbn [seq map]. rewrite app_nil_r. unfold set_playing. f_equal. lia.
    - destruct (Z.geb_spec (val s + step s) (100 * count)); [nia|]. rewrite IH; cbn [set_val val step playing shown]; try assumption; try lia.
      rewrite <- app_assoc. cbn [app seq map]. f_equal; [lia|]. f_equal. f_equal; [f_equal; lia|]. rewrite <- (seq_shift m 1), map_map. apply map_ext. intros j. f_equal. lia.
  Qed.
  (** Play without further clicks: every frame after the present one, once and in order, up to the last one. *)
  Theorem C103_play k st pl sh : 0 <= k < count ->
    clicked count (Play []) (Player (100 * k) st pl sh) = Player (100 * (count - 1)) 100 false (sh ++ map (fun j => k + Z.of_nat j) (seq 1 (Z.to_nat (count - 1 - k)))).
  Proof using Hc.
    intros Hk. rewrite (proj1 (clicked_play [] _)). unfold set_step, set_playing. cbn [loop_ val step playing shown]. rewrite (@coast_shown (Z.to_nat (count - 1 - k))); cbn [val step playing shown]; try reflexivity; try (unfold rounds; cbn [val]; lia).
    f_equal; [lia|]. f_equal. apply map_ext. intros j. replace (100 * k + Z.of_nat j * 100) with ((k + Z.of_nat j) * 100) by lia. apply Z.quot_mul. lia.
  Qed.
  (** FF without further clicks, from the first frame: in 99 steps, the frames j * count // 100 *)
  Theorem C103_fast st pl sh : clicked count (FastForward []) (Player 0 st pl sh) = Player (99 * count) count false (sh ++ map (fun j => Z.of_nat j * count / 100) (seq 1 99)).
  Proof using Hc.
    rewrite (proj2 (clicked_play [] _)). unfold set_step, set_playing. cbn [loop_ val step playing shown]. rewrite (@coast_shown 99%nat); cbn [val step playing shown]; try reflexivity; try (unfold rounds; cbn [val]; lia).
    rewrite (map_ext (fun j => Z.quot (0 + Z.of_nat j * count) 100) (fun j => Z.of_nat j * count / 100)); [reflexivity|]. intros j. rewrite Z.quot_div_nonneg by lia. f_equal.
  Qed.
  (** Stop during a pause: one more frame is shown, then it is still. *)
  Theorem C103_stop k st pl sh before after : 0 <= k -> k + Z.of_nat before + 1 < count ->
    clicked count (Play (repeat [] before ++ [Stop] :: after)) (Player (100 * k) st pl sh) =
    Player (100 * (k + Z.of_nat before + 1)) 100 false (sh ++ map (fun j => k + Z.of_nat j) (seq 1 before) ++ [k + Z.of_nat before + 1]).
  Proof using Hc.
    intros Hk Hb. rewrite (proj1 (clicked_play _ _)). unfold set_step, set_playing. cbn [val step shown playing].
    assert (G : forall before k sh, 0 <= k -> k + Z.of_nat before + 1 < count -> loop_ (repeat [] before ++ [Stop] :: after) (Player (100 * k) 100 true sh) =
      Player (100 * (k + Z.of_nat before + 1)) 100 false (sh ++ map (fun j => k + Z.of_nat j) (seq 1 before) ++ [k + Z.of_nat before + 1])); [|apply G; assumption].
    clear. induction before as [|b IH]; intros k sh Hk Hb; cbn [repeat app loop_ playing].
    - cbn [pause_ clicked]. unfold set_playing. cbn [val step playing shown]. unfold advance. cbn [val step]. destruct (Z.geb_spec (100 * k + 100) (100 * count)); [lia|].
      assert (E : forall ps s, playing s = false -> loop_ ps s = s) by (intros [|? ?] s E; cbn [loop_]; rewrite E; reflexivity). rewrite E by reflexivity. unfold set_val. cbn [val step playing shown set_playing].
      f_equal; [lia|]. cbn [seq map app]. f_equal. f_equal. replace (100 * k + 100) with ((k + 1) * 100) by lia. rewrite Z.quot_mul by lia. lia.
    - cbn [pause_]. unfold advance at 1. cbn [val step]. destruct (Z.geb_spec (100 * k + 100) (100 * count)); [lia|]. unfold set_val. cbn [val step playing shown].
      replace (100 * k + 100) with (100 * (k + 1)) by lia. rewrite IH by lia. f_equal; [lia|]. rewrite <- app_assoc. cbn [app seq map]. f_equal. replace (Z.quot (100 * (k + 1)) 100) with (k + 1) by (rewrite (Z.mul_comm 100), Z.quot_mul by lia; reflexivity). f_equal.
      rewrite <- (seq_shift b 1), map_map. f_equal; [apply map_ext; intros j; lia|]. f_equal. lia.
  Qed.
  (** The single steps: one frame on, one frame back, and not beyond the ends *)
  Theorem C103_steps k st pl sh : 0 <= k < count ->
    clicked count Next (Player (100 * k) st pl sh) = Player (100 * Z.min (k + 1) (count - 1)) st pl (sh ++ [Z.min (k + 1) (count - 1)]) /\
    clicked count Prev (Player (100 * k) st pl sh) = Player (100 * Z.max (k - 1) 0) st pl (sh ++ [Z.max (k - 1) 0]) /\
    (k + 1 < count -> val (clicked count Prev (clicked count Next (Player (100 * k) st pl sh))) = 100 * k).
  Proof using Hc.
    intros Hk. unfold clicked, set_val. cbn [val step playing shown]. split; [|split].
    - replace (Z.min (100 * k + 100) (100 * (count - 1))) with (100 * Z.min (k + 1) (count - 1)) by lia. rewrite (Z.mul_comm 100) at 2. rewrite Z.quot_mul by lia. reflexivity.
    - replace (Z.max (100 * k - 100) 0) with (100 * Z.max (k - 1) 0) by lia. rewrite (Z.mul_comm 100) at 2. rewrite Z.quot_mul by lia. reflexivity.
    - lia.
  Qed.
  (** After every click of a session the viewer is still: it plays only during the loop of a button. *)
  Theorem C103_still l : playing (session count l player_start) = false.
  Proof using Hc.
    assert (G : forall l s, inside s -> playing s = false -> playing (session count l s) = false).
    { clear l. induction l as [|c l IH]; intros s H1 H2; [exact H2|]. change (session count (c :: l) s) with (session count l (clicked count c s)). apply IH; [apply clicked_inside; exact H1|].
      destruct c as [| | | | |ps|ps]; try exact H2; try reflexivity; apply C103_ends; try exact H1; exists ps; auto. }
    apply G; [apply start_inside|reflexivity].
  Qed.
End Buttons.
Print Assumptions C103_still.
Print Assumptions C103_range.
Print Assumptions C103_ends.
Print Assumptions C103_play.
Print Assumptions C103_fast.
Print Assumptions C103_stop.
Print Assumptions C103_steps.

(** The buttons >>> and <<< are not faster than > and < before FF was used, and after Play again: they use the step of the last playing.
    For a video of less than 100 frames FF is slower than Play, and after it >>> and <<< may show the same frame again. *)
Theorem C103_fast_refuted :
  shown (session 1000 [NextFast; NextFast] player_start) = shown (session 1000 [Next; Next] player_start) /\
  val (clicked 1000 NextFast (Player 0 1000 false [])) = 1000 /\ val (session 1000 [Play []; PrevFast] (Player 0 1000 false [])) = 100 * 998 /\
  (let s := clicked 10 (FastForward []) player_start in length (shown s) = 99%nat /\ length (shown (clicked 10 (Play []) player_start)) = 9%nat /\ shown (clicked 10 PrevFast s) = shown s ++ [9]).
Proof. split; [vm_compute; reflexivity|]. split; [vm_compute; reflexivity|]. split; [vm_compute; reflexivity|]. vm_compute. repeat split. Qed.
Print Assumptions C103_fast_refuted.
(** A video of 5 frames: play, stop in the second pause, one frame back, play again with a click on Play and one on < during the pauses *)
Example C103_example : session 5 [Play [[]; [Stop]]; Prev; Play [[Prev]; [Play []]]] player_start = Player 400 100 false [1; 2; 1; 0; 1; 2; 3; 4] /\ inside 5 player_start.
Proof. split; [vm_compute; reflexivity|]. apply start_inside. lia. Qed.
