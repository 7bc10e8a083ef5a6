(** C109: the check boxes of the correlation viewers. *)
From Coq Require Import ZifyBool.
From Verif Require Import Base NormModel CheckModel.
Open Scope Z_scope.
Open Scope list_scope.
Local Notation length := List.length.
Set Implicit Arguments.

(** The normalizations that data permits, by bits: 1 standard, 2 structured (needs the sum of squares), 4 subtracted and 8 compensated (need
    the sums of the signals).  Differences are structured. *)
Definition allowed (t : tuple) (n : Z) : Prop :=
  match t with
  | Corr sq s1 => 1 <= n <= 15 /\ n mod 4 <> 0 /\ (Z.testbit n 1 = true -> sq = true) /\ (Z.testbit n 2 = true \/ Z.testbit n 3 = true -> s1 = true)
  | Diff s1 s2 => n = 2 \/ (n = 6 /\ s1 = true /\ s2 = true)
  | Other => False
  end.
Definition sixteen : list Z := [0; 1; 2; 3; 4; 5; 6; 7; 8; 9; 10; 11; 12; 13; 14; 15].
Lemma in_sixteen n : 0 <= n <= 15 -> In n sixteen.
Proof. intros H. unfold sixteen. cbn [In]. lia. Qed.
Ltac cases16 H := unfold sixteen in H; cbn [In] in H; repeat (destruct H as [<-|H]; [|]); [..|destruct H].
(** set_norm accepts exactly these, and gives them back. *)
Theorem C109_allowed t n : allowed t n /\ set_norm t (Some n) = Ok n \/ ~ allowed t n /\ set_norm t (Some n) = Raise ValueError.
Proof.
  destruct (Z_le_dec 0 n) as [L0|L0]; [destruct (Z_le_dec n 15) as [L1|L1]|].
  - pose proof (@in_sixteen n (Logic.conj L0 L1)) as H. clear L0 L1. destruct t as [sq s1|s1 s2|].
    + cases16 H; destruct sq, s1; (left; split; [cbn; intuition (try lia; try congruence)|vm_compute; reflexivity]) || (right; split; [cbn; intuition (try lia; try congruence)|vm_compute; reflexivity]).
    + cases16 H; destruct s1, s2; (left; split; [cbn; intuition (try lia; try congruence); fail|vm_compute; reflexivity]) || (right; split; [cbn; intuition (try lia; try congruence)|vm_compute; reflexivity]).
    + right. split; [intros []|reflexivity].
  - right. assert (Q : forall l, (forall z, In z l -> z <= 15) -> in_list n l = false).
    { intros l Hl. unfold in_list. destruct (existsb _ l) eqn:E; [|reflexivity]. apply existsb_exists in E. destruct E as (z & I & E). specialize (Hl z I). lia. }
    destruct t as [sq s1|s1 s2|]; cbn [allowed set_norm]; (split; [lia|]); [| |reflexivity].
    + unfold _norm_from_ccorr_data. destruct sq, s1; cbn [negb]; rewrite Q by (intros z Hz; cbn [In] in Hz; lia); reflexivity.
    + unfold _norm_from_cdiff_data. rewrite Q by (intros z Hz; vm_compute in Hz; intuition lia). reflexivity.
  - right. assert (Q : forall l, (forall z, In z l -> 0 <= z) -> in_list n l = false).
    { intros l Hl. unfold in_list. destruct (existsb _ l) eqn:E; [|reflexivity]. apply existsb_exists in E. destruct E as (z & I & E). specialize (Hl z I). lia. }
    destruct t as [sq s1|s1 s2|]; cbn [allowed set_norm]; (split; [lia|]); [| |reflexivity].
    + unfold _norm_from_ccorr_data. destruct sq, s1; cbn [negb]; rewrite Q by (intros z Hz; cbn [In] in Hz; lia); reflexivity.
    + unfold _norm_from_cdiff_data. rewrite Q by (intros z Hz; vm_compute in Hz; intuition lia). reflexivity.
Qed.
Print Assumptions C109_allowed.

(** The boxes show the norm: subtracted and compensated as they are; without weighted, structured or standard; with weighted, both. *)
Definition agree (s : state) : Prop :=
  let (b, n) := s in 0 <= n <= 15 /\ Z.testbit n 2 = subtracted b /\ Z.testbit n 3 = compensated b /\ Z.testbit n 1 = (structured b || weighted b) /\ Z.testbit n 0 = (negb (structured b) || weighted b).
Lemma agree_norm b n : agree (b, n) <-> n = norm_of b.
Proof.
  split.
  - intros (R & H1 & H2 & H3 & H4). apply in_sixteen in R. destruct b as [[] [] [] []]; cases16 R; try reflexivity; vm_compute in H1, H2, H3, H4; discriminate.
  - intros ->. destruct b as [[] [] [] []]; vm_compute; repeat split; discriminate.
Qed.
Lemma turn_back l b : turn l (turn l b) = b.
Proof. destruct l, b as [[] [] [] []]; reflexivity. Qed.

(** A click: the box is turned and the norm set, if the data permits it; otherwise nothing changes.  One call inside of the other is enough. *)
Theorem C109_click t l b n depth : agree (b, n) -> allowed t n -> (2 <= depth)%nat ->
  exists b' n', click_box depth t l (b, n) = Some (b', n') /\ agree (b', n') /\ allowed t n' /\
    ((allowed t (norm_of (turn l b)) -> b' = turn l b) /\ (~ allowed t (norm_of (turn l b)) -> b' = b /\ n' = n)).
Proof.
  intros A P D. destruct depth as [|[|depth]]; [lia|lia|]. cbn [click_box fst snd]. destruct (C109_allowed t (norm_of (turn l b))) as [[P1 ->]|[P1 ->]].
  - exists (turn l b), (norm_of (turn l b)). split; [reflexivity|]. split; [apply agree_norm; reflexivity|]. split; [exact P1|]. split; [reflexivity|contradiction].
  - rewrite turn_back. apply agree_norm in A. rewrite <- A. destruct (C109_allowed t n) as [[_ ->]|[N _]]; [|contradiction].
    exists b, n. split; [reflexivity|]. split; [apply agree_norm; exact A|]. split; [exact P|]. split; [contradiction|auto].
Qed.
Print Assumptions C109_click.
Lemma open_agree t norm b n : open_boxes t norm = Ok (b, n) -> agree (b, n) /\ allowed t n /\ (forall m, norm = Some m -> n = m).
Proof.
  unfold open_boxes. destruct norm as [m|].
  - destruct (C109_allowed t m) as [[P ->]|[P ->]]; [|discriminate]. cbn [bind]. intros E. injection E as <- <-. split; [|split; [exact P|congruence]]. apply agree_norm.
    assert (R : 1 <= m <= 15 /\ m mod 4 <> 0). { destruct t as [sq s1|s1 s2|]; cbn in P; [tauto| |destruct P]. destruct P as [->|(-> & _)]; vm_compute; intuition discriminate. }
    destruct R as [R R4]. assert (I : In m sixteen) by (apply in_sixteen; lia). clear P R. cases16 I; try reflexivity; exfalso; apply R4; reflexivity.
  - destruct t as [[] []|[] []|]; vm_compute; intros E; try discriminate E; injection E as <- <-; (split; [repeat split; discriminate|split; [intuition (try lia; try congruence)|discriminate]]).
Qed.
(** In every session the boxes show the norm that is used, which the data permits. *)
Theorem C109_session t norm b n ls depth : open_boxes t norm = Ok (b, n) -> (2 <= depth)%nat ->
  exists b' n', clicks depth t ls (b, n) = Some (b', n') /\ agree (b', n') /\ allowed t n' /\ (ls = [] -> norm <> None -> norm = Some n').
Proof.
  intros E D. apply open_agree in E. destruct E as (A & P & Em).
  assert (G : forall ls b n, agree (b, n) -> allowed t n -> exists b' n', clicks depth t ls (b, n) = Some (b', n') /\ agree (b', n') /\ allowed t n').
  { clear - D. induction ls as [|l ls IH]; intros b n A P; [exists b, n; auto|]. cbn [clicks]. destruct (@C109_click t l b n depth A P D) as (b' & n' & -> & A' & P' & _). apply IH; assumption. }
  destruct ls as [|l ls].
  - exists b, n. split; [reflexivity|]. split; [exact A|]. split; [exact P|]. intros _ Hn. destruct norm as [m|]; [|congruence]. f_equal. symmetry. apply Em. reflexivity.
  - destruct (G (l :: ls) b n A P) as (b' & n' & H1 & H2 & H3). exists b', n'. split; [exact H1|]. split; [exact H2|]. split; [exact H3|]. discriminate.
Qed.
Print Assumptions C109_session.
(** Every norm that the data permits is reached with at most four clicks, from every norm. *)
Definition path (b b' : boxes) : list label :=
  (if Bool.eqb (structured b) (structured b') then [] else [Structured]) ++ (if Bool.eqb (subtracted b) (subtracted b') then [] else [Subtracted]) ++
  (if Bool.eqb (weighted b) (weighted b') then [] else [Weighted]) ++ (if Bool.eqb (compensated b) (compensated b') then [] else [Compensated]).
Theorem C109_reach t b n m : agree (b, n) -> allowed t n -> allowed t m -> exists ls b', (length ls <= 4)%nat /\ clicks 2 t ls (b, n) = Some (b', m).
Proof.
  intros A P Q. apply agree_norm in A. subst n. exists (path b (active m)), (active m). split.
  { unfold path. rewrite !app_length. repeat match goal with |- context [if ?c then _ else _] => destruct c end; cbn; lia. }
  destruct (C109_allowed t (norm_of b)) as [[_ P']|[N _]]; [|contradiction]. clear P.
  destruct (C109_allowed t m) as [[_ Q']|[N _]]; [|contradiction].
  assert (I : In m sixteen). { apply in_sixteen. destruct t as [sq s1|s1 s2|]; cbn in Q; [lia| |destruct Q]. destruct Q as [->|(-> & _)]; lia. } clear Q.
  destruct t as [[] []|[] []|]; [..|discriminate P']; destruct b as [[] [] [] []]; (vm_compute in P'; try discriminate P'); cases16 I; vm_compute in Q'; try discriminate Q'; vm_compute; reflexivity.
Qed.
Print Assumptions C109_reach.
(** With weighted on, the box structured changes nothing: two different states of the boxes are one norm. *)
Theorem C109_structured_refuted t b n : agree (b, n) -> allowed t n -> weighted b = true -> click_box 2 t Structured (b, n) = Some (turn Structured b, n) /\ turn Structured b <> b.
Proof.
  intros A P W. pose proof A as A0. apply agree_norm in A0. assert (E : norm_of (turn Structured b) = n) by (subst n; destruct b as [[] [] [] []]; (discriminate W || reflexivity)).
  cbn [click_box fst snd]. rewrite E. destruct (C109_allowed t n) as [[_ ->]|[N _]]; [|contradiction]. split; [reflexivity|]. destruct b as [[] [] [] []]; discriminate.
Qed.
Print Assumptions C109_structured_refuted.
(** New data (set_data with the figure open) that permits neither the norm of the boxes nor the one of the click: update calls itself without end. *)
Theorem C109_recursion_refuted t l b n : ~ allowed t (norm_of b) -> ~ allowed t (norm_of (turn l b)) -> forall depth, click_box depth t l (b, n) = None.
Proof.
  intros N1 N2 depth. assert (G : forall b, ~ allowed t (norm_of b) -> ~ allowed t (norm_of (turn l b)) -> click_box depth t l (b, n) = None); [|apply G; assumption].
  clear b N1 N2. induction depth as [|depth IH]; intros b N1 N2; [reflexivity|]. cbn [click_box fst snd]. destruct (C109_allowed t (norm_of (turn l b))) as [[P _]|[_ ->]]; [contradiction|].
  apply IH; [exact N2|rewrite turn_back; exact N1].
Qed.
Print Assumptions C109_recursion_refuted.

(** Data with all sums: from the default 7 to 9; data without the sum of squares refuses structured; after a change of the data there is no end. *)
Example C109_example : open_boxes (Corr true true) None = Ok (Boxes true true true false, 7) /\
  clicks 2 (Corr true true) [Structured; Weighted; Subtracted; Compensated] (Boxes true true true false, 7) = Some (Boxes false false false true, 9) /\
  open_boxes (Corr false true) (Some 5) = Ok (Boxes false true false false, 5) /\ clicks 2 (Corr false true) [Structured; Compensated] (Boxes false true false false, 5) = Some (Boxes false true false true, 13) /\
  open_boxes (Corr false false) (Some 2) = Raise ValueError /\ open_boxes (Diff true true) None = Ok (Boxes true true false false, 6) /\
  ~ allowed (Corr false false) (norm_of (Boxes true true true false)) /\ ~ allowed (Corr false false) (norm_of (turn Subtracted (Boxes true true true false))).
Proof. repeat split; try (vm_compute; reflexivity); cbn; intuition congruence. Qed.
