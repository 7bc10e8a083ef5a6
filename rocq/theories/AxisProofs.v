(** Arrays of any number of axes: every pixel is computed as if it were alone. *)
From Coq Require Import String.
From Verif Require Import Base Kernels CoreModel VecModel VecProofs FftModel NormModel CorrModel NormArrayModel NormArrayProofs AxisModel.
Open Scope string_scope.
Open Scope nat_scope.
Local Notation length := List.length.
Set Implicit Arguments.
Arguments row_map {A x s n} p _.
Arguments row_length {A x s n} p _.

(** The time series of the pixel [p] when the time is axis [a] *)
Definition series (A : Type) (f : nd A) (a : nat) (p : list nat) : list A := map (fun t => at_ f (ins a t p)) (seq 0 (nth a (shape f) 0)).

(** ** Lists *)
Lemma nth_all A (l : list A) e : map (fun i => nth i l e) (seq 0 (length l)) = l.
Proof. induction l as [|x l IH]; [reflexivity|]. cbn [length seq map nth]. f_equal. rewrite <- seq_shift, map_map. exact IH. Qed.
Lemma del_length A a (l : list A) : a < length l -> length (del a l) = length l - 1.
Proof. intros H. unfold del. rewrite app_length, firstn_length, skipn_length. lia. Qed.
Lemma ins_end A k (v : A) l : length l = k -> ins k v l = (l ++ [v])%list.
Proof. intros <-. unfold ins. rewrite firstn_all, skipn_all. reflexivity. Qed.
Lemma ins_mid A k (v w : A) d : length d = k -> ins k v (d ++ [w]) = (d ++ [v; w])%list.
Proof. intros <-. unfold ins. rewrite firstn_app, skipn_app, firstn_all, skipn_all, Nat.sub_diag. cbn [firstn skipn app]. rewrite app_nil_r. reflexivity. Qed.
Lemma del_end A k (t : A) p : length p = k -> del k (p ++ [t]) = p.
Proof. intros <-. unfold del. rewrite firstn_app, skipn_app, firstn_all, Nat.sub_diag, (skipn_all2 p) by lia. replace (S (length p) - length p) with 1 by lia. cbn [firstn skipn app]. rewrite !app_nil_r. reflexivity. Qed.
Lemma del_mid A k (i j : A) d : length d = k -> del k (d ++ [i; j]) = (d ++ [j])%list.
Proof. intros <-. unfold del. rewrite firstn_app, skipn_app, firstn_all, Nat.sub_diag, (skipn_all2 d) by lia. replace (S (length d) - length d) with 1 by lia. cbn [firstn skipn app]. rewrite !app_nil_r. reflexivity. Qed.
Lemma nth_end A k (t : A) p x : length p = k -> nth k (p ++ [t]) x = t.
Proof. intros <-. rewrite app_nth2, Nat.sub_diag by lia. reflexivity. Qed.
Lemma nth_mid A k (i j : A) d x : length d = k -> nth k (d ++ [i; j]) x = i.
Proof. intros <-. rewrite app_nth2, Nat.sub_diag by lia. reflexivity. Qed.
Lemma firstn_end A k (l : list A) r : length l = k -> firstn k (l ++ r) = l.
Proof. intros <-. rewrite firstn_app, firstn_all, Nat.sub_diag. cbn [firstn]. apply app_nil_r. Qed.
Lemma skipn_end A k (l : list A) r : length l = k -> skipn k (l ++ r) = r.
Proof. intros <-. rewrite skipn_app, skipn_all, Nat.sub_diag. reflexivity. Qed.
Lemma skipn_S A k (l : list A) x r : length l = k -> skipn (S k) (l ++ x :: r) = r.
Proof. intros H. replace (l ++ x :: r)%list with ((l ++ [x]) ++ r)%list by (rewrite <- app_assoc; reflexivity). apply skipn_end. rewrite app_length, H. cbn [length]. lia. Qed.
Lemma valid_length p s : valid p s -> length p = length s.
Proof. unfold valid. induction 1 as [|? ? ? ? ? ? IH]; [reflexivity|]. cbn [length]. congruence. Qed.
Lemma indices_all s : forall p, valid p s -> In p (indices s).
Proof.
  induction s as [|d s IH]; intros p H; inversion H as [|a b p' s' H1 H2]; subst; [left; reflexivity|]. cbn [indices]. apply in_flat_map. exists a. split; [apply in_seq; lia|]. apply in_map. apply IH. exact H2.
Qed.
Lemma valid_app_inv p s w : valid p (s ++ [w]) -> exists q j, p = (q ++ [j])%list /\ valid q s /\ j < w.
Proof.
  intros H. unfold valid in H. apply Forall2_app_inv_r in H. destruct H as (q & l & H1 & H2 & ->). inversion H2 as [|j b l' s' H3 H4]; subst. inversion H4; subst. exists q, j. split; [reflexivity|]. split; assumption.
Qed.
Lemma split_last A (l : list A) n : length l = S n -> exists d w, l = (d ++ [w])%list /\ length d = n.
Proof. intros H. destruct (exists_last (l := l)) as (d & w & E); [intros ->; discriminate H|]. exists d, w. split; [exact E|]. subst l. rewrite app_length in H. cbn [length] in H. lia. Qed.

(** ** Moving axes *)
Lemma axis_last r : 0 < r -> norm_axis r (-1) = Ok (r - 1).
Proof. intros H. unfold norm_axis. destruct (Z.leb_spec (- Z.of_nat r) (-1)); [|lia]. destruct (Z.ltb_spec (-1) (Z.of_nat r)); [|lia]. cbn [andb]. change (-1 <? 0)%Z with true. cbn iota. f_equal. lia. Qed.
Lemma axis_mid r : 1 < r -> norm_axis r (-2) = Ok (r - 2).
Proof. intros H. unfold norm_axis. destruct (Z.leb_spec (- Z.of_nat r) (-2)); [|lia]. destruct (Z.ltb_spec (-2) (Z.of_nat r)); [|lia]. cbn [andb]. change (-2 <? 0)%Z with true. cbn iota. f_equal. lia. Qed.
Lemma axis_lt r axis a : norm_axis r axis = Ok a -> a < r.
Proof. unfold norm_axis. destruct (Z.leb_spec (- Z.of_nat r) axis); [|discriminate]. destruct (Z.ltb_spec axis (Z.of_nat r)); [|discriminate]. cbn [andb]. destruct (Z.ltb_spec axis 0); intros E; injection E as <-; lia. Qed.

Lemma move_last A (f : nd A) axis a : norm_axis (rank f) axis = Ok a ->
  exists f', moveaxis f axis (-1) = Ok f' /\ shape f' = (del a (shape f) ++ [nth a (shape f) 0])%list /\
    forall p t, length p = length (del a (shape f)) -> at_ f' (p ++ [t]) = at_ f (ins a t p).
Proof.
  intros E. pose proof (axis_lt _ _ E) as Ha. unfold rank in *. unfold moveaxis, rank. rewrite E. cbn [bind]. rewrite axis_last by lia. cbn [bind]. eexists. split; [reflexivity|]. cbn [shape at_].
  pose proof (del_length (shape f) Ha) as L. split; [apply ins_end; exact L|]. intros p t Hp. rewrite nth_end, del_end by lia. reflexivity.
Qed.
Lemma move_any A (f : nd A) axis a always : norm_axis (rank f) axis = Ok a ->
  exists f', (if always : bool then moveaxis f axis (-1) else _move_axis_and_align f axis (-1)) = Ok f' /\ shape f' = (del a (shape f) ++ [nth a (shape f) 0])%list /\
    forall p t, length p = length (del a (shape f)) -> at_ f' (p ++ [t]) = at_ f (ins a t p).
Proof.
  intros E. destruct always; [apply move_last; exact E|]. unfold _move_axis_and_align. destruct (Nat.ltb_spec 1 (rank f)); [apply move_last; exact E|].
  pose proof (axis_lt _ _ E) as Ha. unfold rank in *. exists f. split; [reflexivity|]. destruct (shape f) as [|x [|y l]]; cbn [length] in *; try lia. replace a with 0 by lia. cbn. split; [reflexivity|]. intros p t Hp. destruct p; [reflexivity|discriminate Hp].
Qed.
Lemma move_mid A (f : nd A) axis a d w always : norm_axis (rank f) axis = Ok a -> del a (shape f) = (d ++ [w])%list ->
  exists f', (if always : bool then moveaxis f axis (-2) else _move_axis_and_align f axis (-2)) = Ok f' /\ shape f' = (d ++ [nth a (shape f) 0; w])%list /\
    forall p i j, length p = length d -> at_ f' (p ++ [i; j]) = at_ f (ins a i (p ++ [j])).
Proof.
  intros E D. pose proof (axis_lt _ _ E) as Ha. unfold rank in *. pose proof (del_length (shape f) Ha) as L. rewrite D, app_length in L. cbn [length] in L.
  assert (M : exists f', moveaxis f axis (-2) = Ok f' /\ shape f' = (d ++ [nth a (shape f) 0; w])%list /\ forall p i j, length p = length d -> at_ f' (p ++ [i; j]) = at_ f (ins a i (p ++ [j]))).
  { unfold moveaxis, rank. rewrite E. cbn [bind]. rewrite axis_mid by lia. cbn [bind]. eexists. split; [reflexivity|]. cbn [shape at_]. rewrite D. split; [apply ins_mid; lia|]. intros p i j Hp. rewrite nth_mid, del_mid by lia. reflexivity. }
  destruct always; [exact M|]. unfold _move_axis_and_align, rank. destruct (Nat.ltb_spec 1 (length (shape f))); [exact M|lia].
Qed.
(** Exchange of the last two axes *)
Lemma swap_last A (x : nd A) d u v : shape x = (d ++ [u; v])%list ->
  exists y, moveaxis x (-2) (-1) = Ok y /\ shape y = (d ++ [v; u])%list /\ forall p i j, length p = length d -> at_ y (p ++ [i; j]) = at_ x (p ++ [j; i]).
Proof.
  intros E. unfold moveaxis, rank. rewrite E, app_length. cbn [length]. rewrite axis_mid, axis_last by lia. cbn [bind]. replace (length d + 2 - 2) with (length d) by lia. replace (length d + 2 - 1) with (length d + 1) by lia. eexists. split; [reflexivity|]. cbn [shape at_].
  rewrite nth_mid, del_mid by reflexivity. split; [rewrite ins_end by (rewrite app_length; reflexivity); rewrite <- app_assoc; reflexivity|]. intros p i j Hp.
  replace (p ++ [i; j])%list with ((p ++ [i]) ++ [j])%list by (rewrite <- app_assoc; reflexivity). rewrite nth_end, del_end by (rewrite app_length; cbn; lia). rewrite ins_mid by exact Hp. reflexivity.
Qed.
Lemma keep_last A (x : nd A) d u : shape x = (d ++ [u])%list ->
  exists y, moveaxis x (-1) (-1) = Ok y /\ shape y = (d ++ [u])%list /\ forall p i, length p = length d -> at_ y (p ++ [i]) = at_ x (p ++ [i]).
Proof.
  intros E. unfold moveaxis, rank. rewrite E, app_length. cbn [length]. rewrite axis_last by lia. cbn [bind]. replace (length d + 1 - 1) with (length d) by lia. eexists. split; [reflexivity|]. cbn [shape at_].
  rewrite nth_end, del_end by reflexivity. split; [rewrite ins_end by reflexivity; reflexivity|]. intros p i Hp. rewrite nth_end, del_end by exact Hp. rewrite ins_end by exact Hp. reflexivity.
Qed.
Lemma row_ext A (x : nd A) d u p : shape x = (d ++ [u])%list -> forall g, (forall t, t < u -> at_ x (p ++ [t]) = g t) -> row x p = map g (seq 0 u).
Proof. intros E g H. rewrite (row_map p E). apply map_ext_in. intros t Ht. apply in_seq in Ht. apply H. lia. Qed.
Arguments row_ext {A x d u} p _ g _.
Lemma mat_length A (x : nd A) d u v p : shape x = (d ++ [u; v])%list -> length (mat x p) = u.
Proof. intros E. unfold mat, rank. rewrite map_length, seq_length, E, app_length. cbn [length]. replace (length d + 2 - 2) with (length d) by lia. apply nth_mid. reflexivity. Qed.
Lemma mat_map A (x : nd A) d u v p : shape x = (d ++ [u; v])%list -> mat x p = map (fun i => map (fun j => at_ x (p ++ [i; j])%list) (seq 0 v)) (seq 0 u).
Proof. intros E. unfold mat, rank. rewrite E, app_length. cbn [length]. replace (length d + 2 - 2) with (length d) by lia. rewrite nth_mid by reflexivity. replace (d ++ [u; v])%list with ((d ++ [u]) ++ [v])%list by (rewrite <- app_assoc; reflexivity). rewrite last_last. reflexivity. Qed.
Lemma mat_rect A (x : nd A) d u v p : shape x = (d ++ [u; v])%list -> rect v (mat x p).
Proof. intros E. rewrite (@mat_map _ x d u v p E). apply Forall_forall. intros r Hr. apply in_map_iff in Hr. destruct Hr as (i & <- & _). rewrite map_length, seq_length. reflexivity. Qed.
Lemma mat_pixel A (x : nd A) d u v p j e : shape x = (d ++ [u; v])%list -> j < v -> pixel e j (mat x p) = map (fun i => at_ x (p ++ [i; j])%list) (seq 0 u).
Proof.
  intros E Hj. unfold pixel. rewrite (@mat_map _ x d u v p E), map_map. apply map_ext. intros i. rewrite (nth_indep _ e (at_ x (p ++ [i; 0])%list)) by (rewrite map_length, seq_length; exact Hj). rewrite (map_nth (fun j => at_ x (p ++ [i; j])%list)). rewrite seq_nth by exact Hj. reflexivity.
Qed.

(** ** Output arrays *)
(** The length of the axis of delays *)
Definition outlen (B : Type) (aout : option (nd B)) (n : nat) (complex : bool) : nat := match aout with Some o => last (shape o) 0 | None => if complex then 2 * n - 1 else n end.

Lemma out_last B (zero : B) aout fr L n complex : (forall o, aout = Some o -> exists m, shape o = (fr ++ [m])%list) ->
  match _default_out_nd zero aout (fr ++ [L]) n (-1) complex with
  | Ok out => shape out = (fr ++ [outlen aout n complex])%list /\ forall p, length p = length fr -> _default_out zero (option_map (fun o => row o p) aout) n complex = Ok (row out p)
  | Raise e => forall p, _default_out zero (option_map (fun o => row o p) aout) n complex = Raise e
  end.
Proof.
  intros Ha. unfold _default_out_nd. rewrite app_length. cbn [length]. rewrite axis_last by lia. cbn [bind]. replace (length fr + 1 - 1) with (length fr) by lia. rewrite firstn_end, skipn_S by reflexivity.
  destruct aout as [o|].
  - destruct (Ha o eq_refl) as (m & E). unfold shape_at. rewrite E, app_length. cbn [length]. rewrite axis_last by lia. cbn [bind]. replace (length fr + 1 - 1) with (length fr) by lia. rewrite nth_end by reflexivity. destruct (@keep_last _ o fr m E) as (y & Ey & Sy & Py). unfold _transpose_data. rewrite Ey. cbn [bind]. destruct (list_eq_dec Nat.eq_dec (shape y) (fr ++ [m])) as [_|N]; [|contradiction].
    split; [unfold outlen; rewrite E, last_last; exact Sy|]. intros p Hp. cbn [option_map _default_out]. f_equal. rewrite (row_map p E). symmetry. apply (row_ext p Sy). intros t _. apply Py. exact Hp.
  - assert (R : forall k p, length p = length fr -> row (Nd (fr ++ [k])%list (fun _ => zero)) p = repeat zero k). { intros k p _. unfold row. cbn [shape at_]. rewrite last_last. clear. generalize 0 as i. induction k as [|k IH]; intros i; [reflexivity|]. cbn [seq map repeat]. f_equal. apply IH. }
    cbn [option_map _default_out]. destruct complex; [destruct (n =? 0); [reflexivity|]|]; (split; [reflexivity|]; intros p Hp; rewrite (R _ p Hp); reflexivity).
Qed.
Lemma out_mid B (zero : B) aout d L w n complex : (forall o, aout = Some o -> exists m, shape o = (d ++ [w; m])%list) ->
  match _default_out_nd zero aout (d ++ [L; w]) n (-2) complex with
  | Ok out => shape out = (d ++ [outlen aout n complex; w])%list /\ forall p j, length p = length d -> j < w -> _default_out zero (option_map (fun o => row o (p ++ [j])) aout) n complex = Ok (pixel zero j (mat out p))
  | Raise e => forall p, _default_out zero (option_map (fun o => row o p) aout) n complex = Raise e
  end.
Proof.
  intros Ha. unfold _default_out_nd. rewrite app_length. cbn [length]. rewrite axis_mid by lia. cbn [bind]. replace (length d + 2 - 2) with (length d) by lia. rewrite firstn_end, skipn_S by reflexivity.
  destruct aout as [o|].
  - destruct (Ha o eq_refl) as (m & E). unfold shape_at. rewrite E, app_length. cbn [length]. rewrite axis_last by lia. cbn [bind]. replace (nth (length d + 2 - 1) (d ++ [w; m]) 0) with m by (replace (d ++ [w; m])%list with ((d ++ [w]) ++ [m])%list by (rewrite <- app_assoc; reflexivity); rewrite nth_end by (rewrite app_length; cbn; lia); reflexivity).
    destruct (@swap_last _ o d w m E) as (y & Ey & Sy & Py). unfold _transpose_data. rewrite Ey. cbn [bind]. destruct (list_eq_dec Nat.eq_dec (shape y) (d ++ [m; w])) as [_|N]; [|contradiction].
    split; [unfold outlen; rewrite E; replace (d ++ [w; m])%list with ((d ++ [w]) ++ [m])%list by (rewrite <- app_assoc; reflexivity); rewrite last_last; exact Sy|]. intros p j Hp Hj. cbn [option_map _default_out]. f_equal. rewrite (@mat_pixel _ y d m w p j zero Sy Hj). rewrite (row_map (s := (d ++ [w])%list) (n := m)) by (rewrite E, <- app_assoc; reflexivity). apply map_ext. intros t. rewrite Py by exact Hp. rewrite <- app_assoc. reflexivity.
  - assert (R : forall k p j, length p = length d -> j < w -> pixel zero j (mat (Nd (d ++ [k; w])%list (fun _ => zero)) p) = repeat zero k). { intros k p j Hp Hj. rewrite (@mat_pixel _ (Nd (d ++ [k; w])%list (fun _ => zero)) d k w p j zero eq_refl Hj). cbn [at_]. clear. generalize 0 as i. induction k as [|k IH]; intros i; [reflexivity|]. cbn [seq map repeat]. f_equal. apply IH. }
    cbn [option_map _default_out]. destruct complex; [destruct (n =? 0); [reflexivity|]|]; (split; [reflexivity|]; intros p j Hp Hj; rewrite (R _ p j Hp Hj); reflexivity).
Qed.

(** ** The common body *)
Section Run.
  Variables (A B T : Type) (dA : A) (zero : B) (complex always : bool).
  Variable inspect : res nat -> option nat -> res (T * nat).
  Variable over_last : T -> bool.
  Variable kernel1 : T -> nat -> res (list A -> list A -> list B -> res (list B)).
  Variable kernel2 : T -> nat -> res (list (list A) -> list (list A) -> list (list B) -> list (list B)).
  (** The function for one pixel *)
  Definition single (f1 f2 : list A) (aout : option (list B)) : res (list B) :=
    let* (ts, n) := inspect (Ok (length f1)) (option_map (@length B) aout) in
    let* out := _default_out zero aout n complex in
    let* k := kernel1 ts (length f1) in
    k f1 f2 out.
  Hypothesis keeps : forall ts L k x y o r, kernel1 ts L = Ok k -> k x y o = Ok r -> length r = length o.
  Hypothesis vec : forall ts L, over_last ts = false ->
    match kernel2 ts L with
    | Ok k2 => exists k1, kernel1 ts L = Ok k1 /\ forall w j m1 m2 mo, j < w -> rect w m1 -> rect w m2 -> rect w mo -> length m1 = L -> length m2 = L ->
                 length (k2 m1 m2 mo) = length mo /\ k1 (pixel dA j m1) (pixel dA j m2) (pixel zero j mo) = Ok (pixel zero j (k2 m1 m2 mo))
    | Raise e => kernel1 ts L = Raise e
    end.

  Theorem run_pixels f1 f2 axis aout a s : shape f1 = s -> shape f2 = s -> norm_axis (length s) axis = Ok a ->
    (forall o, aout = Some o -> exists m, shape o = (del a s ++ [m])%list) ->
    let pixel p := single (series f1 a p) (series f2 a p) (option_map (fun o => row o p) aout) in
    (forall out, run_nd zero complex always inspect over_last kernel1 kernel2 f1 f2 axis aout = Ok out ->
       (exists ts n, inspect (Ok (nth a s 0)) (option_map (fun o => last (shape o) 0) aout) = Ok (ts, n) /\ shape out = (del a s ++ [outlen aout n complex])%list) /\ forall p, valid p (del a s) -> pixel p = Ok (row out p)) /\
    ((exists p, valid p (del a s)) -> (forall p, valid p (del a s) -> exists r, pixel p = Ok r) ->
       exists out, run_nd zero complex always inspect over_last kernel1 kernel2 f1 f2 axis aout = Ok out).
  Proof.
    intros E1 E2 Ea Ha pixel'. pose proof (axis_lt _ _ Ea) as La. pose proof (del_length s La) as LD.
    set (fr := del a s) in *. set (L := nth a s 0).
    assert (SL : forall (f : nd A), shape f = s -> forall p, length (series f a p) = L) by (intros f Ef p; unfold series; rewrite map_length, seq_length, Ef; reflexivity).
    (* the length of aout *)
    assert (AL : exists al, match aout with None => Ok None | Some o => let* l := shape_at (shape o) (-1) in Ok (Some l) end = Ok al /\ al = option_map (fun o => last (shape o) 0) aout /\ forall p, option_map (@length B) (option_map (fun o => row o p) aout) = al).
    { destruct aout as [o|]; [|exists None; repeat split; reflexivity]. destruct (Ha o eq_refl) as (m & E). exists (Some m). unfold shape_at. rewrite E, app_length. cbn [length]. rewrite axis_last by lia. cbn [bind]. rewrite nth_end by lia. split; [reflexivity|]. split; [cbn [option_map]; rewrite E, last_last; reflexivity|]. intros p. cbn [option_map]. rewrite (row_length p E). reflexivity. }
    destruct AL as (al & EAL & EAL' & PAL).
    assert (KEY : match run_nd zero complex always inspect over_last kernel1 kernel2 f1 f2 axis aout with
      | Ok out => (exists ts n, inspect (Ok (nth a s 0)) (option_map (fun o => last (shape o) 0) aout) = Ok (ts, n) /\ shape out = (del a s ++ [outlen aout n complex])%list) /\ forall p, valid p fr -> pixel' p = Ok (row out p)
      | Raise e => (exists p, valid p fr) -> (forall p, valid p fr -> exists r, pixel' p = Ok r) -> False
      end).
    2:{ destruct (run_nd zero complex always inspect over_last kernel1 kernel2 f1 f2 axis aout) as [out|e]; (split; [intros o Eo|intros X Y]).
        - injection Eo as <-. exact KEY.
        - exists out. reflexivity.
        - discriminate Eo.
        - destruct (KEY X Y). }
    unfold run_nd. unfold rank. rewrite E1, E2. destruct (Nat.eqb_spec (length s) 0) as [Z|_]; [lia|]. destruct (list_eq_dec Nat.eq_dec s s) as [_|N]; [|congruence]. cbn [orb]. rewrite EAL. cbn [bind].
    unfold shape_at at 1. rewrite Ea. cbn [bind]. fold L.
    destruct (inspect (Ok L) al) as [[ts n]|e] eqn:EI; cbn [bind].
    2:{ intros (p & Hp) HA. destruct (HA p Hp) as (r & Er). unfold pixel', single in Er. rewrite (SL f1 E1), PAL, EI in Er. discriminate Er. }
    assert (PX : forall p, pixel' p = let* out := _default_out zero (option_map (fun o => row o p) aout) n complex in let* k := kernel1 ts L in k (series f1 a p) (series f2 a p) out).
    { intros p. unfold pixel', single. rewrite (SL f1 E1), PAL, EI. reflexivity. }
    assert (R1 : norm_axis (rank f1) axis = Ok a) by (unfold rank; rewrite E1; exact Ea). assert (R2 : norm_axis (rank f2) axis = Ok a) by (unfold rank; rewrite E2; exact Ea).
    destruct ((length s <=? 1) || over_last ts)%bool eqn:OL.
    - (* over the last axis *)
      destruct (@move_any _ f1 axis a always R1) as (g1 & -> & S1 & P1). cbn [bind]. destruct (@move_any _ f2 axis a always R2) as (g2 & -> & S2 & P2). cbn [bind]. rewrite E1 in S1, P1. rewrite E2 in S2, P2. fold fr in S1, P1, S2, P2. fold L in S1, S2.
      assert (W1 : forall p, length p = length fr -> row g1 p = series f1 a p). { intros p Hp. unfold series. rewrite E1. fold L. apply (row_ext p S1). intros t _. apply P1. exact Hp. }
      assert (W2 : forall p, length p = length fr -> row g2 p = series f2 a p). { intros p Hp. unfold series. rewrite E2. fold L. apply (row_ext p S2). intros t _. apply P2. exact Hp. }
      rewrite S1. pose proof (@out_last _ zero aout fr L n complex Ha) as HO. destruct (_default_out_nd zero aout (fr ++ [L]) n (-1) complex) as [out|e]; cbn [bind].
      2:{ intros (p & Hp) HA. destruct (HA p Hp) as (r & Er). rewrite PX, HO in Er. discriminate Er. }
      destruct HO as (So & Po). set (m := outlen aout n complex) in *. unfold shape_at. rewrite app_length. cbn [length]. rewrite axis_last by lia. cbn [bind]. replace (length fr + 1 - 1) with (length fr) by lia. rewrite nth_end by reflexivity.
      destruct (kernel1 ts L) as [k|e] eqn:EK; cbn [bind].
      2:{ intros (p & Hp) HA. destruct (HA p Hp) as (r & Er). rewrite PX, (Po p (valid_length Hp)) in Er. discriminate Er. }
      assert (PK : forall p, valid p fr -> pixel' p = k (row g1 p) (row g2 p) (row out p)). { intros p Hp. pose proof (valid_length Hp) as Hl. rewrite PX, (Po p Hl). cbn [bind]. rewrite (W1 p Hl), (W2 p Hl). reflexivity. }
      unfold gu1. rewrite So, removelast_last. destruct (map_res _ (indices fr)) as [rows|e] eqn:EM; cbn [bind].
      + destruct (@keep_last _ (Nd (fr ++ [m])%list (fun q => match k (row g1 (removelast q)) (row g2 (removelast q)) (row out (removelast q)) with Ok r => nth (last q 0) r zero | Raise _ => zero end)) fr m eq_refl) as (y & Ey & Sy & Py).
        unfold _transpose_data. rewrite Ey. split; [exists ts, n; split; [rewrite <- EAL'; exact EI|exact Sy]|]. intros p Hp. rewrite (PK p Hp).
        destruct (@map_res_Ok _ _ _ (indices fr) rows [] [] EM) as (_ & HM). destruct (In_nth (indices fr) p [] (@indices_all fr p Hp)) as (i & Hi & Ei). specialize (HM i Hi). rewrite Ei in HM. rewrite HM. f_equal.
        pose proof (keeps _ _ _ EK HM) as HL. rewrite (row_length p So) in HL. rewrite <- (nth_all (nth i rows []) zero), HL. symmetry. apply (row_ext p Sy). intros t Ht. rewrite Py by (apply valid_length; exact Hp). cbn [at_]. rewrite removelast_last, last_last, HM. reflexivity.
      + intros _ HA. destruct (@map_res_all _ _ (fun p => k (row g1 p) (row g2 p) (row out p)) (indices fr)) as (ys & Ey).
        { intros p Hp. apply indices_valid in Hp. rewrite <- (PK p Hp). apply HA. exact Hp. } rewrite Ey in EM. discriminate EM.
    - (* over the last but one *)
      apply Bool.orb_false_iff in OL. destruct OL as [OL1 OL2]. apply Nat.leb_gt in OL1. destruct (@split_last _ fr (length s - 2)) as (d & w & D & Ld); [lia|].
      assert (D1 : del a (shape f1) = (d ++ [w])%list) by (rewrite E1; exact D). assert (D2 : del a (shape f2) = (d ++ [w])%list) by (rewrite E2; exact D).
      destruct (@move_mid _ f1 axis a d w always R1 D1) as (g1 & -> & S1 & P1). cbn [bind]. destruct (@move_mid _ f2 axis a d w always R2 D2) as (g2 & -> & S2 & P2). cbn [bind]. rewrite E1 in S1. rewrite E2 in S2. fold L in S1, S2.
      assert (W1 : forall p j, length p = length d -> j < w -> pixel dA j (mat g1 p) = series f1 a (p ++ [j])). { intros p j Hp Hj. unfold series. rewrite E1. fold L. rewrite (@mat_pixel _ g1 d L w p j dA S1 Hj). apply map_ext. intros t. apply P1. exact Hp. }
      assert (W2 : forall p j, length p = length d -> j < w -> pixel dA j (mat g2 p) = series f2 a (p ++ [j])). { intros p j Hp Hj. unfold series. rewrite E2. fold L. rewrite (@mat_pixel _ g2 d L w p j dA S2 Hj). apply map_ext. intros t. apply P2. exact Hp. }
      rewrite S1. assert (Ha' : forall o, aout = Some o -> exists m, shape o = (d ++ [w; m])%list). { intros o Eo. destruct (Ha o Eo) as (m & Em). exists m. rewrite Em, D, <- app_assoc. reflexivity. }
      pose proof (@out_mid _ zero aout d L w n complex Ha') as HO. destruct (_default_out_nd zero aout (d ++ [L; w]) n (-2) complex) as [out|e]; cbn [bind].
      2:{ intros (p & Hp) HA. destruct (HA p Hp) as (r & Er). rewrite PX, HO in Er. discriminate Er. }
      destruct HO as (So & Po). set (m := outlen aout n complex) in *. unfold shape_at. rewrite app_length. cbn [length]. rewrite axis_mid by lia. cbn [bind]. replace (length d + 2 - 2) with (length d) by lia. rewrite nth_mid by reflexivity.
      pose proof (@vec ts L OL2) as VK. destruct (kernel2 ts L) as [k2|e]; cbn [bind].
      2:{ intros (p & Hp) HA. destruct (HA p Hp) as (r & Er). rewrite PX in Er. rewrite D in Hp. destruct (@valid_app_inv _ _ _ Hp) as (q & j & -> & Hq & Hj). rewrite (Po q j (valid_length Hq) Hj), VK in Er. discriminate Er. }
      destruct VK as (k1 & EK & VK).
      destruct (@swap_last _ (gu2 zero k2 g1 g2 out) d m w So) as (y & Ey & Sy & Py). unfold _transpose_data. rewrite Ey.
      split; [exists ts, n; split; [rewrite <- EAL'; exact EI|rewrite Sy; fold fr; rewrite D, <- app_assoc; reflexivity]|].
      intros p Hp. rewrite D in Hp. destruct (@valid_app_inv _ _ _ Hp) as (q & j & -> & Hq & Hj). pose proof (valid_length Hq) as Hl. rewrite PX, (Po q j Hl Hj). cbn [bind]. rewrite EK. cbn [bind]. rewrite <- (W1 q j Hl Hj), <- (W2 q j Hl Hj).
      destruct (VK w j (mat g1 q) (mat g2 q) (mat out q) Hj (@mat_rect _ g1 d L w q S1) (@mat_rect _ g2 d L w q S2) (@mat_rect _ out d m w q So) (@mat_length _ g1 d L w q S1) (@mat_length _ g2 d L w q S2)) as (KL & KE). rewrite KE. f_equal.
      rewrite (row_map (s := (d ++ [w])%list) (n := m)) by (rewrite Sy, <- app_assoc; reflexivity). unfold pixel. rewrite (@mat_length _ out d m w q So) in KL. transitivity (map (fun i => nth j (nth i (k2 (mat g1 q) (mat g2 q) (mat out q)) []) zero) (seq 0 m)).
      { rewrite <- (map_map (fun i => nth i (k2 (mat g1 q) (mat g2 q) (mat out q)) []) (fun r => nth j r zero)). rewrite <- KL, nth_all. reflexivity. }
      apply map_ext. intros t. rewrite <- app_assoc. cbn [app]. rewrite Py by exact Hl. unfold gu2. cbn [at_]. replace (q ++ [t; j])%list with ((q ++ [t]) ++ [j])%list by (rewrite <- app_assoc; reflexivity). rewrite last_last, removelast_last, last_last, removelast_last. reflexivity.
  Qed.
End Run.
