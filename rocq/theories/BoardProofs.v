(** Proofs about ChArUco identifiers and board geometry (C05-C07). *)
From Coq Require Import List ZArith Lia ZifyNat Reals Lra FinFun.
From Verif Require Import BoardModel BoardSpec.
Import ListNotations.
Close Scope R_scope.
Open Scope nat_scope.
Ltac Zify.zify_post_hook ::= Z.div_mod_to_equations.

(** ** Number of markers *)
Lemma row_count nx y :
  length (filter (fun '(x, y0) => negb (Bool.eqb (Nat.even x) (Nat.even y0))) (map (fun x => (x, y)) (seq 0 nx)))
  = if Nat.even y then nx / 2 else (nx + 1) / 2.
Proof.
  induction nx as [|nx IH].
  - cbn. destruct (Nat.even y); reflexivity.
  - rewrite seq_S, map_app, filter_app, app_length, IH. cbn [map filter Nat.add].
    destruct (Nat.even nx) eqn:Ex.
    + apply Nat.even_spec in Ex. destruct Ex as [k ->].
      destruct (Nat.even y); cbn [Bool.eqb negb length]; lia.
    + assert (Ho : Nat.odd nx = true) by (unfold Nat.odd; rewrite Ex; auto).
      apply Nat.odd_spec in Ho. destruct Ho as [k ->].
      destruct (Nat.even y); cbn [Bool.eqb negb length]; lia.
Qed.

Lemma markers_count nx ny : markers nx ny = nx * ny / 2.
Proof.
  unfold markers, squares.
  induction ny as [|ny IH].
  - cbn. rewrite Nat.mul_0_r. reflexivity.
  - rewrite seq_S. cbn [Nat.add]. rewrite flat_map_app, filter_app, app_length, IH.
    cbn [flat_map]. rewrite app_nil_r, row_count.
    destruct (Nat.even ny) eqn:Ey.
    + apply Nat.even_spec in Ey. destruct Ey as [k ->].
      replace (nx * (2 * k)) with ((nx * k) * 2) by lia.
      replace (nx * S (2 * k)) with (nx * k * 2 + nx) by lia.
      rewrite Nat.div_mul by lia. rewrite Nat.div_add_l by lia. auto.
    + assert (Ho : Nat.odd ny = true) by (unfold Nat.odd; rewrite Ey; auto).
      apply Nat.odd_spec in Ho. destruct Ho as [k ->].
      replace (nx * (2 * k + 1)) with ((nx * k) * 2 + nx) by lia.
      replace (nx * S (2 * k + 1)) with (nx * k * 2 + 2 * nx) by lia.
      rewrite !Nat.div_add_l by lia. generalize (nx * k). intros. lia.
Qed.

(** ** OpenCV < 4.7 *)
Definition ids_from (off : nat) (n : nat) : list Z := map Z.of_nat (seq off n).

Definition prev_len (prev : option charuco) : nat :=
  match prev with Some p => length (ch_ids p) | None => 0 end.

(** one board's identifiers given how many were used before *)
Fixpoint spec_boards (n : nat) (xs ys : list Z) (used : nat) : option (list charuco) :=
  match n with
  | O => Some []
  | S n => match xs, ys with
    | nx :: xs, ny :: ys =>
      let m := markers (Z.to_nat nx) (Z.to_nat ny) in
      match spec_boards n xs ys (used + m) with
      | Some r => Some (mkCh nx ny (ids_from used m) :: r)
      | None => None
      end
    | _, _ => None
    end
  end.

Lemma shift_ids n off : map (fun i => (i + Z.of_nat off)%Z) (ids_from 0 n) = ids_from off n.
Proof.
  unfold ids_from. rewrite map_map. 
  replace (seq off n) with (map (fun k => k + off) (seq 0 n)).
  - rewrite map_map. apply map_ext. intros; lia.
  - clear. revert off. induction n as [|n IH]; intros off; auto.
    rewrite !seq_S, map_app, IH. cbn. f_equal. f_equal. lia.
Qed.

Lemma create_old_spec n : forall xs ys prev off used,
  (prev = None -> off = 0%Z /\ used = 0) ->
  (forall p, prev = Some p -> (Z.of_nat (length (ch_ids p)) + off)%Z = Z.of_nat used) ->
  create_old n xs ys prev off = spec_boards n xs ys used.
Proof.
  induction n as [|n IH]; intros xs ys prev off used Hn Hp; cbn; auto.
  destruct xs as [|nx xs]; auto. destruct ys as [|ny ys]; auto.
  destruct prev as [p|].
  - rewrite (Hp p eq_refl). unfold standard_ids. fold (ids_from 0 (markers (Z.to_nat nx) (Z.to_nat ny))).
    rewrite shift_ids.
    rewrite (IH _ _ _ _ (used + markers (Z.to_nat nx) (Z.to_nat ny))); auto; [discriminate|].
    intros q [= <-]. cbn [ch_ids]. unfold ids_from. rewrite map_length, seq_length. lia.
  - destruct (Hn eq_refl) as [-> ->]. unfold standard_ids. fold (ids_from 0 (markers (Z.to_nat nx) (Z.to_nat ny))).
    rewrite (IH _ _ _ _ (0 + markers (Z.to_nat nx) (Z.to_nat ny))); auto; [discriminate|].
    intros q [= <-]. cbn [ch_ids]. unfold ids_from. rewrite map_length, seq_length. lia.
Qed.

Lemma old_spec n xs ys : createCharucoBoards_old n xs ys = spec_boards n xs ys 0.
Proof. apply create_old_spec; auto. discriminate. Qed.

Lemma spec_total n : forall xs ys used, n <= length xs -> n <= length ys ->
  exists r, spec_boards n xs ys used = Some r.
Proof.
  induction n as [|n IH]; intros xs ys used Hx Hy; cbn; eauto.
  destruct xs as [|nx xs]; cbn in *; [lia|]. destruct ys as [|ny ys]; cbn in *; [lia|].
  destruct (IH xs ys (used + markers (Z.to_nat nx) (Z.to_nat ny))) as [r ->]; eauto; lia.
Qed.

Lemma spec_none n : forall xs ys used, spec_boards n xs ys used <> None -> n <= length xs /\ n <= length ys.
Proof.
  induction n as [|n IH]; intros xs ys used H; [lia|]. cbn in H.
  destruct xs as [|nx xs]; [congruence|]. destruct ys as [|ny ys]; [congruence|].
  destruct (spec_boards n xs ys (used + markers (Z.to_nat nx) (Z.to_nat ny))) eqn:E; [|congruence].
  cbn. destruct (IH xs ys (used + markers (Z.to_nat nx) (Z.to_nat ny))); [congruence|lia].
Qed.

Lemma spec_props n : forall xs ys used r, spec_boards n xs ys used = Some r ->
  length r = n /\
  (forall k, nth_error (map ch_nx r) k = nth_error (firstn n xs) k) /\
  (forall k, nth_error (map ch_ny r) k = nth_error (firstn n ys) k) /\
  Forall (fun c => length (ch_ids c) = markers (Z.to_nat (ch_nx c)) (Z.to_nat (ch_ny c))) r /\
  concat (map ch_ids r) = ids_from used (length (concat (map ch_ids r))).
Proof.
  induction n as [|n IH]; intros xs ys used r; cbn.
  - intros [= <-]. cbn. auto.
  - destruct xs as [|nx xs]; [discriminate|]. destruct ys as [|ny ys]; [discriminate|].
    destruct (spec_boards n xs ys (used + markers (Z.to_nat nx) (Z.to_nat ny))) as [r'|] eqn:E; [|discriminate].
    intros [= <-]. destruct (IH _ _ _ _ E) as (A & B & C & D & F).
    cbn [map length]. split; [lia|]. split; [intros [|k]; cbn; auto|]. split; [intros [|k]; cbn; auto|].
    split.
    + constructor; auto. cbn. unfold ids_from. rewrite map_length, seq_length. auto.
    + cbn [concat ch_ids]. rewrite F at 1. rewrite app_length. unfold ids_from.
      rewrite <- map_app. f_equal. rewrite !map_length, !seq_length. rewrite seq_app. auto.
Qed.

Lemma spec_prefix n : forall m xs ys xs' ys' used r,
  n <= m -> spec_boards m xs ys used = Some r ->
  firstn n xs = firstn n xs' -> firstn n ys = firstn n ys' ->
  spec_boards n xs' ys' used = Some (firstn n r).
Proof.
  induction n as [|n IH]; intros m xs ys xs' ys' used r Hm Hs Hx Hy; cbn; auto.
  destruct m as [|m]; [lia|]. cbn in Hs.
  destruct xs as [|nx xs]; [discriminate|]. destruct ys as [|ny ys]; [discriminate|].
  destruct (spec_boards m xs ys (used + markers (Z.to_nat nx) (Z.to_nat ny))) as [r0|] eqn:E; [|discriminate].
  injection Hs as <-. destruct xs' as [|nx' xs']; [discriminate|]. destruct ys' as [|ny' ys']; [discriminate|].
  cbn in Hx, Hy. injection Hx as <- Hx. injection Hy as <- Hy.
  rewrite (IH m xs ys xs' ys' _ r0); auto; lia.
Qed.

(** main statements for C05 *)
Lemma old_boards_main n xs ys : n <= length xs -> n <= length ys ->
  exists chs, createCharucoBoards_old n xs ys = Some chs /\
    length chs = n /\
    (forall k c, nth_error chs k = Some c ->
       nth_error xs k = Some (ch_nx c) /\ nth_error ys k = Some (ch_ny c) /\
       length (ch_ids c) = (Z.to_nat (ch_nx c) * Z.to_nat (ch_ny c)) / 2) /\
    concat (map ch_ids chs) = map Z.of_nat (seq 0 (length (concat (map ch_ids chs)))).
Proof.
  intros Hx Hy. rewrite old_spec. destruct (spec_total n xs ys 0 Hx Hy) as [r Hr].
  destruct (spec_props _ _ _ _ _ Hr) as (A & B & C & D & F).
  exists r. split; [auto|]. split; [auto|]. split; [|auto].
  intros k c Hc. assert (Hk : k < n) by (rewrite <- A; apply nth_error_Some; congruence).
  assert (Hfn : forall l : list Z, nth_error (firstn n l) k = nth_error l k).
  { clear -Hk. revert k Hk. induction n as [|n IH]; intros k Hk l; [lia|].
    destruct l as [|x l]; auto. destruct k as [|k]; cbn; auto. apply IH. lia. }
  rewrite <- (Hfn xs), <- B, <- (Hfn ys), <- C. rewrite !nth_error_map, Hc. cbn.
  split; [auto|]. split; [auto|]. rewrite Forall_forall in D.
  rewrite (D c (nth_error_In _ _ Hc)). apply markers_count.
Qed.

Lemma old_boards_undefined n xs ys : length xs < n \/ length ys < n -> createCharucoBoards_old n xs ys = None.
Proof.
  intros H. rewrite old_spec. destruct (spec_boards n xs ys 0) eqn:E; auto.
  destruct (spec_none n xs ys 0); [congruence|lia].
Qed.

Lemma old_boards_prefix n m xs ys chs : n <= m -> createCharucoBoards_old m xs ys = Some chs ->
  createCharucoBoards_old n xs ys = Some (firstn n chs).
Proof. intros Hnm. rewrite !old_spec. intros H. eapply spec_prefix; eauto. Qed.

Lemma firstn_repeat' {A} (x : A) n m : n <= m -> firstn n (repeat x m) = repeat x n.
Proof. revert m. induction n as [|n IH]; intros [|m] H; cbn; auto; [lia|]. f_equal. apply IH. lia. Qed.

Lemma nth_error_firstn {A} n (l : list A) k : k < n -> nth_error (firstn n l) k = nth_error l k.
Proof.
  revert k l. induction n as [|n IH]; intros k l Hk; [lia|]. destruct l as [|x l]; auto.
  destruct k as [|k]; cbn; auto. apply IH. lia.
Qed.

Lemma generator_calibrator_agree g pr ca :
  (g_nx_per g = [] -> g_ny_per g = []) ->
  generator_charucos g = Some pr -> calib_charucos g = Some ca ->
  forall k a b, nth_error pr k = Some a -> nth_error ca k = Some b -> a = b.
Proof.
  intros Hcons Hg Hc k a b Ha Hb.
  unfold generator_charucos in Hg. unfold calib_charucos in Hc.
  set (n := Z.to_nat (g_nb_board g)) in *. set (m := Z.to_nat (max_board_idx g + 1)) in *.
  (* both are spec_boards of lists that agree on the first min(n,m) entries *)
  assert (Hgen : forall n m xs ys xs' ys', spec_boards n xs ys 0 = Some pr -> spec_boards m xs' ys' 0 = Some ca ->
            firstn (Nat.min n m) xs = firstn (Nat.min n m) xs' -> firstn (Nat.min n m) ys = firstn (Nat.min n m) ys' ->
            a = b).
  { clear -Ha Hb. intros n m xs ys xs' ys' H1 H2 Hx Hy.
    pose proof (proj1 (spec_props _ _ _ _ _ H1)) as L1. pose proof (proj1 (spec_props _ _ _ _ _ H2)) as L2.
    assert (K1 : k < n) by (rewrite <- L1; apply nth_error_Some; congruence).
    assert (K2 : k < m) by (rewrite <- L2; apply nth_error_Some; congruence).
    assert (P1 := spec_prefix (Nat.min n m) n xs ys xs ys 0 pr ltac:(lia) H1 eq_refl eq_refl).
    assert (P2 := spec_prefix (Nat.min n m) m xs' ys' xs ys 0 ca ltac:(lia) H2 (eq_sym Hx) (eq_sym Hy)).
    rewrite P1 in P2. injection P2 as P2.
    rewrite <- (nth_error_firstn (Nat.min n m)) in Ha, Hb by lia. rewrite P2 in Ha. congruence. }
  destruct (g_nx_per g) as [|x xs] eqn:Enx.
  - rewrite (Hcons eq_refl) in Hg. rewrite !old_spec in Hc.
    destruct (g_square_per g) as [|s ss].
    + rewrite old_spec in Hg. apply (Hgen _ _ _ _ _ _ Hg Hc); rewrite app_nil_l, !firstn_repeat'; auto; lia.
    + rewrite old_spec in Hg. destruct (spec_none n [] [] 0) as [Hz _]; [congruence|]. cbn in Hz.
      destruct (spec_props _ _ _ _ _ Hg) as (L & _). destruct pr; cbn in L; [destruct k; discriminate|lia].
  - rewrite old_spec in Hc. destruct (spec_none m (x :: xs) (g_ny_per g) 0) as [M1 M2]; [congruence|].
    destruct (g_square_per g) as [|s ss]; rewrite old_spec in Hg; [|apply (Hgen _ _ _ _ _ _ Hg Hc); auto].
    apply (Hgen _ _ _ _ _ _ Hg Hc); rewrite firstn_app;
      (replace (Nat.min n m - _) with 0 by (cbn [length] in *; lia)); rewrite firstn_O, app_nil_r; auto.
Qed.

(** ** OpenCV >= 4.7 *)
Lemma create_new_len n : forall xs ys p off r, create_new n xs ys (Some p) off = Some r ->
  Forall (fun c => length (ch_ids c) = length (ch_ids p)) r.
Proof.
  induction n as [|n IH]; intros xs ys p off r; cbn; [intros [= <-]; constructor|].
  destruct xs as [|nx xs]; [discriminate|]. destruct ys as [|ny ys]; [discriminate|].
  destruct (create_new n xs ys _ _) as [r'|] eqn:E; [|discriminate].
  intros [= <-]. apply IH in E. cbn [ch_ids] in E. rewrite map_length, seq_length in E.
  constructor; auto. cbn. rewrite map_length, seq_length. auto.
Qed.

Lemma new_boards_same_count n xs ys chs : createCharucoBoards_new n xs ys = Some chs ->
  forall nx ny, hd_error xs = Some nx -> hd_error ys = Some ny ->
  Forall (fun c => length (ch_ids c) = (Z.to_nat nx * Z.to_nat ny) / 2) chs.
Proof.
  unfold createCharucoBoards_new. destruct n as [|n]; cbn; [intros [= <-]; constructor|].
  destruct xs as [|nx xs]; [discriminate|]. destruct ys as [|ny ys]; [discriminate|].
  destruct (create_new n xs ys _ _) as [r'|] eqn:E; [|discriminate].
  intros [= <-] a b [= <-] [= <-].
  assert (L : length (standard_ids nx ny) = Z.to_nat nx * Z.to_nat ny / 2).
  { unfold standard_ids. rewrite map_length, seq_length. apply markers_count. }
  constructor; auto. apply create_new_len in E. cbn [ch_ids] in E. rewrite L in E. auto.
Qed.

Lemma create_new_old n : forall xs ys prev off m,
  (forall p, prev = Some p -> length (ch_ids p) = m) ->
  Forall2 (fun x y => markers (Z.to_nat x) (Z.to_nat y) = m) (firstn n xs) (firstn n ys) ->
  create_new n xs ys prev off = create_old n xs ys prev off.
Proof.
  induction n as [|n IH]; intros xs ys prev off m Hp HF; cbn; auto.
  destruct xs as [|nx xs]; auto. destruct ys as [|ny ys]; auto.
  cbn in HF. inversion HF as [|? ? ? ? Hm HF']; subst.
  destruct prev as [p|].
  - rewrite (Hp p eq_refl). rewrite (IH _ _ _ _ (markers (Z.to_nat nx) (Z.to_nat ny))); auto.
    + unfold standard_ids. rewrite !map_map. auto.
    + intros q [= <-]. cbn. rewrite map_length, seq_length. auto.
  - rewrite (IH _ _ _ _ (markers (Z.to_nat nx) (Z.to_nat ny))); auto.
    intros q [= <-]. cbn. unfold standard_ids. rewrite map_length, seq_length. auto.
Qed.

Lemma new_boards_ok n xs ys m :
  Forall2 (fun x y => (Z.to_nat x * Z.to_nat y) / 2 = m) (firstn n xs) (firstn n ys) ->
  createCharucoBoards_new n xs ys = createCharucoBoards_old n xs ys.
Proof.
  intros H. apply (create_new_old n xs ys None 0%Z m); [discriminate|].
  induction H as [|a b l l' E H IH]; constructor; auto. rewrite markers_count. auto.
Qed.

(** ** Board geometry *)
Lemma flat_map_length_const {A B} (f : A -> list B) n l : (forall x, length (f x) = n) ->
  length (flat_map f l) = length l * n.
Proof. intros H. induction l as [|x l IH]; cbn; auto. rewrite app_length, H, IH. auto. Qed.

Lemma board_pts_length nx ny s : (1 <= nx)%Z -> (1 <= ny)%Z ->
  Z.of_nat (length (board_pts nx ny s)) = ((nx - 1) * (ny - 1))%Z.
Proof.
  intros Hx Hy. unfold board_pts. rewrite (flat_map_length_const _ (Z.to_nat (nx - 1))).
  - rewrite seq_length. nia.
  - intros y. rewrite map_length, seq_length. auto.
Qed.

Lemma grid_nth {B} (g : nat -> nat -> B) w h : forall k, k < w * h ->
  nth_error (flat_map (fun y => map (fun x => g x y) (seq 0 w)) (seq 0 h)) k = Some (g (k mod w) (k / w)).
Proof.
  induction h as [|h IH]; intros k Hk; [lia|]. rewrite seq_S, flat_map_app.
  assert (L : length (flat_map (fun y => map (fun x => g x y) (seq 0 w)) (seq 0 h)) = h * w).
  { rewrite (flat_map_length_const _ w), seq_length; auto. intros; rewrite map_length, seq_length; auto. }
  destruct (Nat.lt_ge_cases k (w * h)) as [H|H].
  - rewrite nth_error_app1 by lia. auto.
  - rewrite nth_error_app2 by lia. rewrite L. cbn [flat_map Nat.add]. rewrite app_nil_r.
    assert (E1 : k / w = h). { symmetry. apply (Nat.div_unique k w h (k - h * w)); nia. }
    assert (E2 : k mod w = k - h * w). { symmetry. apply (Nat.mod_unique k w h (k - h * w)); nia. }
    rewrite E1, E2, nth_error_map.
    assert (E3 : nth_error (seq 0 w) (k - h * w) = Some (k - h * w)).
    { rewrite nth_error_nth' with (d := 0) by (rewrite seq_length; nia). rewrite seq_nth by nia. auto. }
    rewrite E3. reflexivity.
Qed.

Lemma board_pts_nth nx ny s k : (1 <= nx)%Z -> (1 <= ny)%Z ->
  (Z.of_nat k < (nx - 1) * (ny - 1))%Z ->
  nth_error (board_pts nx ny s) k =
  Some ((IZR (Z.of_nat k mod (nx - 1)) * s)%R, (IZR (Z.of_nat k / (nx - 1)) * s)%R, 0%R).
Proof.
  intros Hx Hy Hk. unfold board_pts.
  rewrite (grid_nth (fun x y => ((INR x * s)%R, (INR y * s)%R, 0%R))) by nia.
  rewrite !INR_IZR_INZ. rewrite Nat2Z.inj_mod, Nat2Z.inj_div, Z2Nat.id by lia. auto.
Qed.

Lemma board_pts_distinct nx ny s j k p : (1 <= nx)%Z -> (1 <= ny)%Z -> s <> 0%R ->
  nth_error (board_pts nx ny s) j = Some p -> nth_error (board_pts nx ny s) k = Some p -> j = k.
Proof.
  intros Hx Hy Hs Hj Hk.
  pose proof (board_pts_length nx ny s Hx Hy) as L.
  assert (Bj : j < length (board_pts nx ny s)) by (apply nth_error_Some; congruence).
  assert (Bk : k < length (board_pts nx ny s)) by (apply nth_error_Some; congruence).
  rewrite board_pts_nth in Hj, Hk by (auto; lia).
  rewrite <- Hj in Hk. injection Hk as E1 E2.
  apply Rmult_eq_reg_r in E1; auto. apply Rmult_eq_reg_r in E2; auto.
  apply eq_IZR in E1. apply eq_IZR in E2.
  assert (nx - 1 <> 0)%Z by nia.
  pose proof (Z.div_mod (Z.of_nat j) (nx - 1) H) as Dj.
  pose proof (Z.div_mod (Z.of_nat k) (nx - 1) H) as Dk.
  apply Nat2Z.inj. rewrite Dj, Dk, E1, E2. reflexivity.
Qed.

(** ** The calibrator's boards *)
Lemma znth_Some {A} (l : list A) i x : znth l i = Some x -> (0 <= i)%Z /\ nth_error l (Z.to_nat i) = Some x.
Proof. unfold znth. destruct (Z.ltb_spec i 0); [discriminate|]. auto. Qed.

Lemma calib_charucos_size g chs c ch : calib_charucos g = Some chs -> znth chs c = Some ch ->
  match g_nx_per g with
  | [] => ch_nx ch = g_nx g /\ ch_ny ch = g_ny g
  | _ => znth (g_nx_per g) c = Some (ch_nx ch) /\ znth (g_ny_per g) c = Some (ch_ny ch)
  end.
Proof.
  unfold calib_charucos. set (n := Z.to_nat (max_board_idx g + 1)). intros Hc Hz.
  apply znth_Some in Hz. destruct Hz as [Hz Hn].
  assert (Hgo : forall xs ys, createCharucoBoards_old n xs ys = Some chs ->
     nth_error xs (Z.to_nat c) = Some (ch_nx ch) /\ nth_error ys (Z.to_nat c) = Some (ch_ny ch)).
  { intros xs ys H. assert (n <= length xs /\ n <= length ys) as [L1 L2].
    { rewrite old_spec in H. apply (spec_none n xs ys 0). congruence. }
    destruct (old_boards_main n xs ys L1 L2) as (chs' & E & _ & F & _). rewrite H in E. injection E as <-.
    destruct (F _ _ Hn) as (A & B & _). auto. }
  destruct (g_nx_per g) as [|x xs] eqn:E.
  - apply Hgo in Hc. destruct Hc as [A B]. apply nth_error_In in A, B. apply repeat_spec in A, B. auto.
  - apply Hgo in Hc. unfold znth. destruct (Z.ltb_spec c 0); [lia|]. auto.
Qed.

Lemma calib_board_main g k b :
  (g_nx_per g = [] <-> g_square_per g = []) -> calib_board g k = Some b ->
  exists ci, znth (effective_index g) k = Some ci /\
    configured_size g ci = Some (bd_nx b, bd_ny b, bd_square b) /\
    bd_nx b = ch_nx (bd_charuco b) /\ bd_ny b = ch_ny (bd_charuco b) /\
    (exists chs, calib_charucos g = Some chs /\ znth chs ci = Some (bd_charuco b)) /\
    bd_pts b = board_pts (bd_nx b) (bd_ny b) (bd_square b) /\
    bd_nb_pts b = board_nb_pts (bd_nx b) (bd_ny b) /\ bd_id b = k.
Proof.
  intros Hcons. unfold calib_board.
  destruct (calib_charucos g) as [chs|] eqn:Ec; [|discriminate].
  destruct (znth (effective_index g) k) as [ci|] eqn:Ei; [|discriminate].
  destruct (board_size g k) as [[[nx ny] s]|] eqn:Es; [|discriminate].
  destruct (znth chs ci) as [ch|] eqn:Ech; [|discriminate].
  intros [= <-]. exists ci. cbn.
  pose proof (calib_charucos_size g chs ci ch Ec Ech) as Hsz.
  unfold board_size in Es. rewrite Ei in Es. unfold configured_size.
  destruct (g_nx_per g) as [|x xs] eqn:Enx.
  - rewrite (proj1 Hcons eq_refl) in Es. injection Es as <- <- <-. destruct Hsz as [-> ->].
    repeat split; eauto.
  - destruct (g_square_per g) as [|s0 ss] eqn:Esq; [destruct Hcons as [_ Hc]; specialize (Hc eq_refl); discriminate|].
    destruct (znth (x :: xs) ci); [|discriminate]. destruct (znth (g_ny_per g) ci); [|discriminate].
    destruct (znth (s0 :: ss) ci); [|discriminate]. injection Es as -> -> ->.
    destruct Hsz as [[= <-] [= <-]]. repeat split; eauto.
Qed.

Lemma fold_max l : forall d, (d <= fold_left Z.max l d)%Z /\ (forall x, In x l -> x <= fold_left Z.max l d)%Z.
Proof.
  induction l as [|y l IH]; intros d; cbn; [split; [lia|tauto]|].
  destruct (IH (Z.max d y)) as [A B]. split; [lia|]. intros x [->|H]; [lia|auto].
Qed.

Lemma index_le_max g ci : In ci (effective_index g) -> (ci <= max_board_idx g)%Z.
Proof.
  unfold effective_index, max_board_idx, effective_nb_board. destruct (g_boards_index g) as [|x l].
  - intros H. apply in_map_iff in H. destruct H as (n & <- & Hn). apply in_seq in Hn. lia.
  - unfold max_element. destruct (fold_max l x) as [A B]. intros [->|H]; auto.
Qed.

(** every configured board is created when the configuration is complete *)
Lemma calib_board_total g k :
  (forall i, In i (g_boards_index g) -> (0 <= i)%Z) ->
  (g_nx_per g = [] -> g_square_per g = []) ->
  (g_nx_per g <> [] -> (max_board_idx g < Z.of_nat (length (g_nx_per g)))%Z /\
     (max_board_idx g < Z.of_nat (length (g_ny_per g)))%Z /\
     (max_board_idx g < Z.of_nat (length (g_square_per g)))%Z) ->
  (0 <= k < Z.of_nat (effective_nb_board g))%Z ->
  exists b, calib_board g k = Some b.
Proof.
  intros Hpos He Hl Hk.
  assert (Hei : exists ci, znth (effective_index g) k = Some ci /\ (0 <= ci)%Z).
  { assert (Hlen : Z.to_nat k < length (effective_index g)).
    { unfold effective_index, effective_nb_board in *. destruct (g_boards_index g); [rewrite map_length, seq_length|]; lia. }
    unfold znth. destruct (Z.ltb_spec k 0); [lia|].
    destruct (nth_error (effective_index g) (Z.to_nat k)) as [ci|] eqn:E; [|apply nth_error_None in E; lia].
    exists ci. split; auto. apply nth_error_In in E. unfold effective_index in E.
    destruct (g_boards_index g) as [|x l]; [|auto].
    apply in_map_iff in E. destruct E as (n & <- & _). lia. }
  destruct Hei as (ci & Ei & Hci).
  assert (Hle : (ci <= max_board_idx g)%Z).
  { apply index_le_max. apply znth_Some in Ei. eapply nth_error_In. apply Ei. }
  assert (Hch : exists chs, calib_charucos g = Some chs /\ length chs = Z.to_nat (max_board_idx g + 1)).
  { unfold calib_charucos. set (n := Z.to_nat (max_board_idx g + 1)) in *.
    destruct (g_nx_per g) as [|x xs] eqn:E.
    - destruct (old_boards_main n (repeat (g_nx g) n) (repeat (g_ny g) n)) as (chs & A & B & _);
        rewrite ?repeat_length; eauto.
    - destruct (old_boards_main n (x :: xs) (g_ny_per g)) as (chs & A & B & _); eauto;
        destruct Hl as (L1 & L2 & _); try discriminate; lia. }
  destruct Hch as (chs & Ec & Lc).
  unfold calib_board. rewrite Ec, Ei.
  assert (Hz : forall (A : Type) (l : list A), (ci < Z.of_nat (length l))%Z -> exists x, znth l ci = Some x).
  { intros A l H. unfold znth. destruct (Z.ltb_spec ci 0); [lia|].
    destruct (nth_error l (Z.to_nat ci)) eqn:E; eauto. apply nth_error_None in E. lia. }
  destruct (Hz _ chs) as [ch Ech]; [lia|].
  assert (Hs : exists sz, board_size g k = Some sz).
  { unfold board_size. destruct (g_square_per g) as [|s ss] eqn:Es; eauto. rewrite Ei.
    destruct (g_nx_per g) as [|x xs] eqn:Enx; [specialize (He eq_refl); discriminate|].
    destruct Hl as (L1 & L2 & L3); [discriminate|].
    destruct (Hz _ (x :: xs)) as [a ->]; [lia|]. destruct (Hz _ (g_ny_per g)) as [b ->]; [lia|].
    destruct (Hz _ (s :: ss)) as [c ->]; [lia|]. eauto. }
  destruct Hs as [[[nx ny] s] ->]. rewrite Ech. eauto.
Qed.

Lemma ids_disjoint n xs ys chs : createCharucoBoards_old n xs ys = Some chs ->
  forall j k a b i, nth_error chs j = Some a -> nth_error chs k = Some b ->
  In i (ch_ids a) -> In i (ch_ids b) -> j = k.
Proof.
  intros H. rewrite old_spec in H. destruct (spec_none n xs ys 0) as [L1 L2]; [congruence|].
  destruct (spec_props _ _ _ _ _ H) as (_ & _ & _ & _ & F).
  assert (Hnd : NoDup (concat (map ch_ids chs))).
  { rewrite F. apply FinFun.Injective_map_NoDup; [intros a b; lia|apply seq_NoDup]. }
  clear -Hnd. revert Hnd. induction chs as [|c chs IH]; intros Hnd j k a b i Hj Hk Ia Ib; [destruct j; discriminate|].
  cbn in Hnd. assert (Hd : forall x, In x (ch_ids c) -> ~ In x (concat (map ch_ids chs))).
  { intros x Hx Hy. clear -Hnd Hx Hy. induction (ch_ids c) as [|y l IHl]; [destruct Hx|].
    cbn in Hnd. inversion Hnd as [|? ? Hn Hnd']; subst. destruct Hx as [->|Hx].
    - apply Hn. apply in_or_app; auto.
    - auto. }
  assert (Hr : NoDup (concat (map ch_ids chs))).
  { clear -Hnd. induction (ch_ids c) as [|y l IHl]; auto. cbn in Hnd. inversion Hnd; auto. }
  assert (Hc : forall m d, nth_error chs m = Some d -> In i (ch_ids d) -> In i (concat (map ch_ids chs))).
  { intros m d Hm Hi. apply in_concat. exists (ch_ids d). split; auto. apply in_map. eapply nth_error_In; eauto. }
  destruct j as [|j], k as [|k]; cbn in Hj, Hk; auto.
  - injection Hj as <-. exfalso. eapply Hd; eauto.
  - injection Hk as <-. exfalso. eapply Hd; eauto.
  - f_equal. eapply IH; eauto.
Qed.
