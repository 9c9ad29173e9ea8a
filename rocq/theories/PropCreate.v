(** C65: the board generator (apps/create_charuco_boards) and its agreement with the
    calibration. *)
From Coq Require Import List ZArith Lia Reals Lra Ascii String Bool.
From Verif Require Import SMap DataModel DetectModel DetectProofs GeomMedian BoardModel BoardProofs InputModel InputSpec AppModel AppSpec AppProofs AppExample CreateModel CreateSpec.
From Verif Require PropInput PropFile.
Import ListNotations.
Close Scope R_scope.
Open Scope nat_scope.
Open Scope string_scope.

Lemma yml_iff w path : yml_available (w_exists w []) path = true <-> w_exists w [] path = true /\ yml_path path.
Proof. unfold yml_available. rewrite yml_path_spec. rewrite !andb_true_iff, String.eqb_eq. tauto. Qed.

(** *** Names of the files *)
Lemma board_file_eq k : board_file k = "charuco_boards/charuco_board_" ++ number3 k ++ ".bmp".
Proof. reflexivity. Qed.
Lemma append_inj_r : forall a b c : string, (a ++ c = b ++ c)%string -> a = b.
Proof.
  assert (L : forall a c, String.length (a ++ c) = String.length a + String.length c) by (induction a; intros; cbn; auto).
  induction a as [|x a IH]; intros [|y b] c H; auto.
  - apply (f_equal String.length) in H. rewrite !L in H. cbn in H. lia.
  - apply (f_equal String.length) in H. rewrite !L in H. cbn in H. lia.
  - cbn in H. injection H as -> H. f_equal. eapply IH; eauto.
Qed.
(** Every board has its own file: three digits up to board 999, and never the same name. *)
Theorem C65_names_of_the_files :
  (forall k, k < 1000 -> exists a b c, k = 100 * a + 10 * b + c /\ a < 10 /\ b < 10 /\ c < 10 /\
     board_file k = "charuco_boards/charuco_board_" ++ String (InputSpec.digit a) (String (InputSpec.digit b) (String (InputSpec.digit c) ".bmp"))) /\
  (forall k m, board_file k = board_file m -> k = m).
Proof.
  destruct PropInput.C43_folders as (A & B). split.
  - intros k Hk. destruct (A k Hk) as (a & b & c & E & H1 & H2 & H3 & E'). exists a, b, c. do 4 (split; [auto|]). rewrite board_file_eq, E'. reflexivity.
  - intros k m E. rewrite !board_file_eq in E. apply (B ""). cbn [append]. apply append_inj_r with ".bmp".
    assert (X : forall p a b : string, p ++ a = p ++ b -> a = b) by (induction p as [|x p IH]; intros a b H; [exact H|cbn in H; injection H as H; exact (IH _ _ H)]).
    exact (X _ _ _ E).
Qed.
Print Assumptions C65_names_of_the_files.

Lemma numbered_nth {A} : forall (l : list A) m k x, nth_error (combine (seq m (List.length l)) l) k = Some (m + k, x) <-> nth_error l k = Some x.
Proof.
  induction l as [|a l IH]; intros m k x; [destruct k; cbn; split; intros H; discriminate H|]. cbn [List.length seq combine]. destruct k as [|k]; cbn [nth_error].
  - rewrite Nat.add_0_r. split; intros H; [injection H as ->; auto|injection H as ->; auto].
  - replace (m + S k) with (S m + k) by lia. apply IH.
Qed.
Lemma numbered_In {A} (l : list A) k x : In (k, x) (combine (seq 0 (List.length l)) l) <-> nth_error l k = Some x.
Proof.
  split.
  - intros H. apply In_nth_error in H as (j & Hj). assert (L : j < List.length l). { assert (B : j < List.length (combine (seq 0 (List.length l)) l)) by (apply nth_error_Some; congruence). rewrite combine_length, seq_length in B. lia. }
    destruct (nth_error l j) as [y|] eqn:E; [|apply nth_error_None in E; lia]. assert (Q := proj2 (numbered_nth l 0 j y) E). rewrite Hj in Q. injection Q as -> ->. exact E.
  - intros H. apply nth_error_In with k. apply (numbered_nth l 0). exact H.
Qed.
Section Create.
Context {P : Type} (draw : R -> R -> charuco -> Z -> Z -> option P).
(** Without exactly one argument, or without a configuration file, nothing is done. *)
Theorem C65_usage : forall w argv,
  (List.length argv <> 2 -> create_main draw w argv = ([], Returned (-1))) /\
  (forall program path, ~ (w_exists w [] path = true /\ yml_path path) -> create_main draw w [program; path] = ([], Returned (-1))).
Proof.
  intros w argv. split.
  - intros H. destruct argv as [|a [|b [|c l]]]; cbn in H |- *; auto; lia.
  - intros a path N. cbn. rewrite <- yml_iff in N. destruct (yml_available _ _); [exfalso; auto|reflexivity].
Qed.
(** Either the run ends normally or nothing at all was done. *)
Theorem C65_all_or_nothing : forall w argv es st, create_main draw w argv = (es, st) -> st = Returned 0 \/ es = [].
Proof.
  intros w argv es st. unfold create_main. destruct argv as [|a [|path [|c l]]]; try (intros H; injection H as <- <-; auto; fail).
  destruct (yml_available _ _); [|intros H; injection H as <- <-; auto]. destruct (Z.ltb _ _); [|intros H; injection H as <- <-; auto].
  destruct (board_images _ _) as [imgs|]; [|intros H; injection H as <- <-; auto].
  unfold saveBoards. destruct (w_exists _ _ _); [intros H; injection H as <- <-; auto|]. destruct (w_mkdir _ _ _); intros H; injection H as <- <-; auto.
Qed.

(** *** What is printed *)
Lemma res_setting f per common k v : nth_error (resolutions f per common) k = Some v -> setting f per common k v.
Proof.
  unfold resolutions, setting. change (g_square_per (cf_boards (read_config f))) with (read_reals (key f "square_size_per_board")).
  destruct (Nat.ltb_spec k (List.length (read_ints (key f per)))) as [L|L]; [rewrite nth_error_app1 by auto; auto|].
  rewrite nth_error_app2 by auto. destruct (read_reals _) eqn:E; [|intros H; destruct (_ - _); discriminate H].
  intros H. right. split; [auto|]. split; [auto|]. apply nth_error_In, repeat_spec in H. auto.
Qed.
Lemma setting_res f per common k v : k < Z.to_nat (nb_boards f) -> setting f per common k v -> nth_error (resolutions f per common) k = Some v.
Proof.
  unfold resolutions, setting. change (g_square_per (cf_boards (read_config f))) with (read_reals (key f "square_size_per_board")). change (g_nb_board (cf_boards (read_config f))) with (nb_boards f).
  intros Hk [H|(L & E & ->)].
  - rewrite nth_error_app1; auto. apply nth_error_Some. congruence.
  - rewrite E, nth_error_app2 by auto. apply nth_error_repeat. lia.
Qed.
Lemma gen_lists f : generator_charucos (cf_boards (read_config f)) =
  createCharucoBoards_old (Z.to_nat (nb_boards f)) (resolutions f "number_x_square_per_board" "number_x_square") (resolutions f "number_y_square_per_board" "number_y_square").
Proof.
  unfold generator_charucos, resolutions. change (g_square_per (cf_boards (read_config f))) with (read_reals (key f "square_size_per_board")).
  destruct (read_reals _); [reflexivity|]. rewrite !app_nil_r. reflexivity.
Qed.
Lemma images_spec w made ps : images (flat_map (fun '(k, i) => if w_open w made (board_file k) then [@PImage P (board_file k) i] else []) ps) =
  filter (fun e => w_open w made (fst e)) (map (fun '(k, i) => (board_file k, i)) ps).
Proof.
  unfold images. induction ps as [|(k, i) ps IH]; [reflexivity|]. cbn [flat_map map filter fst]. rewrite flat_map_app, IH. destruct (w_open _ _ _); reflexivity.
Qed.
Lemma dirs_none w made ps : dirs (flat_map (fun '(k, i) => if w_open w made (board_file k) then [@PImage P (board_file k) i] else []) ps) = [].
Proof. unfold dirs. induction ps as [|(k, i) ps IH]; [reflexivity|]. cbn [flat_map]. rewrite flat_map_app, IH. destruct (w_open _ _ _); reflexivity. Qed.
Lemma create_inv w program path es : create_main draw w [program; path] = (es, Returned 0) -> exists chs imgs,
  (0 < nb_boards (w_config w path))%Z /\ generator_charucos (cf_boards (read_config (w_config w path))) = Some chs /\
  forallb (accepted (square (w_config w path)) (marker (w_config w path))) chs = true /\
  board_images draw (w_config w path) = Some imgs /\ List.length imgs = List.length chs /\
  (forall k ch, nth_error chs k = Some ch -> exists x y i, resolution_of (w_config w path) k x y /\ draw (square (w_config w path)) (marker (w_config w path)) ch x y = Some i /\ nth_error imgs k = Some i) /\
  dirs es = (if w_exists w [] "charuco_boards" then [] else ["charuco_boards"]) /\
  images es = filter (fun e => w_open w (dirs es) (fst e)) (map (fun '(k, i) => (board_file k, i)) (combine (seq 0 (List.length imgs)) imgs)).
Proof.
  cbn [create_main]. destruct (yml_available _ _); [|intros H; discriminate H]. destruct (Z.ltb_spec 0 (g_nb_board (cf_boards (read_config (w_config w path))))) as [L|L]; [|intros H; discriminate H].
  set (f := w_config w path) in *. destruct (board_images draw f) as [imgs|] eqn:EI; [|intros H; discriminate H]. intros H. assert (EI' := EI). unfold board_images in EI.
  destruct (generator_charucos _) as [chs|] eqn:EG; [|discriminate EI]. fold (square f) (marker f) in EI. destruct (forallb _ chs) eqn:EA; [|discriminate EI].
  exists chs, imgs. assert (EC := proj1 (collect_Some _ _) EI).
  assert (LE : List.length imgs = List.length chs). { apply (f_equal (@List.length _)) in EC. rewrite !map_length, combine_length, seq_length, Nat.min_id in EC. auto. }
  split; [exact L|]. split; [auto|]. split; [auto|]. split; [auto|]. split; [auto|]. split.
  - intros k ch Hk. apply (f_equal (fun l => nth_error l k)) in EC. rewrite !nth_error_map in EC.
    assert (K : k < List.length chs) by (apply nth_error_Some; congruence).
    assert (Q : nth_error (combine (seq 0 (List.length chs)) chs) k = Some (k, ch)).
    { apply (numbered_nth chs 0). auto. }
    rewrite Q in EC. cbn [option_map] in EC. destruct (nth_error imgs k) as [i|] eqn:Ei; [|discriminate EC]. cbn [option_map] in EC. apply (f_equal (fun o => match o with Some x => x | None => None end)) in EC.
    destruct (nth_error (resolutions f "resolution_x_per_board" "resolution_x") k) as [x|] eqn:Ex; [|discriminate EC]. destruct (nth_error (resolutions f "resolution_y_per_board" "resolution_y") k) as [y|] eqn:Ey; [|discriminate EC].
    exists x, y, i. split; [split; apply res_setting; auto|]. auto.
  - unfold saveBoards in H. destruct (w_exists w [] "charuco_boards").
    + injection H as <-. rewrite dirs_none. split; [auto|]. apply images_spec.
    + destruct (w_mkdir _ _ _); [|discriminate H]. injection H as <-. unfold dirs, images. cbn [flat_map app]. fold (@dirs P) (@images P).
      assert (D := dirs_none w ["charuco_boards"] (combine (seq 0 (List.length imgs)) imgs)). unfold dirs in D. rewrite D. split; [auto|]. apply images_spec.
Qed.
(** One image per board: board k has the squares and the resolution configured for it, half
    of its squares carry markers, the markers of all boards are numbered 0, 1, 2, ... in order,
    and its image is in the file of number k (if that can be opened). *)
Theorem C65_one_file_per_board : forall w program path es, create_main draw w [program; path] = (es, Returned 0) ->
  let f := w_config w path in let n := Z.to_nat (nb_boards f) in
  exists chs imgs, 0 < n /\ List.length chs = n /\ List.length imgs = n /\
    List.concat (map ch_ids chs) = map Z.of_nat (seq 0 (List.length (List.concat (map ch_ids chs)))) /\
    (forall k ch, nth_error chs k = Some ch -> squares_of f k (ch_nx ch) (ch_ny ch) /\ List.length (ch_ids ch) = Z.to_nat (ch_nx ch) * Z.to_nat (ch_ny ch) / 2 /\
       exists x y i, resolution_of f k x y /\ draw (square f) (marker f) ch x y = Some i /\ nth_error imgs k = Some i) /\
    (forall p i, In (p, i) (images es) <-> exists k, nth_error imgs k = Some i /\ p = board_file k /\ w_open w (dirs es) p = true) /\
    dirs es = (if w_exists w [] "charuco_boards" then [] else ["charuco_boards"]).
Proof.
  intros w a path es H f n. destruct (create_inv w a path es H) as (chs & imgs & N & EG & EA & EI & LE & HI & ED & EM). fold f in N, EG, EA, EI, HI.
  rewrite gen_lists in EG. fold n in EG.
  assert (Lx : n <= List.length (resolutions f "number_x_square_per_board" "number_x_square") /\ n <= List.length (resolutions f "number_y_square_per_board" "number_y_square")).
  { destruct (Nat.le_gt_cases n (List.length (resolutions f "number_x_square_per_board" "number_x_square"))); [|rewrite old_boards_undefined in EG by auto; discriminate EG].
    destruct (Nat.le_gt_cases n (List.length (resolutions f "number_y_square_per_board" "number_y_square"))); [auto|rewrite old_boards_undefined in EG by auto; discriminate EG]. }
  destruct (old_boards_main _ _ _ (proj1 Lx) (proj2 Lx)) as (chs' & EG' & Ln & Hk & Hc). rewrite EG in EG'. injection EG' as <-.
  exists chs, imgs. split; [unfold n; lia|]. split; [auto|]. split; [lia|]. split; [auto|]. split; [|split; [|auto]].
  - intros k ch Hch. destruct (Hk k ch Hch) as (X & Y & Z). split; [split; apply res_setting; auto|]. split; [auto|]. apply HI; auto.
  - intros p i. rewrite EM, filter_In, in_map_iff. split.
    + intros (((k, j) & Q & Hin) & O). injection Q as <- <-. exists k. split; [|auto]. apply numbered_In. exact Hin.
    + intros (k & Hk' & -> & O). split; [|auto]. exists (k, i). split; [auto|]. apply numbered_In. exact Hk'.
Qed.
End Create.
Print Assumptions C65_usage.
Print Assumptions C65_all_or_nothing.
Print Assumptions C65_one_file_per_board.

(** *** When it succeeds *)
(** Given sizes that make a board, a resolution for every board and a folder that exists or
    can be made, the generator ends normally. *)
Theorem C65_completes : forall P (draw : R -> R -> charuco -> Z -> Z -> option P) w program path,
  let f := w_config w path in w_exists w [] path = true -> yml_path path -> (0 < nb_boards f)%Z -> (0 < marker f < square f)%R ->
  (forall k, k < Z.to_nat (nb_boards f) -> exists nx ny x y, squares_of f k nx ny /\ (1 < nx)%Z /\ (1 < ny)%Z /\ resolution_of f k x y /\
     forall ids, draw (square f) (marker f) (mkCh nx ny ids) x y <> None) ->
  w_exists w [] "charuco_boards" = true \/ w_mkdir w [] "charuco_boards" = true ->
  exists es, create_main draw w [program; path] = (es, Returned 0).
Proof.
  intros P draw w a path f Ex Ym N (M1 & M2) HS HD. cbn [create_main]. assert (Y : yml_available (w_exists w []) path = true) by (apply yml_iff; auto). rewrite Y. fold f.
  change (g_nb_board (cf_boards (read_config f))) with (nb_boards f). destruct (Z.ltb_spec 0 (nb_boards f)) as [_|L]; [|lia].
  assert (LN : forall per common, (forall k, k < Z.to_nat (nb_boards f) -> exists v, nth_error (resolutions f per common) k = Some v) -> Z.to_nat (nb_boards f) <= List.length (resolutions f per common)).
  { intros per common H. destruct (Z.to_nat (nb_boards f)) as [|m] eqn:E; [lia|]. destruct (H m ltac:(lia)) as (v & Hv). assert (m < List.length (resolutions f per common)) by (apply nth_error_Some; congruence). lia. }
  assert (EI : exists imgs, board_images draw f = Some imgs).
  { unfold board_images. rewrite gen_lists. destruct (old_boards_main (Z.to_nat (nb_boards f)) (resolutions f "number_x_square_per_board" "number_x_square") (resolutions f "number_y_square_per_board" "number_y_square")) as (chs & -> & Ln & Hk & _).
    - apply LN. intros k Hk. destruct (HS k Hk) as (nx & ny & x & y & (S1 & S2) & _). exists nx. apply setting_res; auto.
    - apply LN. intros k Hk. destruct (HS k Hk) as (nx & ny & x & y & (S1 & S2) & _). exists ny. apply setting_res; auto.
    - fold (square f) (marker f).
      assert (KS : forall k ch, nth_error chs k = Some ch -> (1 < ch_nx ch)%Z /\ (1 < ch_ny ch)%Z /\ exists x y, nth_error (resolutions f "resolution_x_per_board" "resolution_x") k = Some x /\ nth_error (resolutions f "resolution_y_per_board" "resolution_y") k = Some y /\ draw (square f) (marker f) ch x y <> None).
      { intros k ch Hch. assert (K : k < Z.to_nat (nb_boards f)) by (rewrite <- Ln; apply nth_error_Some; congruence). destruct (HS k K) as (nx & ny & x & y & (S1 & S2) & Nx & Ny & (R1 & R2) & Hd).
        destruct (Hk k ch Hch) as (X & Y' & _). apply (setting_res _ _ _ _ _ K) in S1, S2. rewrite S1 in X. rewrite S2 in Y'. injection X as ->. injection Y' as ->. split; [auto|]. split; [auto|]. exists x, y. split; [apply setting_res; auto|]. split; [apply setting_res; auto|].
        destruct ch as [cx cy ids]. apply Hd. }
      assert (EA : forallb (accepted (square f) (marker f)) chs = true).
      { apply forallb_forall. intros ch Hch. apply In_nth_error in Hch as (k & Hch). destruct (KS k ch Hch) as (Nx & Ny & _). unfold accepted. apply Z.ltb_lt in Nx, Ny. rewrite Nx, Ny.
        destruct (Rlt_dec 0 (marker f)) as [_|Q]; [|contradiction]. destruct (Rlt_dec (marker f) (square f)) as [_|Q]; [reflexivity|contradiction]. }
      rewrite EA. apply PropFile.collect_total'. intros (k, ch) Hin. apply numbered_In in Hin. destruct (KS k ch Hin) as (_ & _ & x & y & -> & -> & Hd). destruct (draw _ _ _ _ _) as [i|]; [eauto|contradiction]. }
  destruct EI as (imgs & ->). unfold saveBoards. destruct (w_exists w [] "charuco_boards"); [eexists; reflexivity|]. destruct HD as [Q|Q]; [discriminate Q|]. rewrite Q. eexists. reflexivity.
Qed.
Print Assumptions C65_completes.

(** *** Agreement with the calibration *)
Lemma calib_charuco g k b : calib_board g k = Some b -> exists chs ci, calib_charucos g = Some chs /\ znth (effective_index g) k = Some ci /\ znth chs ci = Some (bd_charuco b).
Proof.
  unfold calib_board. destruct (calib_charucos g) as [chs|]; [|intros H; discriminate H]. destruct (znth (effective_index g) k) as [ci|]; [|intros H; discriminate H].
  destruct (board_size g k) as [((nx, ny), s)|]; [|intros H; discriminate H]. destruct (znth chs ci) as [ch|] eqn:E; [|intros H; discriminate H]. intros H. injection H as <-. exists chs, ci. auto.
Qed.
Lemma index_number f k ci : znth (effective_index (cf_boards (read_config f))) k = Some ci <-> board_number f k ci /\ (read_ints (key f "boards_index") = [] -> 0 <= k < Z.of_nat (Z.to_nat (nb_boards f)))%Z.
Proof.
  unfold board_number, effective_index. change (g_boards_index (cf_boards (read_config f))) with (read_ints (key f "boards_index")). change (g_nb_board (cf_boards (read_config f))) with (nb_boards f).
  destruct (read_ints (key f "boards_index")) as [|x l].
  - unfold znth. destruct (Z.ltb_spec k 0) as [L|L]; [split; [intros H; discriminate H|intros (_ & H); specialize (H eq_refl); lia]|]. rewrite nth_error_map.
    destruct (Nat.ltb_spec (Z.to_nat k) (Z.to_nat (nb_boards f))) as [Q|Q].
    + rewrite (nth_error_nth' _ 0) by (rewrite seq_length; lia). rewrite seq_nth by lia. cbn [option_map]. split.
      * intros H. injection H as <-. split; [left; split; auto; lia|]. lia.
      * intros ([(_ & ->)|(H & _)] & _); [f_equal; lia|congruence].
    + rewrite (proj2 (nth_error_None _ _)) by (rewrite seq_length; lia). split; [intros H; discriminate H|]. intros (_ & H). specialize (H eq_refl). lia.
  - split; [intros H; split; [right; split; [discriminate|auto]|discriminate]|]. intros ([(H & _)|(_ & H)] & _); [discriminate H|exact H].
Qed.
(** The image in the file of number ci is the board that the calibration with the same
    configuration file looks for as its board b, if ci is the number of that board and the
    generator prints that many boards. *)
Theorem C65_printed_boards_are_the_ones_looked_for : forall P (draw : R -> R -> charuco -> Z -> Z -> option P) w program path es s,
  let f := w_config w path in create_main draw w [program; path] = (es, Returned 0) -> snd (construct w path) = Some s ->
  (read_ints (key f "number_x_square_per_board") = [] -> read_ints (key f "number_y_square_per_board") = []) ->
  forall b, (0 <= b < Z.of_nat (List.length (su_boards s)))%Z -> exists ci B, board_number f b ci /\ (0 <= ci)%Z /\ znth (su_boards s) b = Some B /\
    ((ci < nb_boards f)%Z -> exists x y i, resolution_of f (Z.to_nat ci) x y /\ draw (square f) (marker f) (bd_charuco B) x y = Some i /\
       forall j, In (board_file (Z.to_nat ci), j) (images es) <-> j = i /\ w_open w (dirs es) (board_file (Z.to_nat ci)) = true).
Proof.
  intros P draw w a path es s f HC HS Cons b Hb. destruct (create_inv draw w a path es HC) as (chs & imgs & N & EG & EA & EI & LE & HI & ED & EM). fold f in N, EG, EA, EI, HI.
  assert (HB := construct_boards _ _ _ HS). cbv zeta in HB. fold f in HB. apply collect_Some in HB.
  destruct (nth_error (su_boards s) (Z.to_nat b)) as [B|] eqn:EB; [|apply nth_error_None in EB; lia].
  assert (CB : calib_board (cf_boards (read_config f)) b = Some B).
  { apply (f_equal (fun l => nth_error l (Z.to_nat b))) in HB. rewrite !nth_error_map, EB in HB. cbn [option_map] in HB. destruct (nth_error (seq _ _) (Z.to_nat b)) as [k|] eqn:Ek; [|discriminate HB].
    assert (Q : nth (Z.to_nat b) (seq 0 (effective_nb_board (cf_boards (read_config f)))) 0 = k) by (apply nth_error_nth; auto). assert (K : Z.to_nat b < List.length (seq 0 (effective_nb_board (cf_boards (read_config f))))) by (apply nth_error_Some; congruence).
    rewrite seq_length in K. rewrite seq_nth in Q by auto. cbn [Nat.add] in Q. subst k. cbn [option_map] in HB. apply (f_equal (fun o => match o with Some x => x | None => None end)) in HB. rewrite Z2Nat.id in HB by lia. exact HB. }
  destruct (calib_charuco _ _ _ CB) as (cal & ci & Ecal & Eci & Ech). apply index_number in Eci as (Bn & _).
  assert (C0 : (0 <= ci)%Z). { unfold znth in Ech. destruct (Z.ltb_spec ci 0); [discriminate Ech|lia]. }
  exists ci, B. split; [auto|]. split; [auto|]. split; [unfold znth; destruct (Z.ltb_spec b 0); [lia|auto]|]. intros Hci.
  assert (Lc : List.length chs = Z.to_nat (nb_boards f)). { rewrite gen_lists in EG. destruct (Nat.le_gt_cases (Z.to_nat (nb_boards f)) (List.length (resolutions f "number_x_square_per_board" "number_x_square"))); [|rewrite old_boards_undefined in EG by auto; discriminate EG].
    destruct (Nat.le_gt_cases (Z.to_nat (nb_boards f)) (List.length (resolutions f "number_y_square_per_board" "number_y_square"))); [|rewrite old_boards_undefined in EG by auto; discriminate EG].
    destruct (old_boards_main _ _ _ H H0) as (c' & E' & L' & _). rewrite EG in E'. injection E' as <-. exact L'. }
  destruct (nth_error chs (Z.to_nat ci)) as [ch|] eqn:Ec; [|apply nth_error_None in Ec; lia].
  unfold znth in Ech. destruct (Z.ltb_spec ci 0) as [|_]; [lia|]. assert (Q := generator_calibrator_agree (cf_boards (read_config f)) _ _ Cons EG Ecal _ _ _ Ec Ech). subst ch.
  destruct (HI _ _ Ec) as (x & y & i & R1 & R2 & R3). exists x, y, i. split; [auto|]. split; [auto|]. intros j. rewrite EM, filter_In, in_map_iff. cbn [fst]. split.
  - intros (((k, j') & Q & Hin) & O). assert (Q1 := f_equal fst Q). assert (Q2 := f_equal snd Q). cbn [fst snd] in Q1, Q2. apply (proj2 C65_names_of_the_files) in Q1. subst k j'. apply numbered_In in Hin. rewrite R3 in Hin. injection Hin as <-. auto.
  - intros (-> & O). split; [|auto]. exists (Z.to_nat ci, i). split; [auto|]. apply numbered_In. exact R3.
Qed.
Print Assumptions C65_printed_boards_are_the_ones_looked_for.

(** *** Impossible sizes *)
(** A marker that is not smaller than its square: neither program makes anything. *)
Theorem C65_impossible_markers : forall P (draw : R -> R -> charuco -> Z -> Z -> option P) w L program path,
  w_exists w [] path = true -> yml_path path -> ~ (0 < marker (w_config w path) < square (w_config w path))%R ->
  create_main draw w [program; path] = ([], Stopped) /\ stops_early w L [program; path].
Proof.
  intros P draw w L a path Ex Ym NM. set (f := w_config w path) in *. assert (Y : yml_available (w_exists w []) path = true) by (apply yml_iff; auto).
  assert (NA : forall c, accepted (square f) (marker f) c = false).
  { intros c. unfold accepted. destruct (Rlt_dec 0 (marker f)) as [H1|H1]; [|rewrite andb_false_r; auto]. destruct (Rlt_dec (marker f) (square f)) as [H2|H2]; [exfalso; auto|apply andb_false_r]. }
  split.
  - cbn [create_main]. rewrite Y. fold f. change (g_nb_board (cf_boards (read_config f))) with (nb_boards f). destruct (Z.ltb_spec 0 (nb_boards f)) as [N|N]; [|reflexivity].
    assert (BI : board_images draw f = None).
    { unfold board_images. destruct (generator_charucos _) as [chs|] eqn:EG; [|reflexivity]. fold (square f) (marker f). destruct chs as [|c l]; [|cbn [forallb]; rewrite NA; reflexivity].
      exfalso. rewrite gen_lists in EG. destruct (Z.to_nat (nb_boards f)) as [|m] eqn:Em; [lia|]. unfold createCharucoBoards_old in EG. cbn [create_old] in EG.
      destruct (resolutions f "number_x_square_per_board" "number_x_square"); [discriminate EG|]. destruct (resolutions f "number_y_square_per_board" "number_y_square"); [discriminate EG|]. destruct (create_old _ _ _ _ _); discriminate EG. }
    rewrite BI. reflexivity.
  - assert (SC : snd (construct w path) = None).
    { unfold construct. fold f. destruct (Z.ltb _ _ && _) eqn:E0; [|reflexivity]. destruct (save_folder _ _) as [made|]; [|reflexivity]. cbn [snd]. destruct (Nat.leb _ _ && _) eqn:E1; [|reflexivity].
      apply andb_prop in E0 as (_ & E0), E1 as (_ & E1). apply Z.ltb_lt in E0. unfold all_accepted in E1. change (cf_length_square (read_config f)) with (square f) in E1. change (cf_length_marker (read_config f)) with (marker f) in E1.
      destruct (calib_charucos _) as [chs|] eqn:EC; [|discriminate E1]. destruct chs as [|c l]; [|cbn [forallb] in E1; rewrite NA in E1; discriminate E1].
      assert (E2 : 0 < effective_nb_board (cf_boards (read_config f))). { unfold effective_nb_board. destruct (g_boards_index _); cbn [List.length]; lia. }
      destruct (effective_nb_board _) as [|m]; [lia|]. cbn [seq map collect].
      assert (E3 : calib_board (cf_boards (read_config f)) (Z.of_nat 0) = None).
      { unfold calib_board. rewrite EC. destruct (znth _ _) as [ci|]; [|reflexivity]. destruct (board_size _ _) as [((nx, ny), q)|]; [|reflexivity]. unfold znth. destruct (Z.ltb ci 0); [reflexivity|]. destruct (Z.to_nat ci); reflexivity. }
      rewrite E3. reflexivity. }
    unfold stops_early. cbn [main]. rewrite Y. unfold runCalibrationWorkflow. destruct (construct w path) as [e1 o] eqn:Ec. cbn [snd] in SC. subst o. cbn [fst snd]. split; [auto|].
    destruct (construct_events _ _ _ _ Ec) as (made & -> & _). intros e He. apply in_map_iff in He as (p & <- & _). eauto.
Qed.
Print Assumptions C65_impossible_markers.

(** *** Examples *)
Definition print_config : cfile :=
  [ ("number_camera", NInt 1); ("number_board", NInt 2); ("number_x_square_per_board", NSeq [NInt 5; NInt 4]); ("number_y_square_per_board", NSeq [NInt 3; NInt 6]);
    ("square_size_per_board", NSeq [NInt 1; NInt 2]); ("resolution_x_per_board", NSeq [NInt 500; NInt 400]); ("resolution_y_per_board", NSeq [NInt 300; NInt 600]);
    ("length_square", NInt 2); ("length_marker", NInt 1); ("save_path", NStr "out") ].
Definition print_world (f : cfile) : world :=
  mkWorld (fun _ p => String.eqb p "conf.yml") (fun _ _ => true) (fun _ _ => true) (fun _ => f) (fun _ => []) (fun _ => []) (fun _ => []) (fun _ => mkCont false (mkImg 0 0 (fun _ _ => 0%R)) (fun _ => ([], []))).
(** an image is known by its board and its size *)
Definition shown (sq mk : R) (c : charuco) (x y : Z) : option (charuco * Z * Z) := if Z.ltb 0 x && Z.ltb 0 y then Some (c, x, y) else None.
Lemma conf_yml : yml_path "conf.yml".
Proof. apply yml_path_spec. split; reflexivity. Qed.
Example C65_example : exists s, snd (construct (print_world print_config) "conf.yml") = Some s /\ List.length (su_boards s) = 2 /\
  create_main shown (print_world print_config) ["create"; "conf.yml"] =
    ([PDir "charuco_boards"; PImage "charuco_boards/charuco_board_000.bmp" (mkCh 5 3 [0; 1; 2; 3; 4; 5; 6]%Z, 500, 300)%Z;
      PImage "charuco_boards/charuco_board_001.bmp" (mkCh 4 6 [7; 8; 9; 10; 11; 12; 13; 14; 15; 16; 17; 18]%Z, 400, 600)%Z], Returned 0).
Proof.
  eexists. split; [apply construct_ok; [reflexivity|reflexivity|reflexivity|apply small_all; repeat constructor|reflexivity]|]. split; [reflexivity|].
  assert (A : forallb (accepted (read_real (key print_config "length_square")) (read_real (key print_config "length_marker"))) [mkCh 5 3 [0; 1; 2; 3; 4; 5; 6]%Z; mkCh 4 6 [7; 8; 9; 10; 11; 12; 13; 14; 15; 16; 17; 18]%Z] = true) by (apply (small_all [_; _]); repeat constructor).
  cbn [create_main]. change (yml_available (w_exists (print_world print_config) []) "conf.yml") with true. cbv iota. cbn [print_world w_config].
  change (Z.ltb 0 (g_nb_board (cf_boards (read_config print_config)))) with true. cbv iota. unfold board_images.
  change (generator_charucos (cf_boards (read_config print_config))) with (Some [mkCh 5 3 [0; 1; 2; 3; 4; 5; 6]%Z; mkCh 4 6 [7; 8; 9; 10; 11; 12; 13; 14; 15; 16; 17; 18]%Z]). cbv iota. rewrite A. reflexivity.
Qed.
Example C65_completes_example : let f := print_config in (0 < nb_boards f)%Z /\ (0 < marker f < square f)%R /\
  forall k, k < Z.to_nat (nb_boards f) -> exists nx ny x y, squares_of f k nx ny /\ (1 < nx)%Z /\ (1 < ny)%Z /\ resolution_of f k x y /\ forall ids, shown (square f) (marker f) (mkCh nx ny ids) x y <> None.
Proof.
  intros f. split; [reflexivity|]. split; [unfold marker, square; cbn; lra|]. intros k Hk. change (Z.to_nat (nb_boards f)) with 2 in Hk.
  destruct k as [|[|k]]; [exists 5%Z, 3%Z, 500%Z, 300%Z|exists 4%Z, 6%Z, 400%Z, 600%Z|lia]; (split; [split; left; reflexivity|]; split; [lia|]; split; [lia|]; split; [split; left; reflexivity|]; intros ids; unfold shown; discriminate).
Qed.
(** It is not so that every board looked for is printed: with one board and boards_index [1]
    the generator prints board 0 and the calibration looks for board 1. *)
Definition beyond_config : cfile :=
  [ ("number_camera", NInt 1); ("number_board", NInt 1); ("boards_index", NSeq [NInt 1]); ("number_x_square", NInt 5); ("number_y_square", NInt 3);
    ("square_size", NInt 1); ("resolution_x", NInt 500); ("resolution_y", NInt 300); ("length_square", NInt 2); ("length_marker", NInt 1); ("save_path", NStr "out") ].
Theorem C65_every_board_looked_for_is_printed_refuted : exists w path es s B,
  create_main shown w ["create"; path] = (es, Returned 0) /\ snd (construct w path) = Some s /\ In B (su_boards s) /\
  images es <> [] /\ forall p i, In (p, i) (images es) -> forall id, In id (ch_ids (fst (fst i))) -> ~ In id (ch_ids (bd_charuco B)).
Proof.
  exists (print_world beyond_config), "conf.yml". 
  assert (A : forallb (accepted (read_real (key beyond_config "length_square")) (read_real (key beyond_config "length_marker"))) [mkCh 5 3 [0; 1; 2; 3; 4; 5; 6]%Z] = true) by (apply (small_all [_]); repeat constructor).
  assert (E : create_main shown (print_world beyond_config) ["create"; "conf.yml"] = ([PDir "charuco_boards"; PImage "charuco_boards/charuco_board_000.bmp" (mkCh 5 3 [0; 1; 2; 3; 4; 5; 6]%Z, 500, 300)%Z], Returned 0)).
  { cbn [create_main]. change (yml_available (w_exists (print_world beyond_config) []) "conf.yml") with true. cbv iota. cbn [print_world w_config].
    change (Z.ltb 0 (g_nb_board (cf_boards (read_config beyond_config)))) with true. cbv iota. unfold board_images.
    change (generator_charucos (cf_boards (read_config beyond_config))) with (Some [mkCh 5 3 [0; 1; 2; 3; 4; 5; 6]%Z]). cbv iota. rewrite A. reflexivity. }
  eexists. eexists. eexists. split; [exact E|]. split; [apply construct_ok; [reflexivity|reflexivity|reflexivity|apply small_all; repeat constructor|reflexivity]|]. split; [left; reflexivity|]. split; [discriminate|].
  intros p i [H|[]]. injection H as <- <-. cbn [fst ch_ids]. intros id Hd Hb. vm_compute in Hb. cbn [In] in Hd. intuition lia.
Qed.
Print Assumptions C65_every_board_looked_for_is_printed_refuted.
