From Coq Require Import String Permutation.
From Verif Require Import SMap DataModel DataSpec GraphSpec GraphInv.
Local Open Scope list_scope.
Open Scope nat_scope.

Section Proofs.
Context {pt : Type}.
Notation insertion := (insertion pt).
Notation tables := (tables pt).

Lemma positions_from_snoc p (l : list insertion) i : forall k,
  positions_from k p (l ++ [i]) =
  positions_from k p l ++ (if p i then [k + List.length l] else []).
Proof.
  induction l as [|x l IH]; intros k; cbn.
  - rewrite app_nil_r, Nat.add_0_r. destruct (p i); auto.
  - rewrite IH, <- app_assoc. do 3 f_equal. destruct (p i); auto. f_equal. lia.
Qed.

Lemma positions_snoc p (l : list insertion) i :
  positions p (l ++ [i]) = positions p l ++ (if p i then [List.length l] else []).
Proof. apply positions_from_snoc. Qed.

Lemma filter_snoc {A} (p : A -> bool) l i :
  filter p (l ++ [i]) = filter p l ++ (if p i then [i] else []).
Proof. rewrite filter_app. cbn. destruct (p i); auto. Qed.

Lemma find_snoc {A} (p : A -> bool) l i :
  find p (l ++ [i]) = match find p l with Some x => Some x | None => if p i then Some i else None end.
Proof. induction l as [|x l IH]; cbn; auto. destruct (p x); auto. Qed.

Lemma latest_path_snoc (l : list insertion) i c f :
  latest_path (l ++ [i]) c f =
  if by_cam_frame c f i then Some (i_path i) else latest_path l c f.
Proof.
  unfold latest_path. rewrite rev_app_distr. cbn.
  destruct (by_cam_frame c f i); auto.
Qed.

Lemma mkeys_dense {V} (l : list V) : mkeys (dense l) = map Z.of_nat (seq 0 (List.length l)).
Proof.
  unfold dense. generalize 0. induction l as [|x l IH]; intros k; cbn; auto. f_equal. apply IH.
Qed.

Lemma in_range_keys n x : In x (map Z.of_nat (seq 0 n)) <-> (0 <= x < Z.of_nat n)%Z.
Proof.
  rewrite in_map_iff. split.
  - intros (k & <- & H). apply in_seq in H. lia.
  - intros H. exists (Z.to_nat x). split; [lia|]. apply in_seq. lia.
Qed.

Lemma seq_keys_sorted {V} (m : smap Z V) n : mkeys m = map Z.of_nat (seq 0 n) -> msorted m.
Proof.
  unfold msorted. intros ->. generalize 0. induction n as [|n IH]; intros k; cbn; constructor; auto.
  apply Forall_forall. intros x Hx. apply in_map_iff in Hx. destruct Hx as (j & <- & Hj).
  apply in_seq in Hj. unfold klt, kcmp; cbn. apply Z.compare_lt_iff. lia.
Qed.

Lemma known_find {V} (m : smap Z V) n k :
  mkeys m = map Z.of_nat (seq 0 n) -> (0 <= k < Z.of_nat n)%Z -> exists v, mfind k m = Some v.
Proof.
  intros Hk Hr. apply mfind_Some_key. rewrite Hk. apply in_range_keys; auto.
Qed.

Lemma by_frame_false_find (ins : list insertion) f :
  (forall i, In i ins -> i_frame i <> f) -> find (by_frame f) ins = None.
Proof.
  induction ins as [|x l IH]; cbn; intros H; auto.
  unfold by_frame at 1. destruct (Z.eqb_spec (i_frame x) f).
  - exfalso. eapply H; eauto.
  - apply IH; auto.
Qed.

Lemma positions_none p (ins : list insertion) : forall k,
  (forall i, In i ins -> p i = false) -> positions_from k p ins = [].
Proof.
  induction ins as [|x l IH]; intros k H; cbn; auto. rewrite H by (cbn; auto). cbn.
  apply IH. intros; apply H; cbn; auto.
Qed.

Lemma filter_none {A} (p : A -> bool) l : (forall i, In i l -> p i = false) -> filter p l = [].
Proof.
  induction l as [|x l IH]; intros H; cbn; auto. rewrite H by (cbn; auto).
  apply IH. intros; apply H; cbn; auto.
Qed.

Lemma find_none_iff {A} (p : A -> bool) l : find p l = None <-> forall x, In x l -> p x = false.
Proof.
  split.
  - intros H x Hx. eapply find_none; eauto.
  - induction l as [|x l IH]; intros H; cbn; auto. rewrite H by (cbn; auto).
    apply IH. intros; apply H; cbn; auto.
Qed.

Lemma existsb_cam_frame (ins : list insertion) c f :
  existsb (Z.eqb c) (map i_cam (filter (by_frame f) ins)) = true <->
  exists i, In i ins /\ i_cam i = c /\ i_frame i = f.
Proof.
  rewrite existsb_Zeqb, in_map_iff. split.
  - intros (i & He & Hi). apply filter_In in Hi. destruct Hi as [Hi Hf].
    unfold by_frame in Hf. apply Z.eqb_eq in Hf. eauto.
  - intros (i & Hi & Hc & Hf). exists i. split; auto. apply filter_In; split; auto.
    unfold by_frame. apply Z.eqb_eq; auto.
Qed.

Ltac eqb_simpl :=
  repeat match goal with
  | |- context [Z.eqb ?x ?x] => rewrite (Z.eqb_refl x)
  | H : ?x <> ?y |- context [Z.eqb ?x ?y] => rewrite (proj2 (Z.eqb_neq x y) H)
  | H : ?y <> ?x |- context [Z.eqb ?x ?y] => rewrite (proj2 (Z.eqb_neq x y) (not_eq_sym H))
  end.

Lemma by_cam_self (i : insertion) : by_cam (i_cam i) i = true.
Proof. apply Z.eqb_refl. Qed.
Lemma by_board_self (i : insertion) : by_board (i_board i) i = true.
Proof. apply Z.eqb_refl. Qed.
Lemma by_frame_self (i : insertion) : by_frame (i_frame i) i = true.
Proof. apply Z.eqb_refl. Qed.
Lemma by_cam_neq c (i : insertion) : c <> i_cam i -> by_cam c i = false.
Proof. intros; apply Z.eqb_neq; auto. Qed.
Lemma by_board_neq c (i : insertion) : c <> i_board i -> by_board c i = false.
Proof. intros; apply Z.eqb_neq; auto. Qed.
Lemma by_frame_neq c (i : insertion) : c <> i_frame i -> by_frame c i = false.
Proof. intros; apply Z.eqb_neq; auto. Qed.

Lemma insert_step nc nb (ins : list insertion) (t : tables) (i : insertion) :
  holds nc nb ins t -> frame_tables ins t -> known nc nb i ->
  exists t', insertNewBoard t i = Some t' /\
             holds nc nb (ins ++ [i]) t' /\ frame_tables (ins ++ [i]) t'.
Proof.
  intros [Ho Hck Hbk Hc Hb Hfs Hfk Hf Hcos Hcok Hco] [Hfc Hfb] [Hkc Hkb].
  destruct (known_find _ _ _ Hck Hkc) as [c Ec].
  destruct (known_find _ _ _ Hbk Hkb) as [b Eb].
  pose proof (seq_keys_sorted _ _ Hck) as Hcs.
  pose proof (seq_keys_sorted _ _ Hbk) as Hbs.
  destruct (Hc _ _ Ec) as [Hc1 Hc2]. pose proof (Hb _ _ Eb) as Hb1.
  assert (Hlen : List.length (t_obs t) = List.length ins) by (rewrite Ho, dense_length, map_length; auto).
  unfold insertNewBoard. rewrite Ec, Eb, Hlen.
  set (id := List.length ins).
  (* the frame *)
  assert (Hfr : exists fr c2 b2,
    (match mfind (i_frame i) (t_frames t) with
        | Some f => (frame_set_path (frame_insertNewBoard f id (i_board i)) (i_cam i) (i_path i),
                     camera_insertNewBoard c id (i_board i), board_insertNewBoard b id)
        | None => (frame_insertNewBoard (new_frame (i_frame i) (i_cam i) (i_path i)) id (i_board i),
                   camera_insertNewFrame (camera_insertNewBoard c id (i_board i)) (i_frame i),
                   board_insertNewFrame (board_insertNewBoard b id) (i_frame i))
        end) = (fr, c2, b2) /\
    f_idx fr = i_frame i /\
    f_obs fr = dense (positions (by_frame (i_frame i)) (ins ++ [i])) /\
    f_boards fr = map i_board (filter (by_frame (i_frame i)) (ins ++ [i])) /\
    f_cams fr = keep_first [] (map i_cam (filter (by_frame (i_frame i)) ins)) /\
    f_camobs fr = dense (map (fun c => (c, i_frame i)) (f_cams fr)) /\
    (forall c, mfind c (f_paths fr) = latest_path (ins ++ [i]) c (i_frame i)) /\
    c_obs c2 = dense (positions (by_cam (i_cam i)) (ins ++ [i])) /\
    c_vis c2 = map i_board (filter (by_cam (i_cam i)) (ins ++ [i])) /\
    b_obs b2 = dense (positions (by_board (i_board i)) (ins ++ [i])) /\
    (forall f, In f (mkeys (c_frames c2)) <->
       exists j, find (by_frame f) (ins ++ [i]) = Some j /\ i_cam j = i_cam i) /\
    (forall f, In f (mkeys (b_frames b2)) <->
       exists j, find (by_frame f) (ins ++ [i]) = Some j /\ i_board j = i_board i)).
  { assert (Hcam2 : forall c2, c_obs c2 = dpush (c_obs c) id -> c_vis c2 = c_vis c ++ [i_board i] ->
      c_obs c2 = dense (positions (by_cam (i_cam i)) (ins ++ [i])) /\
      c_vis c2 = map i_board (filter (by_cam (i_cam i)) (ins ++ [i]))).
    { intros c2 -> ->. rewrite Hc1, dpush_dense, positions_snoc, filter_snoc, Hc2.
      rewrite by_cam_self, map_app. auto. }
    assert (Hbo2 : forall b2, b_obs b2 = dpush (b_obs b) id ->
      b_obs b2 = dense (positions (by_board (i_board i)) (ins ++ [i]))).
    { intros b2 ->. rewrite Hb1, dpush_dense, positions_snoc.
      rewrite by_board_self. auto. }
    destruct (mfind (i_frame i) (t_frames t)) as [f|] eqn:Ef.
    - destruct (Hf _ _ Ef) as (F1 & F2 & F3 & F4 & F5 & F6).
      assert (Hex : exists j, In j ins /\ i_frame j = i_frame i).
      { apply Hfk. apply mfind_Some_key. eauto. }
      assert (Hfind : find (by_frame (i_frame i)) ins <> None).
      { intros Hn. destruct Hex as (j & Hj & He). rewrite find_none_iff in Hn.
        specialize (Hn j Hj). unfold by_frame in Hn. rewrite He, Z.eqb_refl in Hn. discriminate. }
      assert (Hsame : forall f', find (by_frame f') (ins ++ [i]) = find (by_frame f') ins).
      { intros f'. rewrite find_snoc. destruct (find (by_frame f') ins) eqn:E; auto.
        destruct (Z.eq_dec f' (i_frame i)) as [->|]; [contradiction|]. rewrite by_frame_neq; auto. }
      do 3 eexists. split; [reflexivity|].
      cbn [f_idx f_obs f_boards f_cams f_camobs f_paths frame_set_path frame_insertNewBoard
           camera_insertNewBoard board_insertNewBoard c_frames b_frames].
      repeat match goal with |- _ /\ _ => split end; auto.
      + rewrite F2, dpush_dense, positions_snoc. rewrite by_frame_self. auto.
      + rewrite F3, filter_snoc. rewrite by_frame_self, map_app. auto.
      + intros c'. rewrite latest_path_snoc. unfold by_cam_frame, by_cam, by_frame. eqb_simpl.
        rewrite andb_true_r. destruct (Z.eqb_spec (i_cam i) c') as [<-|Hne].
        * apply mfind_mset_eq.
        * rewrite mfind_mset_neq by auto. apply F6.
      + apply (Hcam2 (camera_insertNewBoard c id (i_board i))); auto.
      + apply (Hcam2 (camera_insertNewBoard c id (i_board i))); auto.
      + intros f'. rewrite Hsame. apply Hfc; auto.
      + intros f'. rewrite Hsame. apply Hfb; auto.
    - apply mfind_None in Ef. rewrite Hfk in Ef.
      assert (Hno : forall j, In j ins -> i_frame j <> i_frame i).
      { intros j Hj He. apply Ef. eauto. }
      assert (Hnof : forall j, In j ins -> by_frame (i_frame i) j = false).
      { intros j Hj. unfold by_frame. apply Z.eqb_neq. auto. }
      assert (Hkeys : forall (P : insertion -> Z) (m : smap Z Z) (x : Z),
        (forall f, In f (mkeys m) <-> exists j, find (by_frame f) ins = Some j /\ P j = x) ->
        P i = x ->
        forall f, In f (mkeys (mset (i_frame i) (i_frame i) m)) <->
          exists j, find (by_frame f) (ins ++ [i]) = Some j /\ P j = x).
      { intros P m x Hm HP f. rewrite mset_keys_in, find_snoc, Hm.
        destruct (Z.eq_dec f (i_frame i)) as [->|Hne].
        - rewrite (by_frame_false_find ins (i_frame i) Hno). rewrite by_frame_self.
          split; eauto.
        - split.
          + intros [He|(j & Hj & He)]; [contradiction|]. rewrite Hj. eauto.
          + intros (j & Hj & He). right. destruct (find (by_frame f) ins) as [j'|]; eauto.
            rewrite by_frame_neq in Hj by auto.
            discriminate. }
      do 3 eexists. split; [reflexivity|].
      cbn [f_idx f_obs f_boards f_cams f_camobs f_paths frame_insertNewBoard new_frame
           camera_insertNewBoard board_insertNewBoard camera_insertNewFrame board_insertNewFrame
           c_frames b_frames c_obs c_vis b_obs app].
      repeat match goal with |- _ /\ _ => split end; auto.
      + change (@nil (Z * nat)) with (@dense nat []). rewrite dpush_dense, positions_snoc.
        unfold positions. rewrite positions_none by auto.
        rewrite by_frame_self. auto.
      + rewrite filter_snoc, filter_none by auto. rewrite by_frame_self. auto.
      + rewrite filter_none by auto. auto.
      + intros c'. rewrite latest_path_snoc. unfold by_cam_frame at 1. rewrite by_frame_self.
        rewrite andb_true_r. cbn [mset mfind].
        destruct (Z.eq_dec c' (i_cam i)) as [->|Hne].
        * rewrite by_cam_self, kcmp_refl. auto.
        * rewrite by_cam_neq by auto. assert (latest_path ins c' (i_frame i) = None) as ->.
          { unfold latest_path. rewrite (proj2 (find_none_iff _ _)); auto.
            intros x Hx. apply in_rev in Hx. unfold by_cam_frame. rewrite Hnof by auto.
            apply andb_false_r. }
          destruct (kcmp c' (i_cam i)) eqn:E; auto. apply kcmp_eq in E. congruence.
      + apply (Hcam2 (camera_insertNewBoard c id (i_board i))); auto.
      + apply (Hcam2 (camera_insertNewBoard c id (i_board i))); auto.
      + apply (Hbo2 (board_insertNewBoard b id)); auto. }
  destruct Hfr as (fr & c2 & b2 & Efr & F1 & F2 & F3 & F4 & F5 & F6 & C1 & C2 & B1 & CF & BF).
  rewrite Efr. clear Efr.
  (* the camera observation *)
  set (key := (i_cam i, i_frame i)).
  assert (Hcoe : exists co fr2,
    (match mfind key (t_camobs t) with
     | Some co => (camobs_insertNewBoard co id (i_cam i) (i_board i), fr)
     | None => (new_camobs id (i_cam i) (i_board i), frame_insertNewCamObs fr (i_cam i) key)
     end) = (co, fr2) /\
    co_obs co = dense (positions (by_cam_frame (i_cam i) (i_frame i)) (ins ++ [i])) /\
    co_boards co = map i_board (filter (by_cam_frame (i_cam i) (i_frame i)) (ins ++ [i])) /\
    co_cam co = i_cam i /\
    f_idx fr2 = f_idx fr /\ f_obs fr2 = f_obs fr /\ f_boards fr2 = f_boards fr /\
    f_paths fr2 = f_paths fr /\
    f_cams fr2 = keep_first [] (map i_cam (filter (by_frame (i_frame i)) (ins ++ [i]))) /\
    f_camobs fr2 = dense (map (fun c => (c, i_frame i)) (f_cams fr2))).
  { assert (Hself : by_cam_frame (i_cam i) (i_frame i) i = true).
    { unfold by_cam_frame, by_cam, by_frame. eqb_simpl. auto. }
    assert (Hfself : by_frame (i_frame i) i = true) by (unfold by_frame; eqb_simpl; auto).
    assert (Hkf : keep_first [] (map i_cam (filter (by_frame (i_frame i)) (ins ++ [i]))) =
      keep_first [] (map i_cam (filter (by_frame (i_frame i)) ins)) ++
      (if existsb (Z.eqb (i_cam i)) (map i_cam (filter (by_frame (i_frame i)) ins)) then [] else [i_cam i])).
    { rewrite filter_snoc, Hfself, map_app. cbn [map]. apply (keep_first_snoc _ []). }
    destruct (mfind key (t_camobs t)) as [co|] eqn:Eco.
    - destruct (Hco _ _ _ Eco) as (O1 & O2 & O3).
      assert (Hex : existsb (Z.eqb (i_cam i)) (map i_cam (filter (by_frame (i_frame i)) ins)) = true).
      { apply existsb_cam_frame. apply Hcok. apply mfind_Some_key. eauto. }
      do 2 eexists. split; [reflexivity|].
      cbn [camobs_insertNewBoard co_obs co_boards co_cam].
      repeat match goal with |- _ /\ _ => split end; auto.
      + rewrite O1, dpush_dense, positions_snoc, Hself. auto.
      + rewrite O2, filter_snoc, Hself, map_app. auto.
      + rewrite Hkf, Hex, app_nil_r. auto.
    - assert (Hno : ~ exists j, In j ins /\ i_cam j = i_cam i /\ i_frame j = i_frame i).
      { rewrite <- Hcok. apply mfind_None. exact Eco. }
      assert (Hnof : forall j, In j ins -> by_cam_frame (i_cam i) (i_frame i) j = false).
      { intros j Hj. destruct (by_cam_frame (i_cam i) (i_frame i) j) eqn:E; auto.
        exfalso. apply Hno. unfold by_cam_frame, by_cam, by_frame in E.
        apply andb_true_iff in E. rewrite !Z.eqb_eq in E. exists j; tauto. }
      assert (Hex : existsb (Z.eqb (i_cam i)) (map i_cam (filter (by_frame (i_frame i)) ins)) = false).
      { destruct (existsb _ _) eqn:E; auto. apply existsb_cam_frame in E. contradiction. }
      do 2 eexists. split; [reflexivity|].
      unfold new_camobs. cbn [camobs_insertNewBoard frame_insertNewCamObs co_obs co_boards co_cam
        f_idx f_obs f_boards f_paths f_cams f_camobs app].
      repeat match goal with |- _ /\ _ => split end; auto.
      + change (@nil (Z * nat)) with (@dense nat []). rewrite dpush_dense, positions_snoc, Hself.
        unfold positions. rewrite positions_none by auto. auto.
      + rewrite filter_snoc, filter_none, Hself by auto. auto.
      + rewrite Hkf, Hex, F4. auto.
      + rewrite F5, dpush_dense, map_app. auto. }
  destruct Hcoe as (co & fr2 & Eco & O1 & O2 & O3 & G1 & G2 & G3 & G4 & G5 & G6).
  rewrite Eco. clear Eco. cbv beta iota zeta.
  eexists. split; [reflexivity|].
  assert (Hkeyin : forall (P : insertion -> Prop),
     (exists j, In j (ins ++ [i]) /\ P j) <-> P i \/ exists j, In j ins /\ P j).
  { intros P. split.
    - intros (j & Hj & HP). apply in_app_or in Hj. destruct Hj as [Hj|[<-|[]]]; eauto.
    - intros [HP|(j & Hj & HP)]; [exists i|exists j]; rewrite in_app_iff; cbn; auto. }
  split; constructor; cbn [t_obs t_cams t_boards t_frames t_camobs].
  - rewrite Ho, dpush_dense, map_app. auto.
  - rewrite mset_keys_existing; auto. rewrite Hck. apply in_range_keys; auto.
  - rewrite mset_keys_existing; auto. rewrite Hbk. apply in_range_keys; auto.
  - intros c' r Hr. destruct (Z.eq_dec c' (i_cam i)) as [->|Hne].
    + rewrite mfind_mset_eq in Hr. inversion Hr; subst r. auto.
    + rewrite mfind_mset_neq in Hr by auto. destruct (Hc _ _ Hr) as [H1 H2].
      rewrite positions_snoc, filter_snoc, by_cam_neq by auto.
      rewrite !app_nil_r. auto.
  - intros b' r Hr. destruct (Z.eq_dec b' (i_board i)) as [->|Hne].
    + rewrite mfind_mset_eq in Hr. inversion Hr; subst r. auto.
    + rewrite mfind_mset_neq in Hr by auto. rewrite (Hb _ _ Hr).
      rewrite positions_snoc, by_board_neq by auto. rewrite app_nil_r. auto.
  - apply mset_sorted; auto.
  - intros f. rewrite mset_keys_in, Hkeyin, Hfk. intuition.
  - intros f r Hr. destruct (Z.eq_dec f (i_frame i)) as [->|Hne].
    + rewrite mfind_mset_eq in Hr. inversion Hr; subst r.
      rewrite G1, G2, G3, G4. repeat match goal with |- _ /\ _ => split end; auto.
    + rewrite mfind_mset_neq in Hr by auto.
      destruct (Hf _ _ Hr) as (H1 & H2 & H3 & H4 & H5 & H6).
      assert (Hnb : by_frame f i = false) by (unfold by_frame; eqb_simpl; auto).
      rewrite positions_snoc, filter_snoc, Hnb, !app_nil_r.
      repeat match goal with |- _ /\ _ => split end; auto.
      intros c'. rewrite latest_path_snoc. unfold by_cam_frame. rewrite Hnb, andb_false_r. auto.
  - apply mset_sorted; auto.
  - intros c' f. rewrite mset_keys_in, Hkeyin, Hcok. unfold key. split.
    + intros [[= -> ->]|H]; auto.
    + intros [[<- <-]|H]; auto.
  - intros c' f r Hr. destruct (key_dec (c', f) key) as [He|Hne].
    + unfold key in He. inversion He; subst. fold key in Hr.
      rewrite mfind_mset_eq in Hr. inversion Hr; subst r. auto.
    + rewrite mfind_mset_neq in Hr by auto. destruct (Hco _ _ _ Hr) as (H1 & H2 & H3).
      assert (Hnb : by_cam_frame c' f i = false).
      { destruct (by_cam_frame c' f i) eqn:E; auto. exfalso. apply Hne.
        unfold by_cam_frame, by_cam, by_frame in E. apply andb_true_iff in E.
        rewrite !Z.eqb_eq in E. unfold key. destruct E as [E1 E2]. rewrite E1, E2. auto. }
      rewrite positions_snoc, filter_snoc, Hnb, !app_nil_r. auto.
  - intros c' r f Hr. destruct (Z.eq_dec c' (i_cam i)) as [->|Hne].
    + rewrite mfind_mset_eq in Hr. inversion Hr; subst r. auto.
    + rewrite mfind_mset_neq in Hr by auto. rewrite (Hfc _ _ f Hr), find_snoc. split.
      * intros (j & -> & He). eauto.
      * intros (j & Hj & He). destruct (find (by_frame f) ins) as [j'|]; [eauto|].
        destruct (by_frame f i); [|discriminate]. inversion Hj; subst j. congruence.
  - intros b' r f Hr. destruct (Z.eq_dec b' (i_board i)) as [->|Hne].
    + rewrite mfind_mset_eq in Hr. inversion Hr; subst r. auto.
    + rewrite mfind_mset_neq in Hr by auto. rewrite (Hfb _ _ f Hr), find_snoc. split.
      * intros (j & -> & He). eauto.
      * intros (j & Hj & He). destruct (find (by_frame f) ins) as [j'|]; [eauto|].
        destruct (by_frame f i); [|discriminate]. inversion Hj; subst j. congruence.
Qed.

Lemma dense_repeat_find {V} (x : V) n k r :
  mfind k (dense (repeat x n)) = Some r -> r = x.
Proof.
  intros H. apply mfind_In in H. apply (in_map snd) in H. cbn in H.
  change (In r (mvals (dense (repeat x n)))) in H. rewrite dense_vals in H.
  eapply repeat_spec; eauto.
Qed.

Lemma init_holds nc nb : holds nc nb [] (@init_tables pt nc nb) /\
                         frame_tables [] (@init_tables pt nc nb).
Proof.
  unfold init_tables. split; constructor; cbn [t_obs t_cams t_boards t_frames t_camobs].
  - reflexivity.
  - rewrite mkeys_dense, repeat_length. auto.
  - rewrite mkeys_dense, repeat_length. auto.
  - intros c r H. apply dense_repeat_find in H. subst. auto.
  - intros c r H. apply dense_repeat_find in H. subst. auto.
  - constructor.
  - intros f; cbn. firstorder.
  - intros f r H. discriminate.
  - constructor.
  - intros c f; cbn. firstorder.
  - intros c f r H. discriminate.
  - intros c r f H. apply dense_repeat_find in H. subst. cbn. firstorder. discriminate.
  - intros c r f H. apply dense_repeat_find in H. subst. cbn. firstorder. discriminate.
Qed.

Lemma insert_all_holds nc nb (ins : list insertion) : forall l t,
  holds nc nb ins t -> frame_tables ins t -> Forall (known nc nb) l ->
  exists t', insert_all t l = Some t' /\ holds nc nb (ins ++ l) t' /\ frame_tables (ins ++ l) t'.
Proof.
  intros l. revert ins. induction l as [|i l IH]; intros ins t H1 H2 Hk.
  - rewrite app_nil_r. cbn. eauto.
  - inversion Hk as [|? ? Hki Hkl]; subst.
    destruct (insert_step nc nb ins t i H1 H2 Hki) as (t1 & E1 & H1' & H2').
    cbn. rewrite E1. destruct (IH _ _ H1' H2' Hkl) as (t' & E & Ha & Hb).
    rewrite <- app_assoc in Ha, Hb. eauto.
Qed.

Theorem insert_all_from_init nc nb (l : list insertion) : Forall (known nc nb) l ->
  exists t, insert_all (init_tables nc nb) l = Some t /\ holds nc nb l t /\ frame_tables l t.
Proof.
  intros H. destruct (init_holds nc nb) as [H1 H2].
  apply (insert_all_holds nc nb [] l _ H1 H2 H).
Qed.

(** an unknown camera or board is undefined behaviour *)
Theorem insert_unknown nc nb (l : list insertion) i : Forall (known nc nb) l -> ~ known nc nb i ->
  forall r, insert_all (init_tables nc nb) (l ++ i :: r) = None.
Proof.
  intros Hl Hi r. destruct (insert_all_from_init nc nb l Hl) as (t & Et & Ht & _).
  assert (Hgo : forall l0 t0 t1, insert_all t0 l0 = Some t1 ->
    insert_all t0 (l0 ++ i :: r) = insert_all t1 (i :: r)).
  { induction l0 as [|x l0 IH]; intros t0 t1 H; cbn in *; [inversion H; auto|].
    destruct (insertNewBoard t0 x); [|discriminate]. apply IH; auto. }
  rewrite (Hgo _ _ _ Et). cbn. unfold insertNewBoard.
  destruct (mfind (i_cam i) (t_cams t)) as [c|] eqn:Ec; auto.
  destruct (mfind (i_board i) (t_boards t)) as [b|] eqn:Eb; auto.
  exfalso. apply Hi. split.
  - apply in_range_keys. rewrite <- (hd_cam_keys _ _ _ _ Ht). apply mfind_Some_key. eauto.
  - apply in_range_keys. rewrite <- (hd_board_keys _ _ _ _ Ht). apply mfind_Some_key. eauto.
Qed.
End Proofs.
