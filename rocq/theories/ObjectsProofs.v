(** Proofs about the construction of 3D objects. *)
From Coq Require Import List ZArith QArith Lia Reals Permutation.
From Verif Require Import SMap GraphModel GraphSpec GraphComp DataModel DataSpec DetectModel DetectProofs GeomModel GeomSpec GeomProofs
  ChainModel ChainSpec ChainProofs ChainCam ObjectsModel ObjectsSpec.
Import ListNotations.
Close Scope Q_scope.
Close Scope R_scope.
Open Scope nat_scope.

Lemma push_corners b : forall pts s o count,
  let r := fold_left (push_corner b) (combine (seq s (length pts)) pts) (o, count) in
  let o' := fst r in
  snd r = count + length pts /\
  ob_id o' = ob_id o /\ ob_ref o' = ob_ref o /\ ob_nb_boards o' = ob_nb_boards o /\ ob_boards o' = ob_boards o /\
  ob_nb_pts o' = ob_nb_pts o /\ ob_poses o' = ob_poses o /\
  ob_o2b o' = ob_o2b o ++ map (fun k => (b, Z.of_nat k)) (seq s (length pts)) /\
  ob_pts o' = ob_pts o ++ pts /\
  (forall b' k', (b' <> b \/ (k' < Z.of_nat s)%Z \/ (Z.of_nat (s + length pts) <= k')%Z) ->
      mfind (b', k') (ob_b2o o') = mfind (b', k') (ob_b2o o)) /\
  (forall i, i < length pts -> mfind (b, Z.of_nat (s + i)) (ob_b2o o') = Some (Z.of_nat (count + i))).
Proof.
  induction pts as [|p pts IH]; intros s o count; cbv zeta.
  - cbn. rewrite !app_nil_r, Nat.add_0_r. split; auto. repeat (split; [auto|]). intros; lia.
  - cbn [length seq combine fold_left push_corner fst snd].
    set (o1 := mkObj _ _ _ _ _ _ _ _ _).
    specialize (IH (S s) o1 (S count)). cbv zeta in IH.
    set (r := fold_left (push_corner b) (combine (seq (S s) (length pts)) pts) (o1, S count)) in *.
    destruct IH as (I0 & I1 & I2 & I3 & I4 & I5 & I6 & I7 & I8 & I9 & I10).
    split; [rewrite I0; lia|]. split; [exact I1|]. split; [exact I2|]. split; [exact I3|].
    split; [exact I4|]. split; [exact I5|]. split; [exact I6|].
    split; [rewrite I7; unfold o1; cbn [ob_o2b]; rewrite <- app_assoc; auto|].
    split; [rewrite I8; unfold o1; cbn [ob_pts]; rewrite <- app_assoc; auto|].
    split.
    + intros b' k' H. rewrite I9 by lia. unfold o1; cbn [ob_b2o]. apply mfind_mset_neq.
      intros [= -> ->]. lia.
    + intros [|i] Hi.
      * rewrite I9 by (right; left; lia). unfold o1; cbn [ob_b2o]. rewrite !Nat.add_0_r. apply mfind_mset_eq.
      * replace (s + S i) with (S s + i) by lia. rewrite I10 by lia. f_equal. lia.
Qed.

Lemma NoDup_app_intro' {A} (l1 l2 : list A) : NoDup l1 -> NoDup l2 -> (forall x, In x l1 -> In x l2 -> False) -> NoDup (l1 ++ l2).
Proof.
  induction l1 as [|a l1 IH]; intros H1 H2 H; auto. inversion H1; subst. cbn. constructor.
  - intros Hi. apply in_app_or in Hi as [Hi|Hi]; auto. apply (H a); auto. left; auto.
  - apply IH; auto. intros x Hx. apply H. right; auto.
Qed.

Section Build.
Variable bpts : Z -> list vec3.

Lemma corners_app l1 l2 : corners bpts (l1 ++ l2) = corners bpts l1 ++ corners bpts l2.
Proof. unfold corners. apply flat_map_app. Qed.
Lemma corners_In l b k : In (b, k) (corners bpts l) <-> In b l /\ (0 <= k < Z.of_nat (length (bpts b)))%Z.
Proof.
  unfold corners. rewrite in_flat_map. split.
  - intros (b' & Hb & H). apply in_map_iff in H as (j & [= <- <-] & H). apply in_seq in H. split; auto. lia.
  - intros (Hb & H). exists b. split; auto. apply in_map_iff. exists (Z.to_nat k). split; [f_equal; lia|]. apply in_seq. lia.
Qed.
Lemma corners_NoDup l : NoDup l -> NoDup (corners bpts l).
Proof.
  induction l as [|b l IH]; intros H; [constructor|]. inversion H; subst. 
  change (corners bpts (b :: l)) with (map (fun k => (b, Z.of_nat k)) (seq 0 (length (bpts b))) ++ corners bpts l).
  apply NoDup_app_intro'; auto.
  - apply FinFun.Injective_map_NoDup; [intros x y [= E]; lia|apply seq_NoDup].
  - intros [b' k] H1 H4. apply in_map_iff in H1 as (j & [= <- <-] & _). apply corners_In in H4. tauto.
Qed.

Lemma well_built_new nb ref id : well_built bpts [] (new_object nb ref id).
Proof.
  constructor; cbn [new_object ob_boards ob_nb_pts ob_poses ob_b2o ob_o2b ob_pts mkeys map fst mfind].
  - constructor.
  - tauto.
  - constructor.
  - split; [discriminate|intros []].
  - reflexivity.
  - reflexivity.
  - reflexivity.
  - intros b k z. split; [discriminate|]. intros (n & _ & H). destruct n; discriminate.
Qed.

Lemma place_board_ok bs o b P : well_built bpts bs o -> ~ In b (map fst bs) ->
  let r := place_board bpts (o, length (ob_o2b o)) (b, P) in
  well_built bpts (bs ++ [(b, P)]) (fst r) /\ snd r = length (ob_o2b (fst r)) /\
  ob_id (fst r) = ob_id o /\ ob_ref (fst r) = ob_ref o /\ ob_nb_boards (fst r) = ob_nb_boards o.
Proof.
  intros W Hb. cbv zeta. unfold place_board.
  set (o1 := mkObj _ _ _ _ _ _ _ _ _).
  assert (L : length (bpts b) = length (transform3DPts (bpts b) P)) by (unfold transform3DPts; rewrite map_length; auto).
  rewrite L.
  destruct (push_corners b (transform3DPts (bpts b) P) 0 o1 (length (ob_o2b o)))
    as (I0 & I1 & I2 & I3 & I4 & I5 & I6 & I7 & I8 & I9 & I10).
  set (r := fold_left _ _ _) in *. clearbody r. rewrite <- L in *.
  assert (O2B : ob_o2b (fst r) = corners bpts (map fst (bs ++ [(b, P)]))).
  { rewrite I7. unfold o1. cbn [ob_o2b]. rewrite (wb_o2b _ _ _ W), map_app, corners_app. f_equal.
    unfold corners. cbn. rewrite app_nil_r. auto. }
  split; [|split; [rewrite I0, I7, app_length, map_length, seq_length; auto|auto]].
  assert (ND : NoDup (map fst (bs ++ [(b, P)]))).
  { rewrite map_app. cbn. apply NoDup_app_intro'; [apply W|constructor; [tauto|constructor]|]. intros x H1 [<-|[]]. auto. }
  constructor; auto.
  - intros x. rewrite I4. unfold o1. cbn [ob_boards]. rewrite mset_keys_in, (wb_boards _ _ _ W), map_app, in_app_iff. cbn. intuition.
  - rewrite I4. apply mset_sorted. apply W.
  - intros x Q. rewrite I6. unfold o1. cbn [ob_poses]. destruct (Z.eq_dec x b) as [->|N].
    + rewrite mfind_mset_eq. rewrite in_app_iff. cbn. split; [intros [= ->]; auto|]. intros [H|[H|[]]]; [|congruence].
      exfalso. apply Hb. apply (in_map fst) in H. auto.
    + rewrite mfind_mset_neq by auto. rewrite (wb_poses _ _ _ W), in_app_iff. cbn. split; [auto|].
      intros [H|[[= <- _]|[]]]; [auto|congruence].
  - rewrite I5. unfold o1. cbn [ob_nb_pts]. rewrite map_app, corners_app, app_length, (wb_nb_pts _ _ _ W). f_equal.
    unfold corners. cbn. rewrite app_nil_r, map_length, seq_length. auto.
  - rewrite I8. unfold o1. cbn [ob_pts]. rewrite (wb_pts _ _ _ W), flat_map_app. f_equal. cbn. rewrite app_nil_r. auto.
  - intros x k z.
    assert (D : (x = b /\ (0 <= k < Z.of_nat (length (bpts b)))%Z) \/ (x <> b \/ (k < Z.of_nat 0)%Z \/ (Z.of_nat (0 + length (bpts b)) <= k)%Z)) by lia.
    destruct D as [(-> & Hk)|D].
    + assert (E := I10 (Z.to_nat k) ltac:(lia)). replace (Z.of_nat (0 + Z.to_nat k)) with k in E by lia.
      assert (N : nth_error (ob_o2b (fst r)) (length (ob_o2b o) + Z.to_nat k) = Some (b, k)).
      { rewrite I7, nth_error_app2 by (unfold o1; cbn; lia). unfold o1; cbn [ob_o2b].
        replace (length (ob_o2b o) + Z.to_nat k - length (ob_o2b o)) with (Z.to_nat k) by lia.
        rewrite nth_error_map. rewrite (nth_error_nth' _ 0) by (rewrite seq_length; lia). cbn.
        rewrite seq_nth by lia. cbn. f_equal. f_equal. lia. }
      rewrite E. split.
      * intros [= <-]. eauto.
      * intros (n & -> & Hn). f_equal. f_equal. 
        assert (ND2 : NoDup (ob_o2b (fst r))) by (rewrite O2B; apply corners_NoDup; auto).
        rewrite NoDup_nth_error in ND2. apply ND2; [apply nth_error_Some; congruence|congruence].
    + rewrite I9 by auto. unfold o1; cbn [ob_b2o]. rewrite (wb_b2o _ _ _ W). rewrite I7. unfold o1; cbn [ob_o2b]. split.
      * intros (n & -> & Hn). exists n. split; auto. rewrite nth_error_app1; auto. apply nth_error_Some. congruence.
      * intros (n & -> & Hn). exists n. split; auto. destruct (Nat.ltb_spec n (length (ob_o2b o))) as [Hl|Hl].
        { rewrite nth_error_app1 in Hn; auto. }
        { exfalso. rewrite nth_error_app2 in Hn by auto. apply nth_error_In in Hn. apply in_map_iff in Hn as (j & [= -> <-] & Hj).
          apply in_seq in Hj. lia. }
Qed.

Lemma place_boards_ok bs : forall bs0 o, well_built bpts bs0 o -> NoDup (map fst (bs0 ++ bs)) ->
  let r := fold_left (place_board bpts) bs (o, length (ob_o2b o)) in
  well_built bpts (bs0 ++ bs) (fst r) /\
  ob_id (fst r) = ob_id o /\ ob_ref (fst r) = ob_ref o /\ ob_nb_boards (fst r) = ob_nb_boards o.
Proof.
  induction bs as [|[b P] bs IH]; intros bs0 o W N; cbv zeta.
  - cbn. rewrite app_nil_r. auto.
  - assert (Hb : ~ In b (map fst bs0)).
    { rewrite map_app in N. cbn in N. apply NoDup_remove_2 in N. intros H. apply N. apply in_or_app. auto. }
    destruct (place_board_ok bs0 o b P W Hb) as (W1 & C1 & E1 & E2 & E3). cbn [fold_left].
    set (r1 := place_board bpts (o, length (ob_o2b o)) (b, P)) in *. clearbody r1. destruct r1 as [o1 c1]. cbn [fst snd] in *. subst c1.
    rewrite <- app_assoc in IH || idtac.
    specialize (IH (bs0 ++ [(b, P)]) o1 W1). rewrite <- app_assoc in IH. cbn [app] in IH. specialize (IH N). cbv zeta in IH.
    destruct IH as (I1 & I2 & I3 & I4). split; [auto|]. split; [congruence|]. split; congruence.
Qed.
Lemma build_ok bs nb ref id : NoDup (map fst bs) ->
  let o := fst (fold_left (place_board bpts) bs (new_object nb ref id, 0)) in
  well_built bpts bs o /\ ob_id o = id /\ ob_ref o = ref /\ ob_nb_boards o = nb.
Proof.
  intros N. apply (place_boards_ok bs [] (new_object nb ref id)); [apply well_built_new|auto].
Qed.
End Build.

