(** Numbering of object points, refreshing and saving them. *)
From Coq Require Import List ZArith QArith Lia Reals Permutation.
From Verif Require Import SMap GraphModel GraphSpec GraphComp DataModel DataSpec DetectModel DetectProofs GeomModel GeomSpec GeomProofs
  ChainModel ChainSpec ChainProofs ChainCam ObjectsModel ObjectsSpec ObjectsProofs.
Import ListNotations.
Close Scope Q_scope.
Close Scope R_scope.
Open Scope nat_scope.

Section Save.
Variable bpts : Z -> list vec3.

Lemma corner_pts : forall bs n b k P, NoDup (map fst bs) -> In (b, P) bs ->
  nth_error (corners bpts (map fst bs)) n = Some (b, Z.of_nat k) ->
  nth_error (flat_map (fun '(b, P) => map (pact P) (bpts b)) bs) n = option_map (pact P) (nth_error (bpts b) k).
Proof.
  induction bs as [|[b0 P0] bs IH]; intros n b k P N Hin H; [destruct Hin|].
  cbn [map fst] in *. inversion N; subst.
  change (corners bpts (b0 :: map fst bs)) with (map (fun k => (b0, Z.of_nat k)) (seq 0 (length (bpts b0))) ++ corners bpts (map fst bs)) in H.
  cbn [flat_map].
  destruct (Nat.ltb_spec n (length (bpts b0))) as [L|L].
  - rewrite nth_error_app1 in H by (rewrite map_length, seq_length; auto).
    rewrite nth_error_map, (nth_error_nth' _ 0), seq_nth in H by (rewrite ?seq_length; auto). cbn in H. injection H as -> Hk.
    apply Nat2Z.inj in Hk. subst n.
    assert (P = P0) as ->.
    { destruct Hin as [[= ->]|Hin]; auto. exfalso. apply H2. apply (in_map fst) in Hin. auto. }
    rewrite nth_error_app1 by (rewrite map_length; auto). rewrite nth_error_map. auto.
  - rewrite nth_error_app2 in H by (rewrite map_length, seq_length; auto). rewrite map_length, seq_length in H.
    rewrite nth_error_app2 by (rewrite map_length; auto). rewrite map_length.
    assert (b <> b0). { intros ->. apply nth_error_In in H. apply corners_In in H. tauto. }
    destruct Hin as [[= -> _]|Hin]; [congruence|]. apply IH; auto.
Qed.

Lemma wb_lookup bs o b P k : well_built bpts bs o -> In (b, P) bs -> k < length (bpts b) ->
  exists n, b2o o b (Z.of_nat k) = Z.of_nat n /\ mfind (b, Z.of_nat k) (ob_b2o o) = Some (Z.of_nat n) /\ n < ob_nb_pts o /\
    nth_error (ob_o2b o) n = Some (b, Z.of_nat k) /\
    nth_error (ob_pts o) n = option_map (pact P) (nth_error (bpts b) k).
Proof.
  intros W Hin Hk.
  assert (I : In (b, Z.of_nat k) (ob_o2b o)).
  { rewrite (wb_o2b _ _ _ W). apply corners_In. split; [apply (in_map fst) in Hin; auto|lia]. }
  apply In_nth_error in I as (n & Hn).
  assert (F : mfind (b, Z.of_nat k) (ob_b2o o) = Some (Z.of_nat n)) by (apply (wb_b2o _ _ _ W); eauto).
  exists n. split; [unfold b2o; rewrite F; auto|]. split; [auto|].
  split; [rewrite (wb_nb_pts _ _ _ W), <- (wb_o2b _ _ _ W); apply nth_error_Some; congruence|].
  split; [auto|]. rewrite (wb_pts _ _ _ W). apply corner_pts; [apply W|auto|].
  rewrite <- (wb_o2b _ _ _ W). auto.
Qed.

(** ** save3DObj *)
Lemma collect_map_Some {A B} (f : A -> option B) (g : A -> B) l : (forall x, In x l -> f x = Some (g x)) ->
  collect (map f l) = Some (map g l).
Proof. intros H. apply collect_Some. rewrite map_map. apply map_ext_in. auto. Qed.

Lemma keys_In_bs bs o b : well_built bpts bs o -> In b (mkeys (ob_boards o)) -> exists P, In (b, P) bs.
Proof.
  intros W H. apply (wb_boards _ _ _ W) in H. apply in_map_iff in H as ([b' P] & E & H). cbn in E. subst. eauto.
Qed.

Lemma save_ok bs o : well_built bpts bs o -> exists cols, save3DObj bpts o = Some cols /\
  (forall p b k, In (p, b, k) cols <-> exists P q j, In (b, P) bs /\ k = Z.of_nat j /\ nth_error (bpts b) j = Some q /\ p = pact P q) /\
  map (fun c => (snd (fst c), snd c)) cols = corners bpts (mkeys (ob_boards o)) /\ length cols = ob_nb_pts o.
Proof.
  intros W.
  set (one := fun (b : Z) (k : nat) => nth_error (ob_pts o) (Z.to_nat (b2o o b (Z.of_nat k)))).
  set (dflt := vzero).
  set (val := fun (b : Z) (k : nat) => match one b k with Some p => p | None => dflt end).
  set (cols := flat_map (fun b => map (fun k => (val b k, b, Z.of_nat k)) (seq 0 (length (bpts b)))) (mkeys (ob_boards o))).
  assert (V : forall b P k, In (b, P) bs -> k < length (bpts b) -> exists q, nth_error (bpts b) k = Some q /\ one b k = Some (pact P q)).
  { intros b P k Hin Hk. destruct (wb_lookup bs o b P k W Hin Hk) as (n & E1 & _ & _ & _ & E2).
    destruct (nth_error (bpts b) k) as [q|] eqn:E; [|apply nth_error_None in E; lia].
    exists q. split; auto. unfold one. rewrite E1, Nat2Z.id. auto. }
  assert (L : map (fun c => (snd (fst c), snd c)) cols = corners bpts (mkeys (ob_boards o))).
  { unfold cols, corners. rewrite flat_map_concat_map, concat_map, map_map, <- flat_map_concat_map.
    apply flat_map_ext'. intros b _. rewrite map_map. auto. }
  assert (L2 : length cols = ob_nb_pts o).
  { rewrite (wb_nb_pts _ _ _ W). rewrite <- (map_length (fun c => (snd (fst c), snd c))), L.
    assert (Pm : Permutation (mkeys (ob_boards o)) (map fst bs)).
    { apply NoDup_Permutation; [apply msorted_NoDup, W|apply W|]. apply W. }
    apply Permutation_length. unfold corners. apply Permutation_flat_map. auto. }
  exists cols. split; [|split; [|auto]].
  - unfold save3DObj.
    assert (C : collect (flat_map (fun b => map (fun k => option_map (fun p => (p, b, Z.of_nat k))
                                                (nth_error (ob_pts o) (Z.to_nat (b2o o b (Z.of_nat k)))))
                                        (seq 0 (length (bpts b)))) (mkeys (ob_boards o))) = Some cols).
    { apply collect_Some. unfold cols. rewrite (flat_map_concat_map (fun b => map (fun k => (val b k, b, Z.of_nat k)) _)), concat_map, map_map, <- flat_map_concat_map.
      apply flat_map_ext'. intros b Hb. rewrite map_map. apply map_ext_in. intros k Hk. apply in_seq in Hk.
      destruct (keys_In_bs _ _ _ W Hb) as (P & HP). destruct (V b P k HP) as (q & _ & E); [lia|].
      unfold val. fold (one b k). rewrite E. auto. }
    rewrite C, L2, Nat.leb_refl. auto.
  - intros p b k. unfold cols. rewrite in_flat_map. split.
    + intros (b' & Hb & H). apply in_map_iff in H as (j & [= <- -> <-] & Hj). apply in_seq in Hj.
      destruct (keys_In_bs _ _ _ W Hb) as (P & HP). destruct (V b P j HP) as (q & E1 & E); [lia|].
      exists P, q, j. unfold val. rewrite E. auto.
    + intros (P & q & j & HP & -> & Hj & ->). assert (Hl : j < length (bpts b)) by (apply nth_error_Some; congruence).
      exists b. split; [apply (wb_boards _ _ _ W); apply (in_map fst) in HP; auto|].
      apply in_map_iff. exists j. split; [|apply in_seq; lia].
      destruct (V b P j HP Hl) as (q' & E1 & E). unfold val. rewrite E. congruence.
Qed.

(** ** updateObjectPts *)
Lemma set_nth_length {A} (l : list A) : forall i v, length (set_nth l i v) = length l.
Proof. induction l; intros [|i] v; cbn; auto. Qed.
Lemma set_nth_eq {A} (l : list A) : forall i v, i < length l -> nth_error (set_nth l i v) i = Some v.
Proof. induction l; intros [|i] v H; cbn in *; try lia; auto. apply IHl. lia. Qed.
Lemma set_nth_neq {A} (l : list A) : forall i j v, i <> j -> nth_error (set_nth l i v) j = nth_error l j.
Proof. induction l; intros [|i] [|j] v H; cbn; auto; try lia. Qed.
Definition writes {A} (l : list A) (ws : list (nat * A)) : list A := fold_left (fun l w => set_nth l (fst w) (snd w)) ws l.
Lemma writes_length {A} (ws : list (nat * A)) : forall l, length (writes l ws) = length l.
Proof. unfold writes. induction ws as [|w ws IH]; intros l; cbn; auto. rewrite IH, set_nth_length. auto. Qed.
Lemma writes_other {A} (ws : list (nat * A)) : forall l i, ~ In i (map fst ws) -> nth_error (writes l ws) i = nth_error l i.
Proof.
  unfold writes. induction ws as [|w ws IH]; intros l i H; cbn; auto. cbn in H. rewrite IH by tauto. apply set_nth_neq. tauto.
Qed.
Lemma writes_in {A} (ws : list (nat * A)) : forall l i v, NoDup (map fst ws) -> In (i, v) ws -> i < length l ->
  nth_error (writes l ws) i = Some v.
Proof.
  induction ws as [|w ws IH]; intros l i v N H L; [destruct H|]. cbn in N. inversion N; subst.
  destruct H as [->|H].
  - change (writes l ((i, v) :: ws)) with (writes (set_nth l i v) ws). cbn in H2. rewrite writes_other by auto. apply set_nth_eq; auto.
  - change (writes l (w :: ws)) with (writes (set_nth l (fst w) (snd w)) ws). apply IH; auto. rewrite set_nth_length; auto.
Qed.

Definition update_writes (o : obj3d) (poses : smap Z pose) : list (nat * vec3) :=
  flat_map (fun b => match mfind b poses with
    | Some P => map (fun kp => (Z.to_nat (b2o o b (Z.of_nat (fst kp))), snd kp))
                    (combine (seq 0 (length (bpts b))) (transform3DPts (bpts b) P))
    | None => [] end) (mkeys (ob_boards o)).
Lemma update_as_writes o poses : ob_pts (updateObjectPts bpts o poses) = writes (ob_pts o) (update_writes o poses).
Proof.
  unfold updateObjectPts, update_writes. cbn [ob_pts]. generalize (ob_pts o) as l.
  induction (mkeys (ob_boards o)) as [|b bs IH]; intros l; auto. cbn [fold_left flat_map].
  unfold writes. rewrite fold_left_app. rewrite IH. f_equal. destruct (mfind b poses); auto.
  generalize (combine (seq 0 (length (bpts b))) (transform3DPts (bpts b) p)) as ks. intros ks. revert l.
  induction ks as [|k ks IHk]; intros l; cbn; auto.
Qed.

Lemma combine_seq_In {A} (l : list A) s k x : In (k, x) (combine (seq s (length l)) l) <-> s <= k /\ nth_error l (k - s) = Some x.
Proof.
  revert s. induction l as [|a l IH]; intros s; cbn.
  - split; [tauto|]. intros (_ & H). destruct (k - s); discriminate.
  - rewrite IH. split.
    + intros [[= -> ->]|(H1 & H2)]; [split; auto; rewrite Nat.sub_diag; auto|]. split; [lia|].
      replace (k - s) with (S (k - S s)) by lia. auto.
    + intros (H1 & H2). destruct (Nat.eq_dec k s) as [->|N].
      * rewrite Nat.sub_diag in H2. injection H2 as ->. auto.
      * right. split; [lia|]. replace (k - s) with (S (k - S s)) in H2 by lia. auto.
Qed.
Lemma combine_fst {A B} (l : list A) (m : list B) : length l = length m -> map fst (combine l m) = l.
Proof. revert m. induction l as [|a l IH]; intros [|b m] H; cbn in *; try lia; auto. f_equal. auto. Qed.

(** moved to the poses stored in [poses] *)
Definition with_poses (poses : smap Z pose) (bs : list (Z * pose)) : list (Z * pose) :=
  map (fun '(b, P) => (b, match mfind b poses with Some Q => Q | None => P end)) bs.
Lemma with_poses_fst poses bs : map fst (with_poses poses bs) = map fst bs.
Proof. unfold with_poses. rewrite map_map. apply map_ext. intros [b P]. auto. Qed.

Lemma writes_ok bs o poses : well_built bpts bs o -> (forall b, In b (map fst bs) -> exists Q, mfind b poses = Some Q) ->
  NoDup (map fst (update_writes o poses)).
Proof.
  intros W H. unfold update_writes.
  assert (G : forall bl, NoDup bl -> (forall b, In b bl -> In b (map fst bs)) -> 
    NoDup (map fst (flat_map (fun b => match mfind b poses with
    | Some P => map (fun kp => (Z.to_nat (b2o o b (Z.of_nat (fst kp))), snd kp))
                    (combine (seq 0 (length (bpts b))) (transform3DPts (bpts b) P))
    | None => [] end) bl)) /\
    forall n, In n (map fst (flat_map (fun b => match mfind b poses with
    | Some P => map (fun kp => (Z.to_nat (b2o o b (Z.of_nat (fst kp))), snd kp))
                    (combine (seq 0 (length (bpts b))) (transform3DPts (bpts b) P))
    | None => [] end) bl)) -> exists b k, In b bl /\ nth_error (ob_o2b o) n = Some (b, k)).
  { induction bl as [|b bl IH]; intros N Hb; cbn [flat_map map]; [split; [constructor|intros n []]|].
    inversion N; subst. destruct IH as (I1 & I2); auto. { intros; apply Hb; right; auto. }
    destruct (H b (Hb b (or_introl eq_refl))) as (Q & EQ). rewrite EQ. rewrite map_app, map_map. cbn [fst].
    assert (E : map (fun x : nat * vec3 => Z.to_nat (b2o o b (Z.of_nat (fst x)))) (combine (seq 0 (length (bpts b))) (transform3DPts (bpts b) Q))
              = map (fun k => Z.to_nat (b2o o b (Z.of_nat k))) (seq 0 (length (bpts b)))).
    { rewrite <- (map_map fst (fun k => Z.to_nat (b2o o b (Z.of_nat k)))). rewrite combine_fst; auto.
      unfold transform3DPts. rewrite map_length, seq_length. auto. }
    rewrite E.
    assert (Hin : exists P, In (b, P) bs).
    { assert (Hb' := Hb b (or_introl eq_refl)). apply in_map_iff in Hb' as ([b' P] & Eb & Hb'). cbn in Eb. subst. eauto. }
    destruct Hin as (P & Hin).
    assert (LK : forall k, k < length (bpts b) -> nth_error (ob_o2b o) (Z.to_nat (b2o o b (Z.of_nat k))) = Some (b, Z.of_nat k)).
    { intros k Hk. destruct (wb_lookup bs o b P k W Hin Hk) as (n & E1 & _ & _ & E2 & _). rewrite E1, Nat2Z.id. auto. }
    split.
    - apply NoDup_app_intro'; auto.
      + assert (GI : forall l, NoDup l -> (forall k, In k l -> k < length (bpts b)) -> NoDup (map (fun k => Z.to_nat (b2o o b (Z.of_nat k))) l)).
        { induction l as [|k l IHl]; intros Nl Hl; cbn; constructor.
          - intros Hi. apply in_map_iff in Hi as (k' & Ek & Hk'). inversion Nl; subst.
            assert (A := LK k (Hl k (or_introl eq_refl))). assert (B := LK k' (Hl k' (or_intror Hk'))). rewrite Ek in B.
            rewrite A in B. injection B as B. apply Nat2Z.inj in B. subst. contradiction.
          - inversion Nl; subst. apply IHl; auto. intros; apply Hl; right; auto. }
        apply GI; [apply seq_NoDup|]. intros k Hk. apply in_seq in Hk. lia.
      + intros n H1 H4. apply in_map_iff in H1 as (k & <- & Hk). apply in_seq in Hk. apply I2 in H4 as (b' & k' & Hb' & Hn).
        rewrite LK in Hn by lia. injection Hn as <- _. contradiction.
    - intros n Hn. apply in_app_or in Hn as [Hn|Hn].
      + apply in_map_iff in Hn as (k & <- & Hk). apply in_seq in Hk. exists b, (Z.of_nat k). split; [left; auto|]. apply LK. lia.
      + apply I2 in Hn as (b' & k' & Hb' & Hn). exists b', k'. split; [right; auto|auto]. }
  apply G; [apply msorted_NoDup, W|]. intros b Hb. apply W. auto.
Qed.

Lemma nth_error_ext {A} : forall l1 l2 : list A, (forall n, nth_error l1 n = nth_error l2 n) -> l1 = l2.
Proof.
  induction l1 as [|a l1 IH]; intros [|b l2] H; auto; [specialize (H 0); discriminate|specialize (H 0); discriminate|].
  assert (H0 := H 0). injection H0 as ->. f_equal. apply IH. intros n. apply (H (S n)).
Qed.
Lemma corners_length bs : length (flat_map (fun '(b, P) => map (pact P) (bpts b)) bs) = length (corners bpts (map fst bs)).
Proof.
  unfold corners. induction bs as [|[b P] bs IH]; cbn; auto. rewrite !app_length, IH, !map_length, seq_length. auto.
Qed.

(** after a change of board poses the points follow *)
Lemma update_ok bs o poses : well_built bpts bs o -> mkeys poses = mkeys (ob_poses o) ->
  well_built bpts (with_poses poses bs) (updateObjectPts bpts o poses).
Proof.
  intros W K.
  assert (H : forall b, In b (map fst bs) -> exists Q, mfind b poses = Some Q).
  { intros b Hb. apply mfind_Some_key. rewrite K. apply in_map_iff in Hb as ([b' P] & E & Hb). cbn in E. subst b'.
    apply mfind_Some_key. exists P. apply W. auto. }
  constructor; rewrite ?with_poses_fst; try apply W.
  - intros b P. unfold updateObjectPts. cbn [ob_poses]. unfold with_poses. split.
    + intros E. assert (Hb : In b (mkeys poses)) by (apply mfind_Some_key; eauto). rewrite K in Hb.
      apply mfind_Some_key in Hb as (P0 & E0). apply (wb_poses _ _ _ W) in E0.
      apply in_map_iff. exists (b, P0). rewrite E. auto.
    + intros Hin. apply in_map_iff in Hin as ([b' P0] & [= -> E] & Hin).
      destruct (H b) as (Q & EQ); [apply (in_map fst) in Hin; auto|]. rewrite EQ in E. congruence.
  - assert (L : length (ob_pts o) = length (ob_o2b o)) by (rewrite (wb_pts _ _ _ W), (wb_o2b _ _ _ W); apply corners_length).
    apply nth_error_ext. intros n. rewrite update_as_writes.
    destruct (Nat.ltb_spec n (length (ob_o2b o))) as [Hn|Hn].
    + destruct (nth_error (ob_o2b o) n) as [[b z]|] eqn:E; [|apply nth_error_None in E; lia].
      assert (E' := E). rewrite (wb_o2b _ _ _ W) in E'. assert (I := nth_error_In _ _ E'). apply corners_In in I as (I1 & I2).
      replace z with (Z.of_nat (Z.to_nat z)) in * by lia. set (k := Z.to_nat z) in *.
      destruct (H b I1) as (Q & EQ). assert (HW : In (b, Q) (with_poses poses bs)).
      { apply in_map_iff in I1 as ([b' P] & Eb & I1). cbn in Eb. subst b'. unfold with_poses. apply in_map_iff. exists (b, P). rewrite EQ. auto. }
      rewrite (corner_pts (with_poses poses bs) n b k Q); [|rewrite with_poses_fst; apply W|auto|rewrite with_poses_fst; auto].
      destruct (nth_error (bpts b) k) as [q|] eqn:Eq; [|apply nth_error_None in Eq; lia]. cbn [option_map].
      apply writes_in; [eapply writes_ok; eauto| |lia].
      unfold update_writes. apply in_flat_map. exists b. split; [apply W; auto|]. rewrite EQ.
      apply in_map_iff. exists (k, pact Q q). cbn [fst snd]. split.
      * f_equal. assert (F : mfind (b, Z.of_nat k) (ob_b2o o) = Some (Z.of_nat n)) by (apply (wb_b2o _ _ _ W); eauto).
        unfold b2o. rewrite F. apply Nat2Z.id.
      * assert (Lt : length (bpts b) = length (transform3DPts (bpts b) Q)) by (unfold transform3DPts; rewrite map_length; auto).
        rewrite Lt. apply combine_seq_In. split; [lia|]. rewrite Nat.sub_0_r. unfold transform3DPts. rewrite nth_error_map, Eq. auto.
    + assert (L2 := corners_length (with_poses poses bs)). rewrite with_poses_fst, <- (wb_o2b _ _ _ W) in L2.
      transitivity (@None vec3); [|symmetry]; apply nth_error_None; rewrite ?writes_length; lia.
Qed.
End Save.
