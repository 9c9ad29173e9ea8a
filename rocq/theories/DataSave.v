(** saveDetectedKeypoints followed by loadDetectedKeypoints (C11). *)
From Coq Require Import String Permutation.
From Verif Require Import SMap GraphSpec DataModel DataSpec DataProofs DataSched.
Local Open Scope list_scope.
Open Scope nat_scope.

(** ** Lists grouped by key *)
Section Group.
Context {A K : Type} (key : A -> K) (keq : forall a b : K, {a = b} + {a <> b}).
Definition has_key (k : K) (x : A) : bool := if keq (key x) k then true else false.

Lemma has_key_true k x : has_key k x = true <-> key x = k.
Proof. unfold has_key. destruct (keq (key x) k); split; congruence. Qed.

Lemma perm_by_keys : forall (l1 l2 : list A),
  (forall k, filter (has_key k) l1 = filter (has_key k) l2) -> Permutation l1 l2.
Proof.
  induction l1 as [|x l1 IH]; intros l2 H.
  - destruct l2 as [|y l2]; auto. specialize (H (key y)). cbn in H.
    replace (has_key (key y) y) with true in H by (symmetry; apply has_key_true; auto). discriminate.
  - assert (Hx := H (key x)). cbn in Hx.
    replace (has_key (key x) x) with true in Hx by (symmetry; apply has_key_true; auto).
    assert (Hsplit : exists a b, l2 = a ++ x :: b /\ filter (has_key (key x)) a = []).
    { clear -Hx. symmetry in Hx. revert Hx. generalize (filter (has_key (key x)) l1). intros r.
      induction l2 as [|y l2 IH]; cbn; [discriminate|].
      destruct (has_key (key x) y) eqn:Hy.
      - injection 1 as -> _. exists [], l2. auto.
      - intros Hr. destruct (IH Hr) as (a & b & -> & Ha). exists (y :: a), b. cbn. rewrite Hy. auto. }
    destruct Hsplit as (a & b & -> & Ha). apply Permutation_cons_app. apply IH. intros k.
    specialize (H k). cbn in H. rewrite filter_app in *. cbn in H.
    destruct (has_key k x) eqn:Hkx; auto.
    apply has_key_true in Hkx. subst k. rewrite Ha in *. cbn in *. congruence.
Qed.
End Group.

Lemma filter_flat_map_one {A K} (p : A -> bool) (g : K -> list A) (ks : list K) k0 :
  NoDup ks -> In k0 ks -> (forall k, In k ks -> k <> k0 -> filter p (g k) = []) ->
  filter p (flat_map g ks) = filter p (g k0).
Proof.
  induction ks as [|k ks IH]; cbn; [tauto|]. intros Hnd [->|Hin] Ho; rewrite filter_app; inversion Hnd; subst.
  - assert (Hz : filter p (flat_map g ks) = []).
    { apply filter_none. intros i Hi. apply in_flat_map in Hi. destruct Hi as (k & Hk & Hi).
      assert (E : filter p (g k) = []) by (apply Ho; auto; intros ->; auto).
      destruct (p i) eqn:Hp; auto. assert (In i (filter p (g k))) by (apply filter_In; auto).
      rewrite E in H. destruct H. }
    rewrite Hz, app_nil_r. auto.
  - rewrite Ho; auto. intros ->; auto.
Qed.

Lemma filter_flat_map_zero {A K} (p : A -> bool) (g : K -> list A) (ks : list K) :
  (forall k, In k ks -> filter p (g k) = []) -> filter p (flat_map g ks) = [].
Proof.
  intros Ho. apply filter_none. intros i Hi. apply in_flat_map in Hi. destruct Hi as (k & Hk & Hi).
  destruct (p i) eqn:Hp; auto. assert (In i (filter p (g k))) by (apply filter_In; auto).
  rewrite Ho in H; auto. destruct H.
Qed.

Lemma filter_idem_ne {A} (p q : A -> bool) l :
  (forall x, q x = true -> p x = false) -> filter p (filter q l) = [].
Proof. intros H. apply filter_none. intros x Hx. apply filter_In in Hx. apply H. tauto. Qed.

Section Save.
Context {pt : Type}.
Notation insertion := (insertion pt).
Notation tables := (tables pt).

Definition entry_ins (cam : Z) (e : Z * string * Z * bobs pt) : insertion :=
  let '(f, p, b, o) := e in mkIns cam f b (o_pts o) (o_ids o) p.

Lemma zip_ins_entries cam (es : list (Z * string * Z * bobs pt)) :
  zip_ins cam (map (fun e => fst (fst (fst e))) es) (map (fun e => snd (fst (fst e))) es)
    (map (fun e => snd (fst e)) es) (map (fun e => o_pts (snd e)) es) (map (fun e => o_ids (snd e)) es)
  = map (entry_ins cam) es.
Proof. induction es as [|[[[f p] b] o] es IH]; cbn; auto. f_equal; auto. Qed.

Lemma set_image_size_holds nc nb (ins : list insertion) t c w h :
  holds nc nb ins t -> holds nc nb ins (set_image_size t c w h).
Proof.
  intros H. unfold set_image_size. destruct (mfind c (t_cams t)) as [r|] eqn:E; auto.
  assert (Hs : msorted (t_cams t)) by (eapply seq_keys_sorted; apply H).
  destruct H. constructor; cbn [t_obs t_cams t_boards t_frames t_camobs]; auto.
  - rewrite mset_keys_existing; auto. apply mfind_Some_key. eauto.
  - intros c' r' Hf. destruct (key_dec c' c) as [->|Hn].
    + rewrite mfind_mset_eq in Hf. injection Hf as <-. cbn. eauto.
    + rewrite mfind_mset_neq in Hf by auto. eauto.
Qed.

Lemma set_image_size_frame_tables (ins : list insertion) t c w h :
  frame_tables ins t -> frame_tables ins (set_image_size t c w h).
Proof.
  intros H. unfold set_image_size. destruct (mfind c (t_cams t)) as [r|] eqn:E; auto.
  destruct H as [H1 H2]. constructor; cbn [t_obs t_cams t_boards t_frames t_camobs]; auto.
  intros c' r' f Hf. destruct (key_dec c' c) as [->|Hn].
  + rewrite mfind_mset_eq in Hf. injection Hf as <-. cbn. eauto.
  + rewrite mfind_mset_neq in Hf by auto. eauto.
Qed.

Lemma insertNewBoard_sizes (t t' : tables) (i : insertion) c :
  insertNewBoard t i = Some t' -> image_size t' c = image_size t c.
Proof.
  unfold insertNewBoard, image_size.
  destruct (mfind (i_cam i) (t_cams t)) as [r|] eqn:Ec; [|discriminate].
  destruct (mfind (i_board i) (t_boards t)) as [b|] eqn:Eb; [|discriminate].
  destruct (mfind (i_frame i) (t_frames t)) as [f|] eqn:Ef;
  destruct (mfind (i_cam i, i_frame i) (t_camobs t)) as [co|] eqn:Eco;
  intros [= <-]; cbn [t_cams]; (destruct (key_dec c (i_cam i)) as [->|Hn];
   [rewrite mfind_mset_eq, Ec; reflexivity|rewrite mfind_mset_neq by auto; reflexivity]).
Qed.

Lemma insert_all_sizes (l : list insertion) c : forall t t',
  insert_all t l = Some t' -> image_size t' c = image_size t c.
Proof.
  induction l as [|i l IH]; cbn; intros t t'; [congruence|].
  destruct (insertNewBoard t i) as [t1|] eqn:E; [|discriminate]. intros H.
  rewrite (IH _ _ H). eapply insertNewBoard_sizes; eauto.
Qed.

Lemma set_image_size_sizes (t : tables) c w h c' :
  In c (mkeys (t_cams t)) ->
  image_size (set_image_size t c w h) c' = if Z.eqb c' c then Some (w, h) else image_size t c'.
Proof.
  intros Hin. unfold set_image_size, image_size. apply mfind_Some_key in Hin. destruct Hin as [r E]. rewrite E.
  cbn [t_cams]. destruct (Z.eqb_spec c' c) as [->|Hn].
  - rewrite mfind_mset_eq; reflexivity.
  - rewrite mfind_mset_neq; auto.
Qed.

Definition saved_node (t : tables) (cam : Z) (c : cam_t) : kpnode pt :=
  let es := saved_entries t cam in
  mkKp (c_cols c) (c_rows c)
     (map (fun e => fst (fst (fst e))) es) (map (fun e => snd (fst (fst e))) es)
     (map (fun e => snd (fst e)) es) (map (fun e => o_pts (snd e)) es) (map (fun e => o_ids (snd e)) es).

Lemma mfind_map_val {V W} (g : Z -> V -> W) (m : smap Z V) k :
  mfind k (map (fun '(x, v) => (x, g x v)) m) = option_map (g k) (mfind k m).
Proof.
  induction m as [|[a b] m IH]; auto. cbn [map mfind].
  destruct (kcmp k a) eqn:E; auto. apply kcmp_eq in E. subst. reflexivity.
Qed.

Lemma save_find (t : tables) c :
  mfind c (saveDetectedKeypoints t) = option_map (saved_node t c) (mfind c (t_cams t)).
Proof. unfold saveDetectedKeypoints. apply (mfind_map_val (saved_node t)). Qed.

Definition loaded_ins (t : tables) (c : Z) : list insertion := map (entry_ins c) (saved_entries t c).

Lemma load_camera_saved nc nb (t t1 : tables) (acc : list insertion) c :
  In c (mkeys (t_cams t)) -> saved_entries t c <> [] ->
  holds nc nb acc t1 -> frame_tables acc t1 -> In c (mkeys (t_cams t1)) ->
  Forall (known nc nb) (loaded_ins t c) ->
  exists t2, load_camera (saveDetectedKeypoints t) t1 c = Loaded t2 /\
    holds nc nb (acc ++ loaded_ins t c) t2 /\ frame_tables (acc ++ loaded_ins t c) t2 /\
    (forall c', image_size t2 c' = if Z.eqb c' c then image_size t c else image_size t1 c').
Proof.
  intros Hc Hne Hh Hf Hc1 Hk. unfold load_camera. rewrite save_find.
  apply mfind_Some_key in Hc. destruct Hc as [r Er]. rewrite Er. cbn [option_map].
  unfold saved_node; cbn [k_frames k_paths k_boards k_pts k_ids k_width k_height].
  rewrite !map_length, Nat.eqb_refl, !andb_true_r.
  destruct (saved_entries t c) as [|e es] eqn:Ees; [contradiction|]. rewrite <- Ees.
  replace (List.length (saved_entries t c) =? 0) with false by (rewrite Ees; auto). cbn [negb].
  rewrite zip_ins_entries. fold (loaded_ins t c).
  destruct (insert_all_holds nc nb acc (loaded_ins t c) (set_image_size t1 c (c_cols r) (c_rows r)))
    as (t2 & E2 & A2 & B2); auto.
  { apply set_image_size_holds; auto. }
  { apply set_image_size_frame_tables; auto. }
  rewrite E2. exists t2. split; [auto|]. split; [auto|]. split; [auto|].
  intros c'. rewrite (insert_all_sizes _ _ _ _ E2), set_image_size_sizes by auto.
  replace (image_size t c) with (Some (c_cols r, c_rows r)); [reflexivity|].
  unfold image_size; rewrite Er; reflexivity.
Qed.

Lemma load_cameras_saved nc nb (t : tables) : forall cs (acc : list insertion) t1,
  (forall c, In c cs -> In c (mkeys (t_cams t)) /\ saved_entries t c <> [] /\
     In c (map Z.of_nat (seq 0 nc)) /\ Forall (known nc nb) (loaded_ins t c)) ->
  holds nc nb acc t1 -> frame_tables acc t1 ->
  exists t2, load_cameras (saveDetectedKeypoints t) t1 cs = Loaded t2 /\
    holds nc nb (acc ++ flat_map (loaded_ins t) cs) t2 /\
    frame_tables (acc ++ flat_map (loaded_ins t) cs) t2 /\
    (forall c', image_size t2 c' = if existsb (Z.eqb c') cs then image_size t c' else image_size t1 c').
Proof.
  induction cs as [|c cs IH]; intros acc t1 Hcs Hh Hf; cbn.
  - exists t1. rewrite app_nil_r. auto.
  - destruct (Hcs c (or_introl eq_refl)) as (A & B & C & D).
    destruct (load_camera_saved nc nb t t1 acc c) as (t2 & E2 & H2 & F2 & S2); auto.
    { rewrite (hd_cam_keys _ _ _ _ Hh). auto. }
    rewrite E2.
    destruct (IH (acc ++ loaded_ins t c) t2) as (t3 & E3 & H3 & F3 & S3); auto.
    { intros c' Hc'. apply Hcs. cbn; auto. }
    exists t3. rewrite app_assoc. split; [auto|]. split; [auto|]. split; [auto|].
    intros c'. rewrite S3, S2. destruct (Z.eqb_spec c' c) as [->|]; cbn; auto.
    destruct (existsb (Z.eqb c) cs); auto.
Qed.

(** *** what the saved entries say *)
Section Saved.
Variables (nc nb : nat) (ins : list insertion) (t0 t : tables).
Hypothesis Hh : holds nc nb ins t0.
Hypothesis Hr : refined t0 t.
Hypothesis Hk : Forall (known nc nb) ins.

Notation cams := (map Z.of_nat (seq 0 nc)).
Notation boards := (map Z.of_nat (seq 0 nb)).
Notation frames := (mkeys (t_frames t0)).

Lemma seq_NoDup' n : NoDup (map Z.of_nat (seq 0 n)).
Proof.
  apply FinFun.Injective_map_NoDup; [|apply seq_NoDup]. intros a b; lia.
Qed.

Lemma frame_idx_key f r : In (f, r) (t_frames t0) -> f_idx r = f.
Proof.
  intros H. apply (hd_frame _ _ _ _ Hh). apply In_mfind; auto. apply Hh.
Qed.

Lemma says_loaded c : map ins_says (loaded_ins t c) =
  flat_map (fun f => flat_map (fun b => filter (about (c, f, b)) (all_said t)) boards) frames.
Proof.
  unfold loaded_ins, saved_entries. rewrite (rf_frames _ _ Hr).
  rewrite map_map.
  assert (Hb : forall b f p, map (fun x => ins_says (entry_ins c x))
     (map (fun o => (f, p, b, o)) (filter (fun o => Z.eqb c (o_cam o) && Z.eqb f (o_frame o) && Z.eqb b (o_board o))
        (mvals (t_obs t)))) = filter (about (c, f, b)) (all_said t)).
  { intros b f p. unfold all_said. induction (mvals (t_obs t)) as [|o os IH]; auto.
    cbn [filter map]. unfold about at 1. cbn [obs_says fst].
    destruct (cfb_dec (o_cam o, o_frame o, o_board o) (c, f, b)) as [E|E].
    - injection E as E1 E2 E3. subst. rewrite !Z.eqb_refl. cbn. rewrite <- IH. reflexivity.
    - replace ((c =? o_cam o)%Z && (f =? o_frame o)%Z && (b =? o_board o)%Z) with false; auto.
      symmetry. apply not_true_iff_false. intros H. apply E.
      apply andb_true_iff in H. destruct H as [H H3]. apply andb_true_iff in H. destruct H as [H1 H2].
      apply Z.eqb_eq in H1, H2, H3. congruence. }
  assert (Hbs : map fst (t_boards t) = boards).
  { change (mkeys (t_boards t) = boards). rewrite (rf_boards _ _ Hr). apply Hh. }
  assert (Hbl : forall f p (bs : smap Z board_t), map (fun x => ins_says (entry_ins c x))
     (flat_map (fun '(b, _) => map (fun o => (f, p, b, o))
        (filter (fun o => Z.eqb c (o_cam o) && Z.eqb f (o_frame o) && Z.eqb b (o_board o))
        (mvals (t_obs t)))) bs) =
     flat_map (fun b => filter (about (c, f, b)) (all_said t)) (map fst bs)).
  { intros f p bs. induction bs as [|[b x] bs IH]; auto. cbn [flat_map map fst]. rewrite map_app, IH, Hb. auto. }
  assert (Hfi : forall f r, In (f, r) (t_frames t0) -> f_idx r = f) by apply frame_idx_key.
  unfold mkeys. induction (t_frames t0) as [|[f r] fs IH]; auto.
  cbn [flat_map map fst]. rewrite map_app, IH by (intros; apply Hfi; cbn; auto).
  f_equal. rewrite Hbl, Hbs. rewrite (Hfi f r) by (cbn; auto). auto.
Qed.

Lemma said_keys : forall s, In s (all_said t) -> exists i, In i ins /\ fst s = fst (ins_says i).
Proof.
  intros s Hs. unfold all_said in Hs. apply in_map_iff in Hs. destruct Hs as (o & <- & Ho).
  assert (H : In (fst (obs_says o)) (map (fun o => fst (obs_says o)) (mvals (t_obs t0)))).
  { rewrite <- (rf_obs _ _ Hr). apply (in_map (fun o => fst (obs_says o))). auto. }
  rewrite (hd_obs _ _ _ _ Hh), dense_vals in H. rewrite map_map in H. apply in_map_iff in H.
  destruct H as (i & Hi & Hin). exists i. split; auto.
Qed.

Lemma said_in_range : forall (s : @said pt) c f b, In s (all_said t) -> fst s = (c, f, b) ->
  In c cams /\ In f frames /\ In b boards.
Proof.
  intros s c f b Hs E. destruct (said_keys s Hs) as (i & Hi & E2). rewrite E in E2.
  unfold ins_says in E2. cbn in E2. injection E2 as -> -> ->.
  rewrite Forall_forall in Hk. destruct (Hk i Hi) as [K1 K2].
  repeat split.
  - apply in_range_keys; auto.
  - apply (hd_frame_keys _ _ _ _ Hh). eauto.
  - apply in_range_keys; auto.
Qed.

Lemma about_true k (s : @said pt) : about k s = true <-> fst s = k.
Proof. unfold about. destruct (cfb_dec (fst s) k); split; congruence. Qed.

Lemma said_group (k : Z * Z * Z) :
  filter (about k) (map ins_says (flat_map (loaded_ins t) cams)) = filter (about k) (all_said t).
Proof.
  destruct k as [[c f] b].
  assert (Hm : forall l, map ins_says (flat_map (loaded_ins t) l) =
     flat_map (fun c => flat_map (fun f => flat_map (fun b => filter (about (c, f, b)) (all_said t)) boards) frames) l).
  { intros l. induction l as [|x l IH]; auto. cbn. rewrite map_app, says_loaded, IH. auto. }
  rewrite Hm.
  assert (Hne : forall k k' : Z * Z * Z, k' <> k -> filter (about k) (filter (about k') (all_said t)) = []).
  { intros k k' Hn. apply filter_idem_ne. intros x Hx. apply about_true in Hx.
    destruct (about k x) eqn:E; auto. apply about_true in E. congruence. }
  assert (Hself : filter (about (c, f, b)) (filter (about (c, f, b)) (all_said t)) = filter (about (c, f, b)) (all_said t)).
  { clear. induction (all_said t) as [|x l IH]; cbn; auto.
    destruct (about (c, f, b) x) eqn:E; cbn; rewrite ?E, ?IH; auto. }
  destruct (filter (about (c, f, b)) (all_said t)) as [|s rest] eqn:Eg.
  - (* nobody: every saved element is in all_said *)
    apply filter_none. intros x Hx. destruct (about (c, f, b) x) eqn:E; auto.
    apply in_flat_map in Hx. destruct Hx as (c1 & _ & Hx).
    apply in_flat_map in Hx. destruct Hx as (f1 & _ & Hx).
    apply in_flat_map in Hx. destruct Hx as (b1 & _ & Hx). apply filter_In in Hx.
    assert (In x (filter (about (c, f, b)) (all_said t))) by (apply filter_In; tauto).
    rewrite Eg in H. destruct H.
  - rewrite <- Eg in *.
    assert (Hs : In s (filter (about (c, f, b)) (all_said t))) by (rewrite Eg; cbn; auto).
    apply filter_In in Hs. destruct Hs as [Hs Es]. apply about_true in Es.
    destruct (said_in_range s c f b Hs Es) as (I1 & I2 & I3).
    rewrite (filter_flat_map_one _ _ _ c); auto.
    2: apply seq_NoDup'.
    2: { intros c' _ Hn. apply filter_flat_map_zero. intros f' _. apply filter_flat_map_zero. intros b' _.
         apply Hne. congruence. }
    rewrite (filter_flat_map_one _ _ _ f); auto.
    2: { apply msorted_NoDup. apply Hh. }
    2: { intros f' _ Hn. apply filter_flat_map_zero. intros b' _. apply Hne. congruence. }
    rewrite (filter_flat_map_one _ _ _ b); auto.
    { apply seq_NoDup'. }
    intros b' _ Hn. apply Hne. congruence.
Qed.

Lemma says_perm : Permutation (map ins_says (flat_map (loaded_ins t) cams)) (all_said t).
Proof.
  apply (perm_by_keys (@fst (Z * Z * Z) (list pt * list Z)) cfb_dec).
  intros k. apply (said_group k).
Qed.

Lemma loaded_known : Forall (known nc nb) (flat_map (loaded_ins t) cams).
Proof.
  apply Forall_forall. intros x Hx.
  assert (H : In (ins_says x) (all_said t)).
  { eapply Permutation_in; [apply says_perm|]. apply in_map; auto. }
  destruct (said_in_range _ (i_cam x) (i_frame x) (i_board x) H eq_refl) as (A & _ & B).
  apply in_range_keys in A, B. split; auto.
Qed.

Lemma loaded_paths x : In x (flat_map (loaded_ins t) cams) ->
  recorded_path t (i_cam x) (i_frame x) = Some (i_path x).
Proof.
  intros Hx. assert (Hs : In (ins_says x) (all_said t)).
  { eapply Permutation_in; [apply says_perm|]. apply in_map; auto. }
  destruct (said_keys _ Hs) as (i & Hi & Ei). cbn in Ei. injection Ei as Ec Ef Eb.
  apply in_flat_map in Hx. destruct Hx as (c & _ & Hx). unfold loaded_ins in Hx.
  apply in_map_iff in Hx. destruct Hx as (e & <- & He). unfold saved_entries in He.
  apply in_flat_map in He. destruct He as ([f r] & Hfr & He). rewrite (rf_frames _ _ Hr) in Hfr.
  apply in_flat_map in He. destruct He as ([b x0] & _ & He). apply in_map_iff in He.
  destruct He as (o & <- & Ho). cbn [entry_ins i_cam i_frame i_path] in *.
  assert (Hfind : mfind f (t_frames t0) = Some r) by (apply In_mfind; auto; apply Hh).
  pose proof (frame_idx_key f r Hfr) as Hidx. rewrite Hidx in *.
  unfold recorded_path. rewrite (rf_frames _ _ Hr), Hfind. unfold path_of.
  destruct (mfind c (f_paths r)) as [p|] eqn:E; auto.
  rewrite (proj2 (proj2 (proj2 (proj2 (proj2 (hd_frame _ _ _ _ Hh f r Hfind))))) c) in E.
  unfold latest_path in E. destruct (find (by_cam_frame c f) (rev ins)) eqn:Ef2; [discriminate|].
  exfalso. pose proof (find_none _ _ Ef2 i) as Hn. rewrite <- in_rev in Hn. specialize (Hn Hi).
  unfold by_cam_frame, by_cam, by_frame in Hn. rewrite <- Ec, <- Ef, !Z.eqb_refl in Hn. discriminate.
Qed.
End Saved.

Theorem save_load nc nb (ins : list insertion) (t0 t : tables) :
  Forall (known nc nb) ins -> insert_all (init_tables nc nb) ins = Some t0 -> refined t0 t ->
  (forall c, (0 <= c < Z.of_nat nc)%Z -> exists i, In i ins /\ i_cam i = c) ->
  exists t', loadDetectedKeypoints (saveDetectedKeypoints t) nc (init_tables nc nb) = Loaded t' /\
    (forall k, filter (about k) (all_said t') = filter (about k) (all_said t)) /\
    Permutation (all_said t') (all_said t) /\
    (forall c, image_size t' c = image_size t c) /\
    (forall c f, (exists s, In s (all_said t) /\ fst (fst s) = (c, f)) ->
       recorded_path t' c f = recorded_path t c f) /\
    (exists ins', holds nc nb ins' t' /\ frame_tables ins' t').
Proof.
  intros Hk Hi Hr Hev.
  destruct (insert_all_from_init nc nb ins Hk) as (t1 & E & Hh & Hf).
  rewrite Hi in E. injection E as <-.
  pose proof (loaded_known nc nb ins t0 t Hh Hr Hk) as HK.
  pose proof (says_perm nc nb ins t0 t Hh Hr Hk) as HP.
  destruct (init_holds (pt:=pt) nc nb) as [I1 I2].
  destruct (load_cameras_saved nc nb t (map Z.of_nat (seq 0 nc)) [] (init_tables nc nb)) as (t2 & E2 & H2 & F2 & S2); auto.
  { intros c Hc. split; [|split; [|split]]; auto.
    - rewrite (rf_cams _ _ Hr), (hd_cam_keys _ _ _ _ Hh); auto.
    - intros Hnil. assert (Hc' := Hc). apply in_range_keys in Hc'. destruct (Hev c Hc') as (i & Hin & Eci).
      assert (Hobs : In (fst (ins_says i)) (map fst (all_said t))).
      { unfold all_said. rewrite map_map. rewrite (rf_obs _ _ Hr), (hd_obs _ _ _ _ Hh), dense_vals, map_map.
        apply (in_map (fun x => fst (obs_says (new_obs x)))) in Hin. exact Hin. }
      apply in_map_iff in Hobs. destruct Hobs as (s & Es & Hs).
      assert (Hs2 : In s (map ins_says (flat_map (loaded_ins t) (map Z.of_nat (seq 0 nc))))).
      { eapply Permutation_in; [symmetry; apply HP|auto]. }
      apply in_map_iff in Hs2. destruct Hs2 as (x & Ex & Hx). apply in_flat_map in Hx.
      destruct Hx as (c2 & _ & Hx). assert (c2 = c).
      { subst s. unfold loaded_ins in Hx. apply in_map_iff in Hx. destruct Hx as ([[[? ?] ?] ?] & <- & _).
        cbn in Es. congruence. }
      subst c2. unfold loaded_ins in Hx. rewrite Hnil in Hx. destruct Hx.
    - rewrite Forall_forall in *. intros x Hx. apply HK. apply in_flat_map. eauto. }
  cbn [app] in *.
  assert (Hsaid : all_said t2 = map ins_says (flat_map (loaded_ins t) (map Z.of_nat (seq 0 nc)))).
  { unfold all_said. rewrite (hd_obs _ _ _ _ H2), dense_vals, map_map. reflexivity. }
  exists t2. split; [exact E2|]. split; [|split; [|split; [|split]]].
  - intros k. rewrite Hsaid. apply (said_group nc nb ins t0 t); auto.
  - rewrite Hsaid; auto.
  - intros c. rewrite S2. destruct (existsb (Z.eqb c) (map Z.of_nat (seq 0 nc))) eqn:Ec; auto.
    assert (~ In c (map Z.of_nat (seq 0 nc))).
    { intros Hc. assert (existsb (Z.eqb c) (map Z.of_nat (seq 0 nc)) = true).
      { apply existsb_exists. exists c. split; auto. apply Z.eqb_refl. } congruence. }
    unfold image_size.
    replace (mfind c (t_cams t)) with (@None cam_t).
    2: { symmetry. apply mfind_None. rewrite (rf_cams _ _ Hr), (hd_cam_keys _ _ _ _ Hh). auto. }
    replace (mfind c (t_cams (init_tables nc nb))) with (@None cam_t); auto.
    symmetry. apply mfind_None. rewrite (hd_cam_keys _ _ _ _ I1). auto.
  - intros c f (s & Hs & Ecf).
    assert (Hx : exists x, In x (flat_map (loaded_ins t) (map Z.of_nat (seq 0 nc))) /\ i_cam x = c /\ i_frame x = f).
    { apply (Permutation_in _ (Permutation_sym HP)) in Hs. apply in_map_iff in Hs.
      destruct Hs as (x & <- & Hx). exists x. split; auto. cbn in Ecf. injection Ecf as -> ->. auto. }
    destruct Hx as (x & Hx & Xc & Xf).
    pose proof (loaded_paths nc nb ins t0 t Hh Hr Hk) as HPa.
    unfold recorded_path at 1.
    assert (Hfr : In f (mkeys (t_frames t2))) by (apply (hd_frame_keys _ _ _ _ H2); eauto).
    apply mfind_Some_key in Hfr. destruct Hfr as [r Er]. rewrite Er.
    rewrite (proj2 (proj2 (proj2 (proj2 (proj2 (hd_frame _ _ _ _ H2 f r Er))))) c).
    unfold latest_path. destruct (find (by_cam_frame c f) (rev (flat_map (loaded_ins t) (map Z.of_nat (seq 0 nc))))) as [y|] eqn:Ey.
    + apply find_some in Ey. destruct Ey as [Hy Ey]. rewrite <- in_rev in Hy.
      unfold by_cam_frame, by_cam, by_frame in Ey. apply andb_true_iff in Ey. destruct Ey as [Y1 Y2].
      apply Z.eqb_eq in Y1, Y2. cbn. rewrite <- (HPa y Hy). congruence.
    + exfalso. pose proof (find_none _ _ Ey x) as Hn. rewrite <- in_rev in Hn. specialize (Hn Hx).
      unfold by_cam_frame, by_cam, by_frame in Hn. rewrite Xc, Xf, !Z.eqb_refl in Hn. discriminate.
  - eauto.
Qed.

(** A camera without observation: the assertion fails (debug build). *)
Theorem load_assert nc nb (ins : list insertion) (t0 t : tables) c :
  Forall (known nc nb) ins -> insert_all (init_tables nc nb) ins = Some t0 -> refined t0 t ->
  (0 <= c < Z.of_nat nc)%Z -> (forall i, In i ins -> i_cam i <> c) ->
  loadDetectedKeypoints (saveDetectedKeypoints t) nc (init_tables nc nb) = AssertFailed.
Proof.
  intros Hk Hi Hr Hc Hno.
  destruct (insert_all_from_init nc nb ins Hk) as (t1 & E & Hh & _).
  rewrite Hi in E. injection E as <-.
  pose proof (loaded_known nc nb ins t0 t Hh Hr Hk) as HK.
  pose proof (says_perm nc nb ins t0 t Hh Hr Hk) as HP.
  assert (Hnil : saved_entries t c = []).
  { destruct (saved_entries t c) as [|e es] eqn:Ee; auto. exfalso.
    assert (Hin : In (entry_ins c e) (flat_map (loaded_ins t) (map Z.of_nat (seq 0 nc)))).
    { apply in_flat_map. exists c. split; [apply in_range_keys; auto|]. unfold loaded_ins. rewrite Ee. cbn; auto. }
    apply (in_map ins_says) in Hin. apply (Permutation_in _ HP) in Hin.
    destruct (said_keys nc nb ins t0 t Hh Hr _ Hin) as (i & Hi2 & Ei). apply (Hno i Hi2).
    destruct e as [[[? ?] ?] ?]. cbn in Ei. congruence. }
  unfold loadDetectedKeypoints.
  destruct (init_holds (pt:=pt) nc nb) as [I1 I2].
  assert (Hgen : forall cs (acc : list insertion) t1, holds nc nb acc t1 -> frame_tables acc t1 ->
    (forall x, In x cs -> In x (map Z.of_nat (seq 0 nc))) -> In c cs ->
    load_cameras (saveDetectedKeypoints t) t1 cs = AssertFailed).
  2: { apply (Hgen _ [] _ I1 I2); auto. apply in_range_keys; auto. }
  intros cs.
  induction cs as [|x cs IH]; [intros ? ? ? ? ? []|]. intros acc t1 H1 F1 Hsub Hcin. cbn [load_cameras].
  assert (Hload : saved_entries t x = [] -> load_camera (saveDetectedKeypoints t) t1 x = AssertFailed).
  { intros Hx. unfold load_camera. rewrite save_find. destruct (mfind x (t_cams t)) as [r|]; cbn; auto.
    rewrite Hx. cbn. auto. }
  destruct (saved_entries t x) as [|e es] eqn:Ex; [rewrite Hload; auto|].
  destruct Hcin as [->|Hcin]; [rewrite Hload; auto; congruence|].
  destruct (load_camera_saved nc nb t t1 acc x) as (t2 & E2 & H2 & F2 & _); auto.
  { rewrite (rf_cams _ _ Hr), (hd_cam_keys _ _ _ _ Hh). apply Hsub; cbn; auto. }
  { rewrite Ex; discriminate. }
  { rewrite (hd_cam_keys _ _ _ _ H1). apply Hsub; cbn; auto. }
  { rewrite Forall_forall in *. intros y Hy. apply HK. apply in_flat_map. exists x. split; auto. apply Hsub; cbn; auto. }
  rewrite E2. apply (IH (acc ++ loaded_ins t x) t2); auto. intros; apply Hsub; cbn; auto.
Qed.
End Save.
