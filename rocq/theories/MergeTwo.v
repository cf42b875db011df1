(** Several clients: what the syncs of the others leave to a client without
    changes of its own. *)
From Coq Require Import QArith Qcanon.
From Verif Require Export ClashSync Prop_Join.
From stdpp Require Import options.

(** Other clients of the same remote directory: syncs, each of a state without
    clashes other than conflicts in which that client's version is the newer one,
    and new clients that join, perhaps after interrupted attempts. *)
Inductive others (A : conf) (m0 : fs) (rdb0 : rmap) : fs → rmap → Prop :=
  | others_none : others A m0 rdb0 m0 rdb0
  | others_sync B w last_sync :
      others A m0 rdb0 (w_fs w) (w_rdb w) →
      c_R B = c_R A → apart (c_L A) (c_L B) →
      any_order B → idle B w → w_last w = Some last_sync →
      calm B (w_fs w) (w_ldb w) (w_rdb w) last_sync (excluded_now B (w_fs w)) →
      newer_here B (w_fs w) (w_ldb w) (w_rdb w) last_sync →
      let w' := (sync_main B (ret tt) w).1.2 in
      others A m0 rdb0 (w_fs w') (w_rdb w')
  | others_attempt B m rdb w :
      others A m0 rdb0 m rdb →
      c_R B = c_R A → apart (c_L A) (c_L B) →
      joinable B m → join_attempts B m rdb w →
      others A m0 rdb0 (w_fs w) (w_rdb w)
  | others_join B m rdb w fits :
      others A m0 rdb0 m rdb →
      c_R B = c_R A → apart (c_L A) (c_L B) → any_order B →
      joinable B m → join_attempts B m rdb w →
      let w' := (init_main B true fits w).1.2 in
      others A m0 rdb0 (w_fs w') (w_rdb w').

(** No clash for a client without changes of its own: known files are still files,
    and the entries that are none of the program's business are not in the way. *)
Record no_clash (A : conf) (m : fs) (ldb : lmap) (X : pset) : Prop := {
  nc_kind : ∀ p x n, ldb !! p = Some x → r_at A m p = Some n → is_Dir n = ld_dir x;
  nc_stray : ∀ p, stray A m ldb X p → r_at A m p = None;
  nc_stray_up : ∀ p q, stray A m ldb X p → q `prefix_of` p → q ≠ p → q ≠ [] → stray A m ldb X q ∨ (Merge.known ldb q ∧ is_Some (r_at A m q))
}.

(** What they leave. *)
Record left_by (A : conf) (m0 : fs) (m : fs) (rdb : rmap) : Prop := {
  lb_mounted : mounted A m;
  lb_util : util_ok A m;
  lb_trash : dir_at m (trash_dir A);
  lb_trash_links : ∀ x t k, m !! (trash_dir A ++ [x]) ≠ Some (Link t k);
  lb_local : ∀ p, l_at A m p = l_at A m0 p;
  lb_rdb : ∀ p, rd_dir <$> rdb !! p = is_Dir <$> r_at A m p;
  lb_rows : rows (λ p, rd_dir <$> rdb !! p);
  lb_link : ∀ p t k, r_at A m p ≠ Some (Link t k)
}.

Lemma lb_listed A m0 m rdb : left_by A m0 m rdb → ∀ p, is_Some (rdb !! p) ↔ is_Some (r_at A m p).
Proof.
  intros Hb p. pose proof (lb_rdb _ _ _ _ Hb p) as E. destruct (rdb !! p), (r_at A m p); try done; split; intros [? ?]; simplify_eq; by eexists.
Qed.

(** Joining changes nothing of that. *)
Lemma join_kinds B m rdb rdb' : joinable B m → rows_grown B m rdb rdb' → (∀ p, rd_dir <$> rdb !! p = is_Dir <$> r_at B m p) →
  ∀ p, rd_dir <$> rdb' !! p = rd_dir <$> rdb !! p.
Proof.
  intros Hj HG Hk p. pose proof (Hk p) as Hp. destruct (rdb !! p) as [d|] eqn:E.
  - destruct (rg_old _ _ _ _ HG p d E) as (d' & -> & _ & Hd). cbn in *. f_equal. destruct Hd as [->|[-> Hd]]; [done|].
    symmetry in Hp. apply fmap_Some in Hp as (n & Hn & Ep). unfold r_at in Hn. case_decide as Hz; [done|].
    apply dir_at_lookup in Hd as [t Hd]; [|apply app_ne; tauto]. rewrite Hn in Hd. by injection Hd as ->.
  - destruct (rdb' !! p) as [d'|] eqn:E'; [|done]. exfalso. destruct (rg_new _ _ _ _ HG p d' E E') as [(H1 & H2 & [n H3] & _) _].
    unfold r_at in Hp. rewrite decide_False in Hp by tauto. by rewrite H3 in Hp.
Qed.
Lemma join_left A B m0 m rdb m' rdb' : c_R B = c_R A → apart (c_L A) (c_L B) → apart (c_L A) (c_R A) →
  joinable B m → underway B m m' → rows_grown B m rdb rdb' → left_by A m0 m rdb → left_by A m0 m' rdb'.
Proof.
  intros HR HL HA Hj U HG IH.
  assert (util_dir A = util_dir B) as Eu by (unfold util_dir; by rewrite HR).
  assert (trash_dir A = trash_dir B) as Et by (unfold trash_dir; by rewrite Eu).
  assert (exclude_dir A = exclude_dir B) as Ee by (unfold exclude_dir; by rewrite Eu).
  assert (∀ m p, r_at A m p = r_at B m p) as Er by (intros; unfold r_at; by rewrite HR).
  pose proof (underway_links_only B m m' Hj U) as [O1 O2 O3 O4 O5].
  assert (∀ p, m' !! (c_L A ++ p) = m !! (c_L A ++ p)) as Hla.
  { intros p. apply O1; [by apply apart_not_below|]. apply apart_not_below. by rewrite HR. }
  assert (∀ p, r_at A m' p = r_at A m p) as Hr.
  { intros p. unfold r_at. case_decide; [done|]. rewrite <-HR. apply O2. tauto. }
  assert (∀ k n, util_dir B `prefix_of` k → ¬ (∃ x, k = exclude_dir B ++ [x]) → m !! k = Some n → m' !! k = Some n) as Hz.
  { intros k n H1 H2 H3. apply O3; [done| |done]. intros ->. apply H2. by eexists. }
  assert (∀ p, rd_dir <$> rdb' !! p = rd_dir <$> rdb !! p) as Hrd.
  { apply (join_kinds B m); [done..|]. intros p. rewrite <-Er. apply (lb_rdb _ _ _ _ IH). }
  pose proof (underway_mounted B m Hj m' U) as Hm'.
  assert (∀ s, dir_at m (util_dir B ++ [s]) → dir_at m' (util_dir B ++ [s])) as Hd.
  { intros s [t Ht]. exists t. rewrite node_at_app_ne in * by done. apply Hz; [by eexists| |done].
    intros [x E]. unfold exclude_dir in E. rewrite <-app_assoc in E. by apply app_inv_head in E. }
  split.
  - destruct (lb_mounted _ _ _ _ IH) as [Hwf HLd HRd HLn]. split; [apply Hm'| |rewrite <-HR; apply Hm'|done].
    destruct HLd as [t Ht]. exists t. rewrite node_at_ne in * by done. pose proof (Hla []) as E. rewrite app_nil_r in E. by rewrite E.
  - destruct (lb_util _ _ _ _ IH) as [Hx Hid Hf]. split; [rewrite Ee in *; by apply Hd|done|].
    destruct (decide (exclude_file A = exclude_file B)) as [E|E].
    + rewrite E. pose proof (up_file _ _ _ (uw_util _ _ _ U)) as Hfl. rewrite exclude_file_app. rewrite <-!app_assoc in Hfl. exact Hfl.
    + assert (util_dir B `prefix_of` exclude_file A) as Hp by (rewrite <-Eu; unfold exclude_file, exclude_dir; rewrite <-app_assoc; by eexists).
      destruct Hf as [Hf|(c & t & Hf)]; [|right; exists c, t; by apply O3].
      left. apply eq_None_not_Some. intros [n Hn]. destruct (uw_new _ _ _ U _ n Hp E Hf Hn) as [_ [Hq|Hq]].
      * rewrite <-Ee in Hq. apply prefix_length in Hq. unfold exclude_file in Hq. rewrite app_length in Hq. simpl in Hq. lia.
      * apply prefix_length in Hq. unfold exclude_file, exclude_dir, trash_dir in Hq. rewrite <-Eu, !app_length in Hq. simpl in Hq. lia.
  - rewrite Et. apply Hd. rewrite <-Eu. apply (lb_trash _ _ _ _ IH).
  - intros x t k E. rewrite Et in E. assert (util_dir B `prefix_of` trash_dir B ++ [x]) as Hp by (unfold trash_dir; rewrite <-app_assoc; by eexists).
    assert (trash_dir B ++ [x] ≠ exclude_file B) as Hn.
    { intros E'. unfold exclude_file, exclude_dir, trash_dir in E'. rewrite <-!app_assoc in E'. apply app_inv_head in E'. by injection E'. }
    destruct (m !! (trash_dir B ++ [x])) as [n|] eqn:En.
    + rewrite (O3 _ n Hp Hn En) in E. injection E as ->. rewrite <-Et in En. by apply (lb_trash_links _ _ _ _ IH) in En.
    + by apply (O4 _ _ Hp Hn En) in E.
  - intros p. rewrite <-(lb_local _ _ _ _ IH). unfold l_at. by rewrite Hla.
  - intros p. rewrite Hrd, Hr. apply (lb_rdb _ _ _ _ IH).
  - intros p b. rewrite !Hrd. apply (lb_rows _ _ _ _ IH).
  - intros p t k. rewrite Hr. apply (lb_link _ _ _ _ IH).
Qed.

Lemma others_left A m0 rdb0 m rdb : apart (c_L A) (c_R A) → left_by A m0 m0 rdb0 → others A m0 rdb0 m rdb → left_by A m0 m rdb.
Proof.
  intros HA H0 Ho. induction Ho as [|B w last_sync Ho IH HR HL Hord Hi Hl Hca Hnh w1|B m rdb w Ho IH HR HL Hj Hat|B m rdb w fits Ho IH HR HL Hord Hj Hat w1]; [done| | |].
  2:{ destruct (attempts_between B m rdb w Hj Hat) as ([B1 B2 _] & _). by apply (join_left A B m0 m rdb). }
  2:{ subst w1. destruct (attempts_between B m rdb w Hj Hat) as (Bt & Hl & Hb).
      destruct (join_main_wp B m rdb w fits Hj (proj1 Hord) Bt Hl Hb) as [_ Hw]. destruct (init_main B true fits w) as [[tr w'] r].
      cbn [fst snd] in *. destruct Hw as [_ J]. apply (join_left A B m0 m rdb); [done..|apply J| |done].
      destruct (jd_rows _ _ _ _ J) as (files & dirs & Hf & Hd & _ & rdb1 & HG & ->). by apply rows_grown_add. }
  subst w1.
  destruct (idle_clash B w last_sync Hord Hi Hl Hca Hnh) as [_ Hw].
  destruct (sync_main B (ret tt) w) as [[tr w'] r]. cbn [fst snd] in Hw |- *. destruct Hw as (-> & Hrs & _ & Hoc & Hre & _).
  set (X := excluded_now B (w_fs w)) in *. pose proof (clean_v _ _ _ _ _ _ Hca Hnh) as Hc.
  pose proof (mv_util _ _ _ _ _ _ Hca Hnh) as Hmu.
  set (mv := mv B (w_fs w) (w_ldb w) (w_rdb w) last_sync) in *. set (lv := lv B (w_fs w) (w_ldb w) (w_rdb w) last_sync) in *.
  assert (∀ p, rd_dir <$> w_rdb w' !! p = is_Dir <$> merged B mv lv last_sync X p) as Hrd by apply (re_rdb _ _ _ _ _ Hre).
  assert (util_dir A = util_dir B) as Eu by (unfold util_dir; by rewrite HR).
  assert (trash_dir A = trash_dir B) as Et by (unfold trash_dir; by rewrite Eu).
  assert (exclude_dir A = exclude_dir B) as Ee by (unfold exclude_dir; by rewrite Eu).
  assert (∀ m p, r_at A m p = r_at B m p) as Er by (intros; unfold r_at; by rewrite HR).
  assert (∀ p, w_fs w' !! (c_L A ++ p) = w_fs w !! (c_L A ++ p)) as Hla.
  { intros p. apply (rs_out _ _ _ _ _ _ _ Hrs).
    - by apply apart_not_below.
    - apply apart_not_below. by rewrite HR. }
  assert (∀ p, is_Dir <$> r_at A (w_fs w') p = is_Dir <$> merged B mv lv last_sync X p) as Hkm.
  { intros p. rewrite Er. symmetry. apply like_kind, (oc_remote _ _ _ _ _ _ Hoc). }
  split.
  - destruct (lb_mounted _ _ _ _ IH) as [Hwf HLd HRd HLn]. split; [apply (oc_mounted _ _ _ _ _ _ Hoc)| | |done].
    + destruct HLd as [t Hd]. exists t. rewrite node_at_ne in * by done. pose proof (Hla []) as E. rewrite app_nil_r in E. by rewrite E.
    + rewrite <-HR. apply (oc_mounted _ _ _ _ _ _ Hoc).
  - destruct (lb_util _ _ _ _ IH) as [Hd Hid Hf]. split; [rewrite Ee; apply (oc_util _ _ _ _ _ _ Hoc)|done|].
    rewrite (oc_rest _ _ _ _ _ _ Hoc).
    + case_decide; [right; eauto|]. rewrite Hmu; [done|]. rewrite <-Eu. unfold exclude_file, exclude_dir. rewrite <-app_assoc. by eexists.
    + rewrite <-Eu. unfold exclude_file, exclude_dir. rewrite <-app_assoc. by eexists.
    + rewrite <-Et. intros [s E]. unfold exclude_file, exclude_dir, trash_dir in E. rewrite <-!app_assoc in E. apply app_inv_head in E. by injection E.
  - rewrite Et. apply (oc_trash _ _ _ _ _ _ Hoc).
  - rewrite Et. apply (oc_trash_links _ _ _ _ _ _ Hoc).
  - intros p. rewrite <-(lb_local _ _ _ _ IH). unfold l_at. by rewrite Hla.
  - intros p. rewrite Hkm. apply Hrd.
  - intros p b. rewrite !Hrd. intros (n & Hn & ->)%fmap_Some. split; [by apply (merged_ours _ _ _ _ _ _ Hc _ n)|].
    destruct (merged_parent _ _ _ _ _ _ Hc _ _ Hn) as [?|[t Ht]]; [by left|right]. fold X in Ht. by rewrite Ht.
  - intros p t k E. rewrite Er in E. pose proof (oc_remote _ _ _ _ _ _ Hoc p) as Hr. rewrite E in Hr. cbn in Hr.
    symmetry in Hr. by apply (merged_no_link _ _ _ _ _ _ Hc) in Hr.
Qed.

(** A client without changes of its own. *)
Record quiet (A : conf) (m : fs) (ldb : lmap) (last_sync : Z) (X : pset) : Prop := {
  qu_new : ∀ p, ¬ new_l A m ldb X p;
  qu_gone : ∀ p, ¬ gone_l A m ldb p;
  qu_edited : ∀ p, ¬ edited_l A m ldb last_sync p
}.
Section quiet.
  Set Default Proof Using "Type*".
  Context (A : conf) (m0 : fs) (ldb : lmap) (rdb0 : rmap) (last_sync : Z) (X : pset).
  Context (H : clean A m0 ldb rdb0 last_sync X) (Hq : quiet A m0 ldb last_sync X).
  Context (m : fs) (rdb : rmap) (Hb : left_by A m0 m rdb) (Hn : no_clash A m ldb X).
  Lemma stray_left p : stray A m ldb X p ↔ stray A m0 ldb X p.
  Proof.
    unfold stray, safe_entry. rewrite (lb_local _ _ _ _ Hb). pose proof (lb_local _ _ _ _ Hb p) as E. unfold l_at at 1 2 in E. 
    case_decide as Hp; [|by rewrite E]. subst p. unfold l_at. rewrite decide_True by done. split; intros [[? ?] _]; done.
  Qed.
  Lemma listed_left p : is_Some (rdb !! p) ↔ is_Some (r_at A m p).
  Proof. by apply (lb_listed A m0). Qed.
  Lemma new_left p : ¬ new_l A m ldb X p.
  Proof. unfold new_l. rewrite stray_left, (lb_local _ _ _ _ Hb). apply (qu_new _ _ _ _ _ Hq). Qed.
  Lemma gone_left p : ¬ gone_l A m ldb p.
  Proof. unfold gone_l. rewrite (lb_local _ _ _ _ Hb). apply (qu_gone _ _ _ _ _ Hq). Qed.
  Lemma edited_left p : ¬ edited_l A m ldb last_sync p.
  Proof. intros (Hk & c & t & E & Ht). rewrite (lb_local _ _ _ _ Hb) in E. apply (qu_edited _ _ _ _ _ Hq p). split; eauto. Qed.
  Lemma clean_left : clean A m ldb rdb last_sync X.
  Proof.
    pose proof (lb_local _ _ _ _ Hb) as El. apply clean_intro; [apply calm_intro|..].
    - apply (lb_mounted _ _ _ _ Hb).
    - apply (cl_apart _ _ _ _ _ _ H).
    - apply (lb_util _ _ _ _ Hb).
    - apply (lb_trash _ _ _ _ Hb).
    - intros p. rewrite El. apply (cl_no_util _ _ _ _ _ _ H).
    - apply (cl_rows_l _ _ _ _ _ _ H).
    - apply (lb_rows _ _ _ _ Hb).
    - intros p b n. rewrite El. apply (cl_kind_l _ _ _ _ _ _ H).
    - intros p b n [E|E] Hr.
      + apply fmap_Some in E as (x & Hx & ->). by apply (nc_kind _ _ _ _ Hn p).
      + rewrite (lb_rdb _ _ _ _ Hb), Hr in E. by injection E.
    - intros p b b' E1 E2. rewrite (lb_rdb _ _ _ _ Hb) in E2. apply fmap_Some in E1 as (x & Hx & ->). apply fmap_Some in E2 as (n & Hr & ->).
      symmetry. by apply (nc_kind _ _ _ _ Hn p).
    - intros p _. apply listed_left.
    - intros p Hp. right. by apply listed_left.
    - apply (lb_link _ _ _ _ Hb).
    - intros p t k. rewrite El, stray_left. apply (cl_link_l _ _ _ _ _ _ H).
    - intros p Hp. rewrite El. by apply (cl_excluded _ _ _ _ _ _ H).
    - apply (nc_stray _ _ _ _ Hn).
    - apply (nc_stray_up _ _ _ _ Hn).
    - intros p q. rewrite !stray_left, El. apply (cl_stray_down _ _ _ _ _ _ H).
    - intros p x t k Hp Hx. rewrite stray_left, El. by apply (cl_echo _ _ _ _ _ _ H).
    - intros p n n' Hk Hl Hr. exfalso. destruct (decide (stray A m ldb X p)) as [Hs|Hs].
      + by rewrite (nc_stray _ _ _ _ Hn p Hs) in Hr.
      + apply (new_left p). split; [by eexists|done].
    - intros p Hg. split; [apply edited_left|]. destruct Hg as [Hg|[Hk Hg]]; [by apply gone_left in Hg|].
      intros [(_ & c & t & E & _)|(d & E & _)]; [congruence|]. assert (is_Some (r_at A m p)) as [? ?] by (apply listed_left; by eexists). congruence.
    - intros p q Hg. by apply gone_left in Hg.
    - intros p q [Hk Hg] Hpq Hl. destruct (decide (Merge.known ldb q)) as [?|Hnk]; [done|exfalso].
      destruct (decide (stray A m ldb X q)) as [Hs|Hs]; [|by apply (new_left q)].
      assert (p ≠ q) as Hne by (intros ->; done). assert (p ≠ []) as Hp0. { apply (known_ours _ _ _ _ _ _ H) in Hk. apply Hk. }
      destruct (nc_stray_up _ _ _ _ Hn q p Hs Hpq Hne Hp0) as [(_ & Hk' & _)|[_ [? ?]]]; [done|congruence].
    - intros p Hg. by apply gone_left in Hg.
    - intros p t Hp. by apply new_left in Hp.
    - intros _ [p Hp]. by apply new_left in Hp.
    - intros p q (_ & Hg & _). by apply gone_left in Hg.
    - intros p x (_ & Hg & _). by apply gone_left in Hg.
    - apply (lb_trash_links _ _ _ _ Hb).
    - intros p n n' Hk Hl Hr. exfalso. destruct (decide (stray A m ldb X p)) as [Hs|Hs].
      + by rewrite (nc_stray _ _ _ _ Hn p Hs) in Hr.
      + apply (new_left p). split; [by eexists|done].
    - intros p He _. by apply edited_left in He.
  Qed.
  (** There is nothing to merge. *)
  Lemma merged_left p : merged A m ldb last_sync X p = r_at A m p.
  Proof.
    unfold merged. destruct (ldb !! p) as [x|] eqn:Ex.
    - assert (Merge.known ldb p) as Hk by by eexists. destruct (l_at A m p) as [n|] eqn:El; [|exfalso; by apply (gone_left p)].
      destruct n as [c t|t k|t], (r_at A m p) eqn:Er; try done. destruct (last_sync <? t)%Z eqn:Et; [|done].
      exfalso. apply (edited_left p). split; [done|]. exists c, t. split; [done|lia].
    - destruct (r_at A m p) eqn:Er; destruct (l_at A m p) eqn:El; try done.
      case_decide as Hs; [done|]. exfalso. apply (new_left p). split; [by eexists|]. split; [|done].
      unfold Merge.known. rewrite Ex. by intros [].
  Qed.
End quiet.

(** What a sync leaves: no changes, and everything in order. *)
Lemma sync_rests C w last_sync : let X := excluded_now C (w_fs w) in
  any_order C → idle C w → w_last w = Some last_sync →
  calm C (w_fs w) (w_ldb w) (w_rdb w) last_sync X → newer_here C (w_fs w) (w_ldb w) (w_rdb w) last_sync →
  (c_now C <= c_end C)%Z →
  (∀ p c t, l_at C (w_fs w) p = Some (File c t) ∨ r_at C (w_fs w) p = Some (File c t) → (t <= c_end C)%Z) →
  (∀ p d, w_rdb w !! p = Some d → (rd_last d <= c_end C)%Z) →
  let '(_, w1, r) := sync_main C (ret tt) w in
  r = Ok tt ∧ clean C (w_fs w1) (w_ldb w1) (w_rdb w1) (c_end C) X ∧ quiet C (w_fs w1) (w_ldb w1) (c_end C) X
  ∧ left_by C (w_fs w1) (w_fs w1) (w_rdb w1) ∧ w_last w1 = Some (c_end C)
  ∧ (∀ p, stray C (w_fs w1) (w_ldb w1) X p ↔ stray C (w_fs w) (w_ldb w) X p)
  ∧ ∀ p, stray C (w_fs w) (w_ldb w) X p → like (view C (w_fs w1) p) (view C (w_fs w) p).
Proof.
  intros X Ho Hi Hl Hc Hn Hnow Hmt Hrt. pose proof (idle_clash C w last_sync Ho Hi Hl Hc Hn) as [_ Hw].
  destruct (sync_main C (ret tt) w) as [[tr w1] r1]. cbn [fst snd] in Hw. destruct Hw as (-> & _ & _ & Hoc & Hre & _). fold X in Hoc, Hre.
  pose proof (clean_v _ _ _ _ _ _ Hc Hn) as Hcv. pose proof (stray_v _ _ _ _ _ _ Hc Hn) as Hsv.
  pose proof (λ p, l_v _ _ _ _ _ _ Hc Hn p) as Hlvv.
  assert (∀ p, stray C (w_fs w) (w_ldb w) X p → r_at C (w_fs (wv C w last_sync)) p = r_at C (w_fs w) p) as Hrs.
  { intros p Hp. apply (r_v _ _ _ _ _ _ Hc Hn).
    - intros Hx. by destruct (clash_at _ _ _ _ _ _ Hc Hn p Hx) as (_ & ? & _).
    - intros Hx. destruct (named_at _ _ _ _ _ _ Hc Hn p Hx) as (E & _). destruct Hp as ([? ?] & _). congruence. }
  set (wv := wv C w last_sync) in *.
  assert (∀ p c t, merged C (w_fs wv) (w_ldb wv) last_sync X p = Some (File c t) → (t <= c_end C)%Z) as Hmt'.
  { intros p c t Hm. destruct (decide (clash C (w_fs w) (w_ldb w) (w_rdb w) last_sync p)) as [Hp|Hp].
    { cbn [w_fs w_ldb wv MergeClashRun.wv] in Hm. rewrite (merged_v_clash _ _ _ _ _ _ Hc Hn) in Hm by done. eauto. }
    destruct (decide (named C (w_fs w) (w_ldb w) (w_rdb w) last_sync p)) as [(q & Hq & ->)|Hd].
    { cbn [w_fs w_ldb wv MergeClashRun.wv] in Hm. rewrite (merged_v_cn _ _ _ _ _ _ Hc Hn) in Hm by done. eauto. }
    assert (r_at C (w_fs wv) p = r_at C (w_fs w) p) as Er by by apply (r_v _ _ _ _ _ _ Hc Hn).
    assert (l_at C (w_fs wv) p = l_at C (w_fs w) p) as El by by apply (l_v _ _ _ _ _ _ Hc Hn).
    apply (Hmt p c t). rewrite <-Er, <-El. destruct (merged_inv _ _ _ _ _ _ Hcv p _ Hm) as [(_ & _ & ?)|[(_ & _ & ?)|(_ & _ & ?)]]; auto. }
  assert (∀ p d, w_rdb wv !! p = Some d → (rd_last d <= c_end C)%Z) as Hrt'.
  { intros p d. cbn [w_rdb wv MergeClashRun.wv]. rewrite rv_lookup. case_decide; [done|]. apply Hrt. }
  destruct Ho as [Hit Hrows].
  assert (w_last wv = Some last_sync) as Hlv by done. assert (FMProofs.fresh wv) as Hfv by done.
  assert (v_ldb wv = w_ldb wv) as Hvl by done. assert (v_rdb wv = w_rdb wv) as Hvr by done.
  change (clean C (w_fs wv) (w_ldb wv) (w_rdb wv) last_sync X) in Hcv. change (outcome C (w_fs wv) (w_ldb wv) last_sync X (w_fs w1)) in Hoc.
  change (∀ p, stray C (w_fs wv) (w_ldb wv) X p ↔ stray C (w_fs w) (w_ldb w) X p) in Hsv.
  change (∀ p, l_at C (w_fs wv) p = l_at C (w_fs w) p) in Hlvv. clearbody wv.
  pose proof (clean_again C wv last_sync X Hcv Hit Hrows Hvl Hvr Hfv Hlv w1 Hoc Hre Hnow Hmt' Hrt') as Hc1.
  pose proof (view_outcome _ _ _ _ _ _ _ Hcv Hoc) as HV.
  split; [done|]. split; [done|]. split; [|split; [|split; [apply (re_last _ _ _ _ _ Hre)|split]]].
  - split.
    + apply (new_again C wv last_sync X Hcv Hit Hrows Hvl Hvr Hfv Hlv w1 Hoc Hre Hnow Hmt' Hrt').
    + apply (gone_l_again C wv last_sync X Hcv Hit Hrows Hvl Hvr Hfv Hlv w1 Hoc Hre Hnow Hmt' Hrt').
    + apply (edited_l_again C wv last_sync X Hcv Hit Hrows Hvl Hvr Hfv Hlv w1 Hoc Hre Hnow Hmt' Hrt').
  - split.
    + apply (oc_mounted _ _ _ _ _ _ Hoc).
    + apply (oc_util _ _ _ _ _ _ Hoc).
    + apply (oc_trash _ _ _ _ _ _ Hoc).
    + apply (oc_trash_links _ _ _ _ _ _ Hoc).
    + done.
    + intros p. rewrite (re_rdb _ _ _ _ _ Hre). apply like_kind, (oc_remote _ _ _ _ _ _ Hoc).
    + apply (cl_rows_r _ _ _ _ _ _ Hc1).
    + apply (cl_link_r _ _ _ _ _ _ Hc1).
  - intros p. rewrite <-Hsv. apply (stray_again C wv last_sync X Hcv Hit Hrows Hvl Hvr Hfv Hlv w1 Hoc Hre Hnow Hmt' Hrt').
  - intros p Hs. specialize (HV p). rewrite decide_True in HV by by apply Hsv. eapply like_trans; [exact HV|].
    unfold view. rewrite Hlvv, (Hrs p Hs). apply like_refl.
Qed.

(** The next sync of such a client. *)
Lemma quiet_sync A A' m1 ldb rdb1 t X m rdb w2 :
  any_order A' → clean A m1 ldb rdb1 t X → quiet A m1 ldb t X → left_by A m1 m rdb → no_clash A m ldb X →
  c_L A' = c_L A → c_R A' = c_R A → c_id A' = c_id A → excluded_now A' m = X →
  w_fs w2 = m → w_ldb w2 = ldb → w_rdb w2 = rdb → w_last w2 = Some t → reboot w2 = w2 →
  let '(_, w3, r) := sync_main A' (ret tt) w2 in
  r = Ok tt
  ∧ (∀ p, like (r_at A (w_fs w3) p) (r_at A m p))
  ∧ (∀ p, like (view A (w_fs w3) p) (if decide (stray A m ldb X p) then view A m p else r_at A m p))
  ∧ (∀ k, ¬ below k (c_L A) → ¬ below k (c_R A) → w_fs w3 !! k = m !! k).
Proof.
  intros Ho' Hc1 Hq Hlb Hnc EL ER Eid EX E1 E2 E3 E4 Hb2.
  pose proof (clean_left _ _ _ _ _ _ Hc1 Hq _ _ Hlb Hnc) as Hc2.
  pose proof (merged_left _ _ _ _ _ _ Hc1 Hq _ _ Hlb Hnc) as HM.
  assert (clean A' (w_fs w2) (w_ldb w2) (w_rdb w2) t (excluded_now A' (w_fs w2))) as Hc3.
  { rewrite E1, E2, E3, EX. apply (clean_conf A A'); [done..| | |done].
    - by apply (new_left _ _ _ _ _ _ Hc1 Hq _ _ Hlb Hnc).
    - by apply (gone_left _ _ _ _ _ _ Hc1 Hq _ _ Hlb Hnc). }
  assert (idle A' w2) as Hi2. { split; [|done]. apply Hc3. }
  destruct (idle_sync A' w2 t Ho' Hi2 E4 Hc3) as [_ Hw2].
  destruct (sync_main A' (ret tt) w2) as [[tr2 w3] r2]. cbn [fst snd] in Hw2. destruct Hw2 as (-> & Hoc2 & _).
  rewrite E1, E2, E3, EX in Hc3. rewrite E1, E2, EX in Hoc2.
  pose proof (view_outcome _ _ _ _ _ _ _ Hc3 Hoc2) as HV. destruct (conf_same A A' EL ER) as (Er & Ev & Es & Em).
  split; [done|]. split; [|split].
  - intros p. pose proof (oc_remote _ _ _ _ _ _ Hoc2 p) as H2. by rewrite Em, Er, HM in H2.
  - intros p. specialize (HV p). rewrite Em, !Ev, HM in HV.
    destruct (decide (stray A' m ldb X p)) as [Hs|Hs]; rewrite Es in Hs; [by rewrite decide_True|by rewrite decide_False].
  - intros k H1 H2. apply (oc_out _ _ _ _ _ _ Hoc2); by rewrite ?EL, ?ER.
Qed.

(** ** A client that has joined *)
Section joined.
  Set Default Proof Using "Type*".
  Context (A : conf) (m0 : fs) (rdb0 : rmap) (w : world).
  Context (Hj : joinable A m0) (Hb : left_by A m0 m0 rdb0) (J : joined A m0 rdb0 w).
  Local Notation m := (w_fs w).
  Lemma joined_shown p : shown A m0 p ↔ is_Some (r_at A m0 p).
  Proof.
    unfold shown, r_at. case_decide as Hz; [split; [tauto|by intros [? ?]]|]. split; [tauto|]. intros Hs.
    split_and!; [tauto|tauto|done|]. intros t k E. exfalso. apply (lb_link _ _ _ _ Hb p t k). unfold r_at. by rewrite decide_False.
  Qed.
  Lemma joined_remote p : r_at A m p = r_at A m0 p.
  Proof. unfold r_at. case_decide; [done|]. apply (remote_same A m0 Hj); [apply J|tauto]. Qed.
  Lemma joined_rows p : rd_dir <$> w_rdb w !! p = is_Dir <$> r_at A m0 p.
  Proof.
    destruct (jd_rows _ _ _ _ J) as (files & dirs & Hf & Hd & _ & rdb1 & HG & ->).
    rewrite (join_kinds A m0 rdb0); [apply (lb_rdb _ _ _ _ Hb)|done|by apply rows_grown_add|apply (lb_rdb _ _ _ _ Hb)].
  Qed.
  Lemma joined_kinds p : ld_dir <$> w_ldb w !! p = is_Dir <$> r_at A m0 p.
  Proof.
    destruct (jd_rows _ _ _ _ J) as (files & dirs & Hf & Hd & -> & _). rewrite sl_add_dir.
    assert (∀ q, q ∈ files ++ dirs → shown A m0 q) as Hs by (intros q [?%Hf|?%Hd]%elem_of_app; naive_solver).
    case_bool_decide as Hp.
    - pose proof (Hs p Hp) as Hsp. assert (r_at A m0 p = m0 !! (c_R A ++ p)) as ->.
      { unfold r_at. apply decide_False. destruct Hsp as (?&?&_). tauto. }
      apply elem_of_app in Hp as [Hp|Hp].
      + apply Hf in Hp as Hpf. destruct Hpf as [_ Hn]. destruct (m0 !! (c_R A ++ p)) as [n|] eqn:E; [|done]. cbn in Hn |- *. rewrite Hn. f_equal.
        rewrite orb_false_iff, !bool_decide_eq_false. split.
        * intros [_ Hx]%Hd. apply dir_at_lookup in Hx as [t Hx]; [|apply app_ne, Hsp]. rewrite E in Hx. by injection Hx as ->.
        * intros Hx%(parents_dir A m0 Hj files dirs p Hs). apply dir_at_lookup in Hx as [t Hx]; [|apply app_ne, Hsp]. rewrite E in Hx. by injection Hx as ->.
      + apply Hd in Hp as Hpd. destruct Hpd as [_ Hx]. apply dir_at_lookup in Hx as [t Hx]; [|apply app_ne, Hsp]. rewrite Hx. cbn. by rewrite bool_decide_true.
    - destruct (r_at A m0 p) as [n|] eqn:E; [|done]. exfalso. apply Hp. assert (shown A m0 p) as Hsp by (apply joined_shown; by eexists).
      assert (m0 !! (c_R A ++ p) = Some n) as En by (unfold r_at in E; by case_decide).
      apply elem_of_app. destruct n as [| |t]; [left|left|right]; [apply Hf|apply Hf|apply Hd]; (split; [done|]); [by rewrite En|by rewrite En|].
      apply dir_at_lookup; [apply app_ne, Hsp|eauto].
  Qed.
  Lemma joined_known p : Merge.known (w_ldb w) p ↔ is_Some (r_at A m0 p).
  Proof. unfold Merge.known. pose proof (joined_kinds p) as E. destruct (w_ldb w !! p), (r_at A m0 p); try done; split; intros [? ?]; done || by eexists. Qed.
  (** What stands in the local directory. *)
  Lemma joined_local p : match r_at A m0 p with
    | None => l_at A m p = None
    | Some (Dir _) => ∃ k, l_at A m p = Some (Dir k)
    | Some _ => ∃ k, l_at A m p = Some (Link (abs_path (c_R A ++ p)) k)
    end.
  Proof.
    destruct (r_at A m0 p) as [n|] eqn:E.
    - assert (shown A m0 p) as Hs by (apply joined_shown; by eexists). assert (p ≠ []) as Hp by apply Hs.
      assert (m0 !! (c_R A ++ p) = Some n) as En by (unfold r_at in E; by case_decide).
      unfold l_at. rewrite decide_False by done. destruct n as [| |t].
      + apply (jd_file _ _ _ _ J p Hs). by rewrite En.
      + apply (jd_file _ _ _ _ J p Hs). by rewrite En.
      + apply (jd_dir _ _ _ _ J p Hs). apply dir_at_lookup; [by apply app_ne|eauto].
    - unfold l_at. case_decide as Hp; [done|]. apply eq_None_not_Some. intros [n Hn].
      apply (uw_local _ _ _ (jd_fs _ _ _ _ J)) in Hn; [|done].
      assert (shown A m0 p) as Hs by (destruct n; cbn in Hn; [done|naive_solver|naive_solver]).
      apply joined_shown in Hs as [? ?]. congruence.
  Qed.
  Lemma joined_some p : is_Some (l_at A m p) ↔ is_Some (r_at A m0 p).
  Proof.
    pose proof (joined_local p) as E. destruct (r_at A m0 p) as [[| |]|]; [destruct E as [k ->]..|rewrite E]; split; intros [? ?]; done || by eexists.
  Qed.
  Lemma joined_stray X p : ¬ stray A m (w_ldb w) X p.
  Proof. intros (H1 & H2 & _). apply H2, joined_known, joined_some, H1. Qed.
  Lemma joined_quiet : quiet A m (w_ldb w) (c_end A) ∅.
  Proof.
    split.
    - intros p (H1 & H2 & _). apply H2, joined_known, joined_some, H1.
    - intros p [H1 H2]. apply joined_known, joined_some in H1. rewrite H2 in H1. by destruct H1.
    - intros p (_ & c & t & E & _). pose proof (joined_local p) as Hl. rewrite E in Hl. destruct (r_at A m0 p) as [[| |]|]; try done; by destruct Hl.
  Qed.
  Lemma joined_left : left_by A m m (w_rdb w).
  Proof.
    assert (∀ s, util_dir A `prefix_of` s → ¬ (∃ x, s = exclude_dir A ++ [x]) → dir_at m0 s → dir_at m s) as Hd.
    { intros s H1 H2 [t Ht]. assert (s ≠ []) as Hs by (intros ->; by apply prefix_nil_inv in H1; unfold util_dir in H1; destruct (c_R A)).
      exists t. rewrite node_at_ne in * by done. apply (uw_kept _ _ _ (jd_fs _ _ _ _ J)); [done| |done]. intros ->. apply H2. by eexists. }
    destruct (jd_util _ _ _ _ J) as [De Dt]. split.
    - apply (underway_mounted A m0 Hj), J.
    - split; [done|apply Hj|]. right. rewrite (jd_excl _ _ _ _ J). by eexists _, _.
    - done.
    - intros x t k E. pose proof (jd_fs _ _ _ _ J) as U.
      assert (util_dir A `prefix_of` trash_dir A ++ [x]) as Hp by (unfold trash_dir; rewrite <-app_assoc; by eexists).
      assert (trash_dir A ++ [x] ≠ exclude_file A) as Hn.
      { intros E'. unfold exclude_file, exclude_dir, trash_dir in E'. rewrite <-!app_assoc in E'. apply app_inv_head in E'. by injection E'. }
      destruct (m0 !! (trash_dir A ++ [x])) as [n|] eqn:En.
      + rewrite (uw_kept _ _ _ U _ n Hp Hn En) in E. injection E as ->. by apply (lb_trash_links _ _ _ _ Hb) in En.
      + by apply (uw_new _ _ _ U _ _ Hp Hn En) in E as [? _].
    - done.
    - intros p. rewrite joined_remote. apply joined_rows.
    - intros p b. rewrite !joined_rows, <-!(lb_rdb _ _ _ _ Hb). apply (lb_rows _ _ _ _ Hb).
    - intros p t k. rewrite joined_remote. apply (lb_link _ _ _ _ Hb).
  Qed.
  Lemma joined_clean : clean A m (w_ldb w) (w_rdb w) (c_end A) ∅.
  Proof.
    pose proof joined_left as HL. pose proof joined_quiet as [Q1 Q2 Q3].
    assert (∀ p, ¬ gone_r A m (w_ldb w) p) as Q4.
    { intros p [H1 H2]. apply joined_known in H1. rewrite joined_remote in H2. rewrite H2 in H1. by destruct H1. }
    assert (∀ p b, ld_dir <$> w_ldb w !! p = Some b ↔ rd_dir <$> w_rdb w !! p = Some b) as Hlr.
    { intros p b. by rewrite joined_kinds, joined_rows. }
    apply clean_of; [apply calm_intro|].
    - apply (lb_mounted _ _ _ _ HL).
    - apply Hj.
    - apply (lb_util _ _ _ _ HL).
    - apply (lb_trash _ _ _ _ HL).
    - intros p Hp. pose proof (joined_local p) as E. unfold r_at in E. by rewrite decide_True in E by by right.
    - intros p b Hp. apply Hlr, (lb_rows _ _ _ _ HL) in Hp as [? Hq]. split; [done|]. destruct Hq as [?|Hq]; [by left|right]. by apply Hlr.
    - apply (lb_rows _ _ _ _ HL).
    - intros p b n H1 H2. pose proof (joined_local p) as E. rewrite joined_kinds in H1. destruct (r_at A m0 p) as [[| |]|]; [destruct E as [k E]..|done];
        rewrite H2 in E; injection E as ->; cbn in H1 |- *; congruence.
    - intros p b n H1 H2. rewrite joined_remote in H2. rewrite joined_kinds, joined_rows in H1. rewrite H2 in H1. cbn in H1. destruct H1 as [H1|H1]; congruence.
    - intros p b b' H1 H2. apply Hlr in H1. congruence.
    - intros p _ Hp. apply (lb_listed _ _ _ _ HL p). done.
    - intros p Hp. right. by apply (lb_listed _ _ _ _ HL p).
    - apply (lb_link _ _ _ _ HL).
    - intros p t k E. left. pose proof (joined_local p) as El. split; [apply joined_known, joined_some; by eexists|].
      destruct (r_at A m0 p) as [[| |]|]; [destruct El as [k' El]..|]; rewrite E in El; congruence.
    - intros p Hp. set_solver.
    - intros p Hp. by apply joined_stray in Hp.
    - intros p q Hp. by apply joined_stray in Hp.
    - intros p q Hp. by apply joined_stray in Hp.
    - intros p x t k _ _ Hp. by apply joined_stray in Hp.
    - intros p n n' H1 H2. exfalso. apply H1, joined_known, joined_some. by eexists.
    - intros p [Hp|Hp]; [by apply Q2 in Hp|by apply Q4 in Hp].
    - intros p q Hp. by apply Q2 in Hp.
    - intros p q Hp. by apply Q4 in Hp.
    - intros p Hp. by apply Q2 in Hp.
    - intros p t Hp. by apply Q1 in Hp.
    - intros _ [p Hp]. by apply Q1 in Hp.
    - intros p q (_ & Hp & _). by apply Q2 in Hp.
    - intros p x (_ & Hp & _). by apply Q2 in Hp.
    - apply (lb_trash_links _ _ _ _ HL).
    - intros p (c & t & c' & t' & E & _). pose proof (joined_local p) as Hl. rewrite E in Hl. destruct (r_at A m0 p) as [[| |]|]; try done; by destruct Hl.
  Qed.
End joined.
