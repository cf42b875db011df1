(** Lemmas about [InitReset]: retrieving the files, removing the links and
    emptying the remote directory. *)
From Coq Require Import QArith Qcanon.
From Verif Require Import InitProofs.
From stdpp Require Import options.

(** ** Which links are removed *)
Lemma path_comps_join a b : path_comps (a ++ c_slash :: b) = path_comps a ++ path_comps b.
Proof. unfold path_comps. by rewrite split_on_mid, List.filter_app. Qed.
(** Where a link text leads when ".." is not followed. *)
Definition as_written (base : path) (t : list N) : path := if isabs t then path_comps t else base ++ path_comps t.
Lemma leads_into_spec (p R : path) x t : valid_comps p → valid_name x → valid_comps R →
  leads_into t (abs_path (p ++ [x])) (abs_path R) = true ↔ R `prefix_of` as_written p t.
Proof.
  intros Hp Hx HR. unfold leads_into, as_written. rewrite dirname_abs by done.
  assert (∀ d, isabs d = true → bool_decide (commonpath d (abs_path R) = Some (abs_path R)) = true ↔ R `prefix_of` path_comps d) as G.
  { intros d Hd. rewrite bool_decide_eq_true. unfold commonpath. rewrite Hd. change (isabs (abs_path R)) with true. cbn [Bool.eqb].
    rewrite path_comps_abs by done. rewrite <-common_prefix_eq. change ([c_slash] ++ ?x) with (c_slash :: x).
    change (c_slash :: join_on c_slash ?x) with (abs_path x). split; [|by intros ->].
    intros E. injection E as E. apply abs_path_inj; [by apply common_prefix_valid|done|]. unfold abs_path. by rewrite E. }
  destruct (isabs t) eqn:Et; [by apply G|].
  rewrite G.
  - assert (path_comps (pjoin (abs_path p) t) = p ++ path_comps t) as ->; [|done].
    unfold pjoin. unfold isabs in Et. rewrite Et. destruct (decide (p = [])) as [->|Hpn]; [by destruct t|].
    assert (endswith [c_slash] (abs_path p) = false) as Hn.
    { unfold abs_path. apply endswith_slash_false. intros [|z q] E.
      - injection E as E. revert E. apply join_on_ne; [done|]. eapply Forall_impl; [exact Hp|apply valid_ne].
      - injection E as _ E. revert E. by apply join_on_last_ne. }
    rewrite Hn. unfold abs_path at 1. cbv iota. fold (abs_path p). by rewrite path_comps_join, path_comps_abs.
  - unfold pjoin. unfold isabs in Et. rewrite Et. unfold abs_path. by destruct (endswith _ _).
Qed.
Lemma path_comps_nodots t : dotdot ∉ split_on c_slash t → ∀ d, walk d (split_on c_slash t) = d ++ path_comps t.
Proof.
  unfold path_comps. induction (split_on c_slash t) as [|x l IH]; intros H d; simpl; [by rewrite app_nil_r|].
  apply not_elem_of_cons in H as [H1 H2]. unfold real_comp at 1. destruct (bool_decide (x = [] ∨ x = dot)) eqn:E; simpl; [by apply IH|].
  rewrite bool_decide_false by done. rewrite IH by done. by rewrite <-app_assoc.
Qed.

(** ** Removing the links *)
Section unlink.
  Context (C : conf).
  Local Notation L := (c_L C).
  Local Notation R := (c_R C).
  (** The link at [p] is removed. *)
  Definition doomed (m : fs) (p : path) : Prop :=
    p ≠ [] ∧ ∃ t k, m !! (L ++ p) = Some (Link t k) ∧ R `prefix_of` as_written (L ++ parent p) t.
  Global Instance doomed_dec m p : Decision (doomed m p).
  Proof.
    unfold doomed. apply and_dec; [apply _|]. destruct (m !! (L ++ p)) as [[|t k|]|].
    2:{ destruct (decide (R `prefix_of` as_written (L ++ parent p) t)) as [H|H]; [left; eauto|right; intros (? & ? & [= <- <-] & ?); done]. }
    all: right; by intros (? & ? & ? & _).
  Defined.
  Record unlinking (m0 m : fs) : Prop := {
    ul_wf : wf_fs m;
    ul_out : ∀ k, m !! k = m0 !! k ∨ (m !! k = None ∧ ∃ p, k = L ++ p ∧ doomed m0 p)
  }.
  Definition unlinked (m0 m : fs) : Prop :=
    unlinking m0 m ∧ ∀ p, doomed m0 p → m !! (L ++ p) = None.
  Lemma unlink_all_wp (I : world → Prop) (Q : res unit → world → Prop) w :
    (∀ l, c_iter C l ≡ₚ l) → mounted C (w_fs w) → valid_comps R → (v_lscan w = ∅ ∨ v_lscan w = tree (w_fs w) L) →
    (∀ m, unlinking (w_fs w) m → I (set_fs m (set_lscan (tree (w_fs w) L) w))) →
    (∀ m, unlinked (w_fs w) m → Q (Ok tt) (set_fs m (set_lscan (tree (w_fs w) L) w))) →
    wp (unlink_all C) I Q w.
  Proof.
    intros Hit Hm HR Hc HI HQ. unfold unlink_all. apply wp_bind.
    assert (local_scan C true w = ([], set_lscan (tree (w_fs w) L) w, Ok (tree (w_fs w) L))) as Hrun.
    { unfold local_scan, bind, get, eval, mut, ret. destruct (true && _) eqn:E; [|rewrite scan_dir_tree by apply Hm; done].
      apply andb_prop in E as [_ E]. apply negb_true_iff, bool_decide_eq_false in E.
      destruct Hc as [?|Hl]; [done|]. by rewrite <-Hl, set_lscan_id. }
    eapply wp_run; [exact Hrun|constructor|]. cbv beta iota. clear Hrun.
    set (w1 := set_lscan _ w). set (m0 := w_fs w). set (ks := c_iter C _).
    assert (∀ p, p ∈ ks ↔ p ≠ [] ∧ ∃ t k, m0 !! (L ++ p) = Some (Link t k)) as Hks.
    { intros p. unfold ks. rewrite Hit, elem_of_elements, elem_of_dom. unfold is_Some. setoid_rewrite map_filter_lookup_Some.
      setoid_rewrite tree_lookup. split.
      - intros (n & (Hp & Hn) & Hl). destruct n; try done. eauto.
      - intros (Hp & t & k & E). exists (Link t k). by rewrite E. }
    assert (NoDup ks) as Hnd by (unfold ks; rewrite Hit; apply NoDup_elements).
    apply wp_fsm_for. change (w_fs w1) with m0.
    apply (wp_for_inv _ ks _ (λ pre m, wf_fs m ∧ ∀ k, m !! k = m0 !! k ∧ (∀ p, k = L ++ p → p ∈ pre → ¬ doomed m0 p)
       ∨ (m !! k = None ∧ ∃ p, k = L ++ p ∧ p ∈ pre ∧ doomed m0 p))).
    - split; [apply Hm|]. intros k. left. split; [done|]. by intros ? _ ?%elem_of_nil.
    - intros pre p rest m El [Hwf Hmm]. assert (p ∈ ks) as Hp by (rewrite El; set_solver). apply Hks in Hp as (Hpn & t & k & E).
      assert (p ∉ pre) as Hpre.
      { rewrite El in Hnd. apply NoDup_app in Hnd as (_ & Hnd & _). intros ?. apply (Hnd p); [done|left]. }
      assert (m !! (L ++ p) = Some (Link t k)) as Ep.
      { destruct (Hmm (L ++ p)) as [[-> _]|(_ & q & Eq & Hq & _)]; [done|]. apply app_inv_head in Eq. by subst. }
      unfold unlink_one. apply wp_bind, wp_eval. rewrite (readlink_lookup m Hwf _ _ Ep).
      destruct (snoc_parent p Hpn) as [x Hx].
      destruct (Hwf _ _ Ep) as (_ & Hv & _).
      assert (leads_into t (abs_path (L ++ p)) (abs_path R) = true ↔ doomed m0 p) as Hl.
      { rewrite Hx, app_assoc in Hv. apply valid_app in Hv as [Hv1 Hv2]. inversion_clear Hv2. rewrite Hx at 1. rewrite app_assoc.
        rewrite leads_into_spec by done. unfold doomed. rewrite E. split.
        - intros. split; [done|]. eauto.
        - by intros (_ & ? & ? & [= <- <-] & ?). }
      destruct (leads_into t (abs_path (L ++ p)) (abs_path R)) eqn:Eb.
      + assert (doomed m0 p) as Hd by by apply Hl.
        assert (wf_fs (delete (L ++ p) m)) as Hwf'.
        { apply wf_delete; [done|]. intros c n Hc' Hch. apply child_parent in Hch as [Hcn Hcp].
          destruct (Hwf _ _ Hc') as (_ & _ & [t' Ht']). rewrite Hcp, node_at_ne, Ep in Ht' by (by destruct L). done. }
        assert (∀ k0, delete (L ++ p) m !! k0 = m0 !! k0 ∧ (∀ p0, k0 = L ++ p0 → p0 ∈ pre ++ [p] → ¬ doomed m0 p0)
          ∨ (delete (L ++ p) m !! k0 = None ∧ ∃ p0, k0 = L ++ p0 ∧ p0 ∈ pre ++ [p] ∧ doomed m0 p0)) as HJ.
        { intros k0. destruct (decide (L ++ p = k0)) as [<-|Hne].
          - right. rewrite lookup_delete. split; [done|]. exists p. set_solver.
          - rewrite lookup_delete_ne by done. destruct (Hmm k0) as [[E0 H0]|(E0 & q & -> & Hq & Hdq)].
            + left. split; [done|]. intros q -> Hq. apply elem_of_app in Hq as [Hq|Hq%elem_of_list_singleton]; [by apply (H0 q)|]. by subst.
            + right. split; [done|]. exists q. set_solver. }
        eapply (remove_wp _ _ _ _ _ Hwf Ep); [done| |done].
        apply HI. split; [done|]. intros k0. destruct (HJ k0) as [[? _]|(? & q & ? & _ & ?)]; [by left|right]. eauto.
      + apply wp_ret. split; [done|]. intros k0. destruct (Hmm k0) as [[E0 H0]|(E0 & q & -> & Hq & Hdq)].
        * left. split; [done|]. intros q -> Hq. apply elem_of_app in Hq as [Hq|Hq%elem_of_list_singleton]; [by apply (H0 q)|]. subst q.
          intros Hd. apply Hl in Hd. done.
        * right. split; [done|]. exists q. set_solver.
    - intros m [Hwf Hmm]. apply HQ. split; [split; [done|]|].
      + intros k. destruct (Hmm k) as [[? _]|(? & q & ? & _ & ?)]; [by left|right]. eauto.
      + intros p Hd. destruct (Hmm (L ++ p)) as [[_ H]|(E & _)]; [|done]. exfalso. apply (H p); [done| |done].
        apply Hks. destruct Hd as (? & t & k & ? & _). eauto.
  Qed.
End unlink.

(** ** Emptying the remote directory *)
Section empty.
  Context (C : conf).
  Local Notation R := (c_R C).
  Record emptying (m0 m : fs) : Prop := {
    em_wf : wf_fs m;
    em_out : ∀ k, ¬ below k R → m !! k = m0 !! k;
    em_in : ∀ k, m !! k = m0 !! k ∨ m !! k = None
  }.
  Definition emptied (m0 m : fs) : Prop := emptying m0 m ∧ ∀ q, q ≠ [] → m !! (R ++ q) = None.
  Lemma empty_remote_wp (I : world → Prop) (Q : res unit → world → Prop) w :
    mounted C (w_fs w) → (∀ x n, w_fs w !! (R ++ [x]) = Some n → is_Dir n = true) →
    (∀ m, emptying (w_fs w) m → I (set_fs m w)) →
    (∀ m, emptied (w_fs w) m → Q (Ok tt) (set_fs m w)) →
    wp (empty_remote C) I Q w.
  Proof.
    intros Hm Hd HI HQ. set (m0 := w_fs w) in *. unfold empty_remote. apply wp_fsm. change (w_fs w) with m0. apply wp_catch.
    apply wp_bind, wp_eval. unfold scandir. rewrite resolve_dir by apply Hm. destruct (mo_R _ _ Hm) as [t Ht]. rewrite Ht.
    set (ks := map fst (entries m0 R)).
    assert (∀ x, x ∈ ks ↔ is_Some (m0 !! (R ++ [x]))) as Hks.
    { intros x. unfold ks. rewrite elem_of_list_fmap. split.
      - intros ([y n] & -> & Hy). apply elem_of_entries in Hy. by eexists.
      - intros [n Hn]. exists (x, n). split; [done|]. by apply elem_of_entries. }
    assert (NoDup ks) as Hnd by apply NoDup_entries.
    apply (wp_for_inv _ ks _ (λ pre m, wf_fs m ∧ ∀ k, m !! k = if decide (Exists (λ x, R ++ [x] `prefix_of` k) pre) then None else m0 !! k)).
    - split; [apply Hm|]. intros k. rewrite decide_False; [done|]. intros H. by apply Exists_nil in H.
    - intros pre x rest m El [Hwf Hmm]. assert (x ∈ ks) as Hx by (rewrite El; set_solver).
      assert (x ∉ pre) as Hpre.
      { rewrite El in Hnd. apply NoDup_app in Hnd as (_ & Hnd & _). intros ?. apply (Hnd x); [done|left]. }
      apply Hks in Hx as [n Hn].
      assert (∀ k, Exists (λ y, R ++ [y] `prefix_of` k) pre → below k R) as Hbel.
      { intros k (y & _ & [l ->])%Exists_exists. exists y, l. by rewrite <-app_assoc. }
      assert (dir_at m (R ++ [x])) as Hdx.
      { apply dir_at_lookup; [by destruct R|]. rewrite Hmm, decide_False.
        - rewrite Hn. pose proof (Hd x n Hn) as Hdn. destruct n as [| |t']; [done|done|by exists t'].
        - intros (y & Hy & Hp)%Exists_exists. apply prefix_app_inv in Hp. apply prefix_cons_inv_1 in Hp. by subst. }
      apply rmtree_wp; [done|done|by destruct R| |].
      + intros m' (Hwf' & Ho & Hi). apply HI. split; [done| |].
        * intros k Hk. rewrite Ho, Hmm, decide_False; [done|by intros ?%Hbel|]. intros [l ->]. apply Hk. exists x, l. by rewrite <-app_assoc.
        * intros k. destruct (Hi k) as [->|?]; [|by right]. rewrite Hmm. destruct (decide _); auto.
      + split; [by apply wf_without|]. intros k. rewrite without_lookup, Hmm.
        destruct (decide (R ++ [x] `prefix_of` k)) as [Hp|Hp].
        * rewrite decide_True; [done|]. apply Exists_app. right. by constructor.
        * destruct (decide (Exists _ pre)) as [He|He]; [by rewrite decide_True by (apply Exists_app; by left)|].
          rewrite decide_False; [done|]. intros [?|H]%Exists_app; [done|]. apply Exists_cons in H as [?|H]; [done|by apply Exists_nil in H].
    - intros m [Hwf Hmm]. apply HQ. split; [split; [done| |]|].
      + intros k Hk. rewrite Hmm, decide_False; [done|]. intros (y & _ & [l ->])%Exists_exists. apply Hk. exists y, l. by rewrite <-app_assoc.
      + intros k. rewrite Hmm. destruct (decide _); auto.
      + intros q Hq. rewrite Hmm. destruct (decide (Exists _ ks)) as [|He]; [done|]. destruct (m0 !! (R ++ q)) as [n|] eqn:E; [|done].
        exfalso. apply He. destruct q as [|x q]; [done|]. apply Exists_exists. exists x. split.
        * apply Hks. destruct (decide (q = [])) as [->|Hqn]; [by eexists|].
          destruct (wf_anc m0 (mo_wf _ _ Hm) (R ++ x :: q) (R ++ [x]) n E) as [t' Ht'].
          -- exists q. by rewrite <-app_assoc.
          -- intros E'. apply app_inv_head in E'. injection E' as E'. done.
          -- rewrite node_at_ne in Ht' by (by destruct R). by eexists.
        * exists q. by rewrite <-app_assoc.
  Qed.
End empty.
Lemma rm_exclude_wp C (I : world → Prop) (Q : res unit → world → Prop) w :
  wf_fs (w_fs w) → valid_comps (c_R C) → dirs_ok (w_fs w) (exclude_dir C) → valid_name (c_id C) → ¬ dir_at (w_fs w) (exclude_file C) →
  I (set_fs (delete (exclude_file C) (w_fs w)) w) → Q (Ok tt) (set_fs (delete (exclude_file C) (w_fs w)) w) →
  wp (rm_exclude_file C) I Q w.
Proof.
  intros Hwf HR Hok Hv Hnd HI HQ. unfold rm_exclude_file. apply wp_fsm. apply wp_catch.
  pose proof (exclude_file_ne C) as Hne.
  change (exclude_dir C ++ [c_id C]) with (exclude_file C).
  destruct (w_fs w !! exclude_file C) as [n|] eqn:E.
  - eapply remove_wp; [done|exact E| |done|done]. destruct n; try done. exfalso. apply Hnd. apply dir_at_lookup; [done|eauto].
  - apply remove_gone_wp; [done| |done| |done|].
    + unfold exclude_file, exclude_dir, util_dir. rewrite !valid_app. split_and!; [done| | |by constructor]; by apply (bool_decide_unpack _).
    + unfold exclude_file. by rewrite parent_snoc.
    + apply wp_ret. by rewrite delete_notin in HQ by done.
Qed.

(** ** Retrieving the files *)
Lemma mid_other now S D m0 m p m2 : p ≠ [] → mid now S D m0 m p m2 →
  ∀ k, k ≠ D ++ p → m2 !! k = m !! k ∨ (m !! k = None ∧ m2 !! k = Some (Dir now) ∧ k `prefix_of` D ++ p).
Proof.
  intros Hp Hmid k Hk.
  assert (∀ q, q `prefix_of` D ++ p → (m ∪ dirmap now q) !! k = m !! k ∨ (m !! k = None ∧ (m ∪ dirmap now q) !! k = Some (Dir now) ∧ k `prefix_of` D ++ p)) as G.
  { intros q Hq. rewrite lookup_mk. destruct (m !! k) as [n|] eqn:E; [by left|]. destruct (decide _) as [[H1 H2]|H]; [|by left].
    right. split_and!; [done|done|by trans q]. }
  destruct Hmid as [q Hq _|Hnd|c t i k' E|l' t k' E].
  - by apply G.
  - rewrite lookup_delete_ne by done. apply G, prefix_parent.
  - rewrite lookup_insert_ne by done. apply G, prefix_parent.
  - rewrite lookup_insert_ne by done. apply G, prefix_parent.
Qed.
Lemma zielen_below (q p : path) : p ≠ [] → p `prefix_of` q → zielen_dir `prefix_of` q → zielen_dir `prefix_of` p.
Proof.
  intros Hp [l ->] Hz. destruct p as [|x p]; [done|]. simpl in Hz. apply prefix_cons_inv_1 in Hz as <-. apply prefix_cons, prefix_nil.
Qed.

Section reset.
  Context (C : conf) (m0 : fs) (db : pset) (keep : bool).
  Local Notation L := (c_L C).
  Local Notation R := (c_R C).
  Local Notation now := (c_now C).
  Local Notation util q := (zielen_dir `prefix_of` q).
  (** Before the command. *)
  Record resettable : Prop := {
    rs_m : mounted C m0;
    rs_Rne : R ≠ [];
    rs_apart : apart R L;
    rs_id : valid_name (c_id C);
    rs_ex : dirs_ok m0 (exclude_dir C);
    rs_file : ¬ dir_at m0 (exclude_file C);
    rs_udir : ∀ n, m0 !! (R ++ zielen_dir) = Some n → is_Dir n = true;
    rs_nolinks : ∀ q l t, ¬ util q → m0 !! (R ++ q) ≠ Some (Link l t);
    rs_db : ∀ q, q ∈ db → q ≠ [] ∧ ¬ util q ∧ is_Some (m0 !! (R ++ q));
    rs_known : ∀ q c t, q ≠ [] → ¬ util q → m0 !! (R ++ q) = Some (File c t) → q ∈ db;
    rs_files : ∀ q c t, q ≠ [] → ¬ util q → m0 !! (R ++ q) = Some (File c t) →
      m0 !! (L ++ q) = None ∨ (∃ c' t', m0 !! (L ++ q) = Some (File c' t')) ∨ ∃ k, m0 !! (L ++ q) = Some (Link (abs_path (R ++ q)) k);
    rs_dirs : ∀ q t, q ≠ [] → ¬ util q → m0 !! (R ++ q) = Some (Dir t) → m0 !! (L ++ q) = None ∨ dir_at m0 (L ++ q);
    rs_echo : ∀ q x t l k, q ≠ [] → ¬ util q → last q = Some x → m0 !! (R ++ q) = Some (Dir t) → m0 !! (L ++ q ++ [x]) = Some (Link l k) →
      l = abs_path (R ++ q ++ [x]) ∧ ∃ c t, m0 !! (R ++ q ++ [x]) = Some (File c t)
  }.
  Context (H : resettable).
  (** During the command. *)
  Record resetting (m : fs) : Prop := {
    rg_wf : wf_fs m;
    rg_out : ∀ k, ¬ below k L → ¬ below k R → m !! k = m0 !! k;
    rg_util : ∀ k, m !! (R ++ k) = m0 !! (R ++ k) ∨ m !! (R ++ k) = None;
    rg_keep : keep = true → ∀ q, R ++ q ≠ exclude_file C → m !! (R ++ q) = m0 !! (R ++ q);
    rg_safe : ∀ q c t, q ≠ [] → ¬ util q → m0 !! (R ++ q) = Some (File c t) →
      m !! (R ++ q) = Some (File c t) ∨ m !! (L ++ q) = Some (File c t);
    rg_local : ∀ q, q ≠ [] → (util q ∨ m0 !! (R ++ q) = None) →
      m !! (L ++ q) = m0 !! (L ++ q) ∨ (m !! (L ++ q) = None ∧ doomed C m0 q);
    rg_dirs : ∀ q t, q ≠ [] → ¬ util q → m0 !! (R ++ q) = Some (Dir t) →
      m !! (L ++ q) = m0 !! (L ++ q) ∨ (m0 !! (L ++ q) = None ∧ ∃ k, m !! (L ++ q) = Some (Dir k));
    rg_way : ∀ q c t, q ≠ [] → ¬ util q → m0 !! (R ++ q) = Some (File c t) →
      m !! (L ++ q) = m0 !! (L ++ q) ∨ m !! (L ++ q) = None ∨ ∃ c' t', m !! (L ++ q) = Some (File c' t')
  }.
  (** After the transfer. *)
  Record retrieved (m : fs) : Prop := {
    rt_ing : resetting m;
    rt_files : ∀ q c t, q ≠ [] → ¬ util q → m0 !! (R ++ q) = Some (File c t) → m !! (L ++ q) = Some (File c t);
    rt_util : ∀ q, util q → m !! (R ++ q) = m0 !! (R ++ q);
    rt_local : ∀ q, q ≠ [] → (util q ∨ m0 !! (R ++ q) = None) → m !! (L ++ q) = m0 !! (L ++ q);
    rt_gone : keep = false → ∀ q c t, q ≠ [] → ¬ util q → m0 !! (R ++ q) = Some (File c t) → m !! (R ++ q) = None
  }.

  Context (fl : list path) (Hfl : ∀ p, p ∈ fl ↔ p ∈ db).
  Local Notation want := (wanted m0 R (Some fl) ∅).
  Lemma want_facts q : want q → q ≠ [] ∧ ¬ util q ∧ ∃ n, m0 !! (R ++ q) = Some n.
  Proof using H Hfl.
    intros (_ & p & Hp & [[Hd ->]|(Hd & Hb & Hs)]).
    - apply Hfl, (rs_db H) in Hp as (? & ? & [n ?]). eauto.
    - apply Hfl, (rs_db H) in Hp as (Hpn & Hz & _). destruct Hb as (x & l & ->). split_and!; [by destruct p| |by destruct Hs; eauto].
      intros Hu. apply Hz. eapply zielen_below; [done| |exact Hu]. by apply prefix_app_r.
  Qed.
  Lemma file_want q c t : q ≠ [] → ¬ util q → m0 !! (R ++ q) = Some (File c t) → want q.
  Proof using H Hfl.
    intros Hq Hz E. split; [set_solver|]. exists q. split; [by apply Hfl, (rs_known H q c t)|]. left. split; [|done].
    intros [t' Ht']. rewrite node_at_app_ne in Ht' by done. congruence.
  Qed.
  Lemma util_ne q : util q → q ≠ [].
  Proof using. intros Hz ->. by apply prefix_nil_inv in Hz. Qed.
  Lemma node_kind q n : q ≠ [] → ¬ util q → m0 !! (R ++ q) = Some n → (∃ c t, n = File c t) ∨ ∃ t, n = Dir t.
  Proof using H. intros Hq Hz E. destruct n; [eauto| |eauto]. by apply (rs_nolinks H) in E. Qed.
  Lemma want_transferable : transferable (negb keep) m0 R L (Some fl) ∅.
  Proof using H Hfl.
    split; try apply H.
    - intros p Hp. apply Hfl, (rs_db H) in Hp as (Hpn & Hz & [n Hn]). destruct (node_kind p n Hpn Hz Hn) as [(c & t & ->)|(t & ->)].
      + right. split; [by eexists|]. split; [|exists (File c t); split; [|done]; by apply stat_lookup_follow; [apply H| |]].
        intros [t' Ht']. rewrite node_at_app_ne in Ht' by done. congruence.
      + left. exists t. by rewrite node_at_app_ne.
    - intros q Hw. destruct (want_facts q Hw) as (Hq & Hz & n & Hn). unfold compat. rewrite Hn.
      destruct (node_kind q n Hq Hz Hn) as [(c & t & ->)|(t & ->)]; [by apply (rs_files H q c t)|].
      split; [by apply (rs_dirs H q t)|]. intros x Hx. split.
      + intros _ l k. apply (rs_nolinks H). intros Hu. apply Hz. eapply zielen_below; [done| |exact Hu]. by apply prefix_app_r.
      + intros l k. by apply (rs_echo H q x t l k).
    - intros q p Hw Hp Hne Hpn. destruct (want_facts q Hw) as (Hq & Hz & n & Hn).
      assert (dir_at m0 (R ++ p)) as [t Ht].
      { eapply wf_anc; [apply H|exact Hn|by apply prefix_app|]. by intros E%app_inv_head. }
      rewrite node_at_app_ne in Ht by done. apply (rs_dirs H p t); [done| |done]. intros Hu. apply Hz. by trans p.
    - intros _ q s _ _. set_solver.
  Qed.
  Lemma keep_R m q Y : keep = true → copied now R L (negb keep) m0 Y m → m !! (R ++ q) = m0 !! (R ++ q).
  Proof using H. intros Hk Hc. apply (cp_out _ _ _ _ _ _ _ Hc); [apply apart_not_below, H|rewrite Hk; by intros [? _]]. Qed.
  Lemma prefix_dir q x n : q ≠ [] → want x → q `prefix_of` x → q ≠ x ∨ m0 !! (R ++ q) = Some n ∧ is_Dir n = true →
    ¬ util q ∧ ∃ t, m0 !! (R ++ q) = Some (Dir t).
  Proof using H Hfl.
    intros Hq Hw Hp Hor. destruct (want_facts x Hw) as (Hx & Hz & n' & Hn). split; [intros Hu; apply Hz; by trans q|].
    destruct (decide (q = x)) as [->|Hne].
    - destruct Hor as [?|[E Hd]]; [done|]. destruct n; try done. eauto.
    - destruct (wf_anc m0 (mo_wf _ _ (rs_m H)) (R ++ x) (R ++ q) n' Hn) as [t Ht]; [by apply prefix_app|by intros ?%app_inv_head|].
      rewrite node_at_app_ne in Ht by done. eauto.
  Qed.
  Lemma copied_resetting Y m : (∀ q, q ∈ Y → want q) → copied now R L (negb keep) m0 Y m →
    resetting m ∧ (∀ q, util q → m !! (R ++ q) = m0 !! (R ++ q)) ∧
    (∀ q, q ≠ [] → (util q ∨ m0 !! (R ++ q) = None) → m !! (L ++ q) = m0 !! (L ++ q)).
  Proof using H Hfl.
    intros HY Hc.
    assert (∀ q, q ≠ [] → (util q ∨ m0 !! (R ++ q) = None) → m !! (L ++ q) = m0 !! (L ++ q)) as Hloc.
    { intros q Hq Hor. rewrite (cp_dst _ _ _ _ _ _ _ Hc) by done. unfold tr_node. rewrite decide_False.
      - destruct (m0 !! (L ++ q)); [done|]. rewrite decide_False; [done|]. intros (x & Hx & Hp)%Exists_exists. apply HY in Hx.
        destruct (want_facts x Hx) as (Hxn & Hz & n & Hn). destruct Hor as [Hu|E]; [apply Hz; by trans q|].
        destruct (decide (q = x)) as [->|Hne]; [congruence|].
        destruct (prefix_dir q x n) as (_ & t & Ht); [done|done|done|by left|]. congruence.
      - intros [Hin _]. apply HY in Hin. destruct (want_facts q Hin) as (_ & Hz & n & Hn). destruct Hor; congruence. }
    assert (∀ q, util q → m !! (R ++ q) = m0 !! (R ++ q)) as Hu.
    { intros q Hu. apply (cp_out _ _ _ _ _ _ _ Hc); [apply apart_not_below, H|]. intros (_ & x & Hx & E). apply app_inv_head in E. subst x.
      apply HY in Hx. destruct (want_facts q Hx) as (_ & ? & _). done. }
    split; [|done]. split.
    - apply Hc.
    - intros k Hk Hk'. apply (cp_out _ _ _ _ _ _ _ Hc); [done|]. intros (_ & x & Hx & ->). apply HY in Hx. apply Hk'.
      apply below_root. exists x. split; [|done]. by destruct (want_facts x Hx).
    - intros q. destruct (decide (negb keep = true ∧ q ∈ Y)) as [[Hk Hq]|Hn].
      + right. by apply (cp_src _ _ _ _ _ _ _ Hc).
      + left. apply (cp_out _ _ _ _ _ _ _ Hc); [apply apart_not_below, H|]. intros (? & x & Hx & E). apply app_inv_head in E. subst x. auto.
    - intros Hk q _. by apply (keep_R m q Y).
    - intros q c t Hq Hz E. destruct (decide (q ∈ Y)) as [Hin|Hn].
      + right. rewrite (cp_dst _ _ _ _ _ _ _ Hc) by done. unfold tr_node. rewrite E, decide_True by done. done.
      + left. rewrite <-E. apply (cp_out _ _ _ _ _ _ _ Hc); [apply apart_not_below, H|]. intros (? & x & Hx & E'). apply app_inv_head in E'. by subst x.
    - intros q Hq Hor. left. by apply Hloc.
    - intros q t Hq Hz E. rewrite (cp_dst _ _ _ _ _ _ _ Hc) by done. unfold tr_node. rewrite E, decide_False by by intros [_ ?].
      destruct (m0 !! (L ++ q)) eqn:El; [by left|]. destruct (decide _); [|by left]. right. eauto.
    - intros q c t Hq Hz E. rewrite (cp_dst _ _ _ _ _ _ _ Hc) by done. unfold tr_node. rewrite E.
      destruct (decide _) as [|Hn]; [right; right; eauto|]. destruct (m0 !! (L ++ q)) eqn:El; [by left|].
      destruct (decide _) as [He|]; [|by left]. exfalso. apply Exists_exists in He as (x & Hx & Hp).
      destruct (decide (q = x)) as [->|Hne]; [by apply Hn|].
      destruct (prefix_dir q x (Dir 0)) as (_ & t' & Ht'); [done|by apply HY|done|by left|congruence].
  Qed.
  Lemma mid_resetting l Y p Z m m2 : ready R L (negb keep) m0 l → (∀ q, q ∈ l ↔ want q) → l = Y ++ p :: Z →
    copied now R L (negb keep) m0 Y m → mid now R L m0 m p m2 → resetting m2.
  Proof using H Hfl.
    intros Rd Hl El Hc Hmid.
    assert (∀ q, q ∈ Y → want q) as HY by (intros q Hq; apply Hl; rewrite El; apply elem_of_app; by left).
    assert (want p) as Hp by (apply Hl; rewrite El; apply elem_of_app; right; left).
    assert (p ∉ Y) as HpY.
    { pose proof (rd_nodup _ _ _ _ _ Rd) as Hnd. rewrite El in Hnd. apply NoDup_app in Hnd as (_ & Hnd & _). intros ?. by apply (Hnd p); [|left]. }
    pose proof (mid_wf _ _ _ _ _ _ Rd Y p Z El m Hc m2 Hmid) as Hwf.
    destruct (copied_resetting Y m HY Hc) as (P & Hu & Hloc). destruct (want_facts p Hp) as (Hpn & Hz & n & Hn).
    pose proof (mid_other _ _ _ _ _ _ _ Hpn Hmid) as Ho.
    assert (∀ k, ¬ below k L → m2 !! k = m !! k) as Hout.
    { intros k Hk. destruct (Ho k) as [?|(E1 & E2 & Hpre)]; [|done|].
      - intros ->. apply Hk, below_root. eauto.
      - exfalso. assert (k ≠ []) as Hkn by (intros ->; by destruct (Hwf _ _ E2)).
        assert (k `prefix_of` L) as HkL by by eapply prefix_below_root.
        assert (dir_at m k) as [t Ht].
        { eapply wf_dir_anc; [apply P| |exact HkL]. destruct (mo_L _ _ (rs_m H)) as [t Ht]. exists t. rewrite node_at_ne in Ht |- * by apply H.
          rewrite (rg_out _ P); [done|intros (x & y & E)|intros (x & y & E)].
          - apply (f_equal length) in E. rewrite app_length in E. simpl in E. lia.
          - destruct (rs_apart H) as [Ha _]. apply Ha. rewrite E. by apply prefix_app_r. }
        rewrite node_at_ne in Ht by done. congruence. }
    assert (∀ q, m2 !! (R ++ q) = m !! (R ++ q)) as HR by (intros q; apply Hout, apart_not_below, H).
    assert (∀ q, q ≠ [] → (util q ∨ m0 !! (R ++ q) = None) → m2 !! (L ++ q) = m !! (L ++ q)) as HL.
    { intros q Hq Hor. destruct (Ho (L ++ q)) as [?|(_ & _ & Hpre)]; [|done|].
      - intros E. apply app_inv_head in E. subst q. destruct Hor; [done|congruence].
      - exfalso. apply prefix_app_inv in Hpre. destruct (decide (q = p)) as [->|Hne]; [destruct Hor; [done|congruence]|].
        destruct (prefix_dir q p n) as (Hnz & t & Ht); [done|done|done|by left|]. destruct Hor; [done|congruence]. }
    split.
    - done.
    - intros k Hk Hk'. rewrite Hout by done. by apply P.
    - intros q. rewrite HR. apply P.
    - intros Hk q Hq. rewrite HR. by apply (rg_keep _ P).
    - intros q c t Hq Hzq E. rewrite HR. destruct (decide (q = p)) as [->|Hne].
      + left. rewrite <-E. apply (cp_out _ _ _ _ _ _ _ Hc); [apply apart_not_below, H|]. intros (? & x & Hx & E'). apply app_inv_head in E'. by subst x.
      + destruct (rg_safe _ P q c t Hq Hzq E) as [?|E']; [by left|right].
        destruct (Ho (L ++ q)) as [->|(E1 & _)]; [by intros ?%app_inv_head|done|congruence].
    - intros q Hq Hor. left. rewrite HL by done. by apply Hloc.
    - intros q t Hq Hzq E. destruct (decide (q = p)) as [->|Hne].
      + assert (¬ nondir (m0 !! (R ++ p))) as Hnd by by rewrite E.
        destruct Hmid as [k Hk _|Hnd'|c t' i k E'|l' t' k E']; [|done|congruence..].
        destruct (rg_dirs _ P p t Hq Hzq E) as [E1|[E1 E2]]; rewrite lookup_mk.
        * rewrite E1. destruct (m0 !! (L ++ p)); [by left|]. destruct (decide _); [right; eauto|by left].
        * destruct E2 as [k' E2]. rewrite E2. right. eauto.
      + destruct (Ho (L ++ q)) as [->|(E1 & E2 & _)]; [by intros ?%app_inv_head|by apply (rg_dirs _ P q t)|].
        right. split; [|by eexists]. destruct (rg_dirs _ P q t Hq Hzq E) as [E3|[? ?]]; congruence.
    - intros q c t Hq Hzq E. destruct (decide (q = p)) as [->|Hne].
      + assert (∀ k, k `prefix_of` L ++ p → k ≠ L ++ p → (m ∪ dirmap now k) !! (L ++ p) = m !! (L ++ p)) as Hk.
        { intros k Hk Hkn. rewrite lookup_mk. destruct (m !! (L ++ p)); [done|]. rewrite decide_False; [done|]. intros [_ Hp2].
          apply Hkn. by apply (anti_symm prefix). }
        destruct Hmid as [k Hk1 Hk2|Hnd|c' t' i k E'|l' t' k E'].
        * rewrite Hk; [by apply (rg_way _ P p c t)|done|]. intros ->. apply Hk2; [done|]. by rewrite E.
        * right. left. apply lookup_delete.
        * right. right. rewrite lookup_insert. eauto.
        * congruence.
      + destruct (Ho (L ++ q)) as [->|(E1 & E2 & Hpre)]; [by intros ?%app_inv_head|by apply (rg_way _ P q c t)|].
        apply prefix_app_inv in Hpre. destruct (prefix_dir q p n) as (_ & t' & Ht'); [done|done|done|by left|congruence].
  Qed.
  Lemma copied_retrieved l m : (∀ q, q ∈ l ↔ want q) → copied now R L (negb keep) m0 l m → retrieved m.
  Proof using H Hfl.
    intros Hl Hc. destruct (copied_resetting l m) as (P & Hu & Hloc); [intros; by apply Hl|done|].
    split; [done| |done|done|].
    - intros q c t Hq Hz E. rewrite (cp_dst _ _ _ _ _ _ _ Hc) by done. unfold tr_node. rewrite E, decide_True; [done|].
      split; [|done]. apply Hl. by eapply file_want.
    - intros Hk q c t Hq Hz E. apply (cp_src _ _ _ _ _ _ _ Hc); [by rewrite Hk|]. apply Hl. by eapply file_want.
  Qed.
  Lemma retrieve_transfer_wp (I : fs → Prop) (Q : res unit → fs → Prop) tty :
    (∀ m, resetting m → I m) → (∀ m, retrieved m → Q (Ok tt) m) →
    wp (transfer_tree now tty R L (Some fl) ∅ (negb keep)) I Q m0.
  Proof using H Hfl.
    intros HI HQ. apply transfer_tree_wp; [apply want_transferable| |].
    - intros _ q Hw. destruct (want_facts q Hw) as (Hq & Hz & n & Hn). unfold exists_.
      rewrite (stat_lookup_follow m0 (mo_wf _ _ (rs_m H)) _ _ Hn); [done|]. destruct (node_kind q n Hq Hz Hn) as [(? & ? & ->)|(? & ->)]; done.
    - intros l Rd Hl. split_and!.
      + intros X p Y m1 m2 El Hc Hmid. apply HI. by eapply mid_resetting.
      + intros X Y m1 El Hc. apply HI. apply (copied_resetting X); [|done]. intros q Hq. apply Hl. rewrite El. apply elem_of_app. by left.
      + intros m1 Hc. apply HQ. by apply (copied_retrieved l).
  Qed.

  (** *** The whole command *)
  Lemma resetting_same_dir m d : resetting m → dir_at m0 d → (d = L ∨ d = R) → dir_at m d.
  Proof using H.
    intros P Hd Hor. destruct Hd as [t Ht]. exists t.
    assert (d ≠ []) as Hne by (destruct Hor as [-> | ->]; [apply H|apply (rs_Rne H)]).
    rewrite node_at_ne in Ht |- * by done. rewrite (rg_out _ P); [done| |].
    - intros (x & y & E). destruct Hor as [-> | ->].
      + apply (f_equal length) in E. rewrite app_length in E. simpl in E. lia.
      + destruct (rs_apart H) as [_ Ha]. apply Ha. rewrite E. by apply prefix_app_r.
    - intros (x & y & E). destruct Hor as [-> | ->].
      + destruct (rs_apart H) as [Ha _]. apply Ha. rewrite E. by apply prefix_app_r.
      + apply (f_equal length) in E. rewrite app_length in E. simpl in E. lia.
  Qed.
  Lemma resetting_mounted m : resetting m → mounted C m.
  Proof using H. intros P. split; [apply P|eapply resetting_same_dir; [done|apply H|by left]|eapply resetting_same_dir; [done|apply H|by right]|apply H]. Qed.
  Lemma resetting_exclude m : resetting m → dirs_ok m (exclude_dir C) ∧ ¬ dir_at m (exclude_file C).
  Proof using H.
    intros P. pose proof (resetting_mounted m P) as Hm. split.
    - intros q Hq Hp. destruct (decide (q `prefix_of` R)) as [HR|HR].
      + right. eapply wf_dir_anc; [apply P|apply (mo_R _ _ Hm)|done].
      + destruct (prefix_root_cases R (zielen_dir ++ [lit "exclude"]) q) as [?|(s & _ & _ & ->)]; [|done|].
        * unfold exclude_dir, util_dir in Hp. by rewrite <-app_assoc in Hp.
        * destruct (rg_util _ P s) as [E|?]; [|by left]. destruct (rs_ex H (R ++ s) Hq Hp) as [E'|[t Ht]]; [left; congruence|].
          right. exists t. rewrite node_at_ne in Ht |- * by done. congruence.
    - intros [t Ht]. rewrite node_at_ne in Ht by apply exclude_file_ne. apply (rs_file H). exists t. rewrite node_at_ne by apply exclude_file_ne.
      rewrite exclude_file_app in *. destruct (rg_util _ P (zielen_dir ++ [lit "exclude"; c_id C])) as [E|E]; congruence.
  Qed.
  (** Before the links are removed. *)
  Record before_links (m : fs) : Prop := {
    bl_ing : resetting m;
    bl_files : ∀ q c t, q ≠ [] → ¬ util q → m0 !! (R ++ q) = Some (File c t) → m !! (L ++ q) = Some (File c t);
    bl_local : ∀ q, q ≠ [] → (util q ∨ m0 !! (R ++ q) = None) → m !! (L ++ q) = m0 !! (L ++ q);
    bl_gone : keep = false → ∀ q, q ≠ [] → m !! (R ++ q) = None;
    bl_kept : keep = true → ∀ q, m !! (R ++ q) = m0 !! (R ++ q)
  }.
  Record reset_done (m : fs) : Prop := {
    dn_ing : resetting m;
    dn_files : ∀ q c t, q ≠ [] → ¬ util q → m0 !! (R ++ q) = Some (File c t) → m !! (L ++ q) = Some (File c t);
    dn_links : ∀ q, ¬ doomed C m q;
    dn_local : ∀ q, q ≠ [] → (util q ∨ m0 !! (R ++ q) = None) → ¬ doomed C m0 q → m !! (L ++ q) = m0 !! (L ++ q);
    dn_gone : keep = false → ∀ q, q ≠ [] → m !! (R ++ q) = None;
    dn_kept : keep = true → ∀ q, m !! (R ++ q) = if decide (R ++ q = exclude_file C) then None else m0 !! (R ++ q)
  }.
  Lemma doomed_before m q : before_links m → doomed C m q → (util q ∨ m0 !! (R ++ q) = None) ∧ doomed C m0 q.
  Proof using H.
    intros B (Hq & t & k & E & Hp). destruct (decide (util q ∨ m0 !! (R ++ q) = None)) as [Hor|Hn].
    - split; [done|]. split; [done|]. exists t, k. by rewrite <-(bl_local _ B).
    - exfalso. destruct (m0 !! (R ++ q)) as [n|] eqn:En; [|tauto]. assert (¬ util q) as Hz by tauto.
      destruct (node_kind q n Hq Hz En) as [(c & t' & ->)|(t' & ->)].
      + rewrite (bl_files _ B q c t') in E; done.
      + destruct (rg_dirs _ (bl_ing _ B) q t' Hq Hz En) as [E'|[_ [k' E']]]; [|congruence].
        destruct (rs_dirs H q t' Hq Hz En) as [E2|[t2 E2]]; [congruence|]. rewrite node_at_app_ne in E2 by done. congruence.
  Qed.
  Lemma unlinking_resetting m1 m : before_links m1 → unlinking C m1 m → resetting m.
  Proof using H.
    intros B [Hwf Hu]. pose proof (bl_ing _ B) as P.
    assert (∀ q, q ≠ [] → ¬ (util q ∨ m0 !! (R ++ q) = None) → m !! (L ++ q) = m1 !! (L ++ q)) as HL.
    { intros q Hq Hn. destruct (Hu (L ++ q)) as [?|(_ & p & E & Hd)]; [done|]. apply app_inv_head in E. subst p.
      by apply (doomed_before m1 q B) in Hd as [? _]. }
    assert (∀ k, ¬ below k L → m !! k = m1 !! k) as Ho.
    { intros k Hk. destruct (Hu k) as [?|(_ & p & -> & Hd)]; [done|]. destruct Hk. apply below_root. destruct Hd as (? & _). eauto. }
    assert (∀ q, m !! (R ++ q) = m1 !! (R ++ q)) as HR by (intros; apply Ho, apart_not_below, H).
    split.
    - done.
    - intros k Hk Hk'. rewrite Ho by done. by apply P.
    - intros k. rewrite HR. apply P.
    - intros Hk q. rewrite HR. by apply (rg_keep _ P).
    - intros q c t Hq Hz E. right. rewrite HL, (bl_files _ B q c t); [done..|]. rewrite E. by intros [?|?].
    - intros q Hq Hor. rewrite <-(bl_local _ B q Hq Hor). destruct (Hu (L ++ q)) as [?|(? & p & E & Hd)]; [by left|right].
      apply app_inv_head in E. subst p. split; [done|]. by apply (doomed_before m1 q B) in Hd as [_ ?].
    - intros q t Hq Hz E. rewrite HL; [by apply (rg_dirs _ P q t)|done|]. rewrite E. by intros [?|?].
    - intros q c t Hq Hz E. rewrite HL; [by apply (rg_way _ P q c t)|done|]. rewrite E. by intros [?|?].
  Qed.
  Lemma no_exclude_resetting m : resetting m → resetting (delete (exclude_file C) m).
  Proof using H.
    intros P. destruct (resetting_exclude m P) as [_ Hnd].
    assert (∀ k, exclude_file C ≠ L ++ k) as HL by (intros k E; rewrite exclude_file_app in E; by apply (apart_ne R L _ _ (rs_apart H)) in E).
    assert (∀ q, ¬ util q → exclude_file C ≠ R ++ q) as HR.
    { intros q Hz E. apply Hz. rewrite exclude_file_app in E. apply app_inv_head in E. subst q. by apply prefix_app_r. }
    split.
    - apply wf_delete; [apply P|]. intros q n Hq Hc. apply child_parent in Hc as [_ Hc]. destruct (rg_wf _ P _ _ Hq) as (_ & _ & Hd). by rewrite Hc in Hd.
    - intros k Hk Hk'. rewrite lookup_delete_ne; [by apply P|]. intros <-. apply Hk'. rewrite exclude_file_app. apply below_root. eexists. split; [|done]. done.
    - intros k. destruct (decide (exclude_file C = R ++ k)) as [->|Hne]; [right; apply lookup_delete|]. rewrite lookup_delete_ne by done. apply P.
    - intros Hk q Hq. rewrite lookup_delete_ne by done. by apply (rg_keep _ P).
    - intros q c t Hq Hz E. rewrite !lookup_delete_ne by auto. by apply (rg_safe _ P).
    - intros q Hq Hor. rewrite lookup_delete_ne by auto. by apply (rg_local _ P).
    - intros q t Hq Hz E. rewrite lookup_delete_ne by auto. by apply (rg_dirs _ P q t).
    - intros q c t Hq Hz E. rewrite lookup_delete_ne by auto. by apply (rg_way _ P q c t).
  Qed.
  Lemma unlinked_done m1 m : before_links m1 → unlinked C m1 m → reset_done (delete (exclude_file C) m).
  Proof using H.
    intros B [Hu Hd]. pose proof (unlinking_resetting m1 m B Hu) as P.
    assert (∀ k, exclude_file C ≠ L ++ k) as HL by (intros k E; rewrite exclude_file_app in E; by apply (apart_ne R L _ _ (rs_apart H)) in E).
    assert (∀ q, m !! (R ++ q) = m1 !! (R ++ q)) as HR.
    { intros q. destruct (ul_out _ _ _ Hu (R ++ q)) as [?|(_ & p & E & _)]; [done|]. by apply (apart_ne R L _ _ (rs_apart H)) in E. }
    split.
    - by apply no_exclude_resetting.
    - intros q c t Hq Hz E. rewrite lookup_delete_ne by done. destruct (ul_out _ _ _ Hu (L ++ q)) as [->|(_ & p & Ep & Hdp)]; [by apply (bl_files _ B)|].
      apply app_inv_head in Ep. subst p. apply (doomed_before m1 q B) in Hdp as [[?|?] _]; [done|congruence].
    - intros q (Hq & t & k & E & Hp). rewrite lookup_delete_ne in E by done.
      assert (doomed C m1 q) as Hdq.
      { split; [done|]. exists t, k. split; [|done]. destruct (ul_out _ _ _ Hu (L ++ q)) as [<-|(? & _)]; [done|congruence]. }
      apply Hd in Hdq. congruence.
    - intros q Hq Hor Hnd. rewrite lookup_delete_ne by done. rewrite <-(bl_local _ B q Hq Hor).
      destruct (ul_out _ _ _ Hu (L ++ q)) as [?|(? & p & E & Hdp)]; [done|]. apply app_inv_head in E. subst p.
      by apply (doomed_before m1 q B) in Hdp as [_ ?].
    - intros Hk q Hq. destruct (decide (exclude_file C = R ++ q)) as [->|Hne]; [apply lookup_delete|]. rewrite lookup_delete_ne, HR by done. by apply (bl_gone _ B).
    - intros Hk q. destruct (decide (R ++ q = exclude_file C)) as [->|Hne]; [apply lookup_delete|]. rewrite lookup_delete_ne, HR by done. by apply (bl_kept _ B).
  Qed.
  Lemma emptying_resetting m1 m : keep = false → retrieved m1 → emptying C m1 m → resetting m.
  Proof using H.
    intros Hk [P Hf _ Hl _] [Hwf Ho Hi].
    assert (∀ q, m !! (L ++ q) = m1 !! (L ++ q)) as HL by (intros; apply Ho, apart_not_below, apart_sym, H).
    split.
    - done.
    - intros k Hb Hb'. rewrite Ho by done. by apply P.
    - intros k. destruct (Hi (R ++ k)) as [->|?]; [apply P|by right].
    - congruence.
    - intros q c t Hq Hz E. right. rewrite HL. by apply (Hf q c t).
    - intros q Hq Hor. rewrite HL. by apply (rg_local _ P).
    - intros q t Hq Hz E. rewrite HL. by apply (rg_dirs _ P q t).
    - intros q c t Hq Hz E. rewrite HL. by apply (rg_way _ P q c t).
  Qed.
  Lemma retrieved_dirs m q n : keep = false → retrieved m → q ≠ [] → ¬ util q → m !! (R ++ q) = Some n → is_Dir n = true.
  Proof using H.
    intros Hk T Hq Hz E. destruct (m0 !! (R ++ q)) as [n0|] eqn:E0.
    - destruct (node_kind q n0 Hq Hz E0) as [(c & t & ->)|(t & ->)].
      + rewrite (rt_gone _ T Hk q c t) in E; done.
      + destruct (rg_util _ (rt_ing _ T) q); [|congruence]. assert (n = Dir t) as -> by congruence. done.
    - destruct (rg_util _ (rt_ing _ T) q); congruence.
  Qed.
  Context (w : world) (Hw : w_fs w = m0) (Hl : v_lscan w = ∅) (Hr : v_rscan w = ∅).
  Context (Hit : ∀ l, c_iter C l ≡ₚ l) (Hdb : ∀ p, p ∈ c_iter C (elements (dom (sr_get (v_rdb w) None None None))) ↔ p ∈ fl).
  Context (Hfl2 : c_iter C (elements (dom (sr_get (v_rdb w) None None None))) = fl).
  Definition on_reset (w' : world) : Prop :=
    resetting (w_fs w') ∧ w_ldb w' = w_ldb w ∧ w_rdb w' = w_rdb w ∧ w_last w' = w_last w.
  Definition after_reset (w' : world) : Prop :=
    reset_done (w_fs w') ∧ w_ldb w' = w_ldb w ∧ w_rdb w' = w_rdb w ∧ w_last w' = w_last w.
  Lemma retrieve_wp (Q : res unit → world → Prop) :
    (∀ m s, before_links m → Q (Ok tt) (set_fs m (set_rscan s w))) → wp (retrieve C keep true) on_reset Q w.
  Proof using H Hfl Hw Hl Hr Hfl2.
    intros HQ. unfold retrieve. apply wp_bind.
    eapply wp_run; [apply remote_scan_known; [rewrite Hw; apply H|by left]|constructor|]. cbv beta iota. cbn [negb].
    apply wp_bind, wp_get. apply wp_bind. unfold remote_guard. apply wp_catch. apply wp_fsm.
    cbn [v_rdb set_rscan w_fs]. rewrite Hfl2, Hw.
    set (s0 := tree m0 R). set (w1 := set_rscan s0 w).
    apply retrieve_transfer_wp.
    - intros m P. unfold on_reset. by cbn [w_fs set_fs w_ldb w_rdb w_last w1 set_rscan].
    - intros m T. destruct keep eqn:Hk.
      + apply wp_ret. apply (HQ m s0). split; [apply T|apply T|apply T|congruence|].
        intros _ q. destruct (decide (util q)) as [Hu|Hn]; [by apply (rt_util _ T)|]. apply (rg_keep _ (rt_ing _ T)); [done|].
        rewrite exclude_file_app. intros E. apply app_inv_head in E. subst q. apply Hn. by apply prefix_app_r.
      + pose proof (resetting_mounted m (rt_ing _ T)) as Hm.
        apply wp_bind. eapply wp_run; [refine (remote_scan_run C _ _ false _); [exact Hm|discriminate]|constructor|]. cbv beta iota.
        cbn [w_fs set_fs w1]. destruct (decide _) as [_|Hn].
        * apply empty_remote_wp.
          -- exact Hm.
          -- cbn [w_fs set_fs set_rscan]. intros x n E. destruct (decide (util [x])) as [Hu|Hz]; [|by eapply (retrieved_dirs m [x])].
             rewrite (rt_util _ T) in E by done. apply prefix_cons_inv_1 in Hu as <-. by apply (rs_udir H).
          -- cbn [w_fs set_fs set_rscan]. intros m' Em. unfold on_reset. cbn [w_fs set_fs w_ldb w_rdb w_last set_rscan]. split; [|done].
             by eapply emptying_resetting.
          -- cbn [w_fs set_fs set_rscan]. intros m' [Em En]. apply (HQ m' (tree m R)).
             assert (∀ q, m' !! (L ++ q) = m !! (L ++ q)) as HL by (intros; apply (em_out _ _ _ Em), apart_not_below, apart_sym, H).
             split; [by eapply emptying_resetting| | |done|congruence].
             ++ intros q c t Hq Hz E. rewrite HL. by apply (rt_files _ T q c t).
             ++ intros q Hq Hor. rewrite HL. by apply (rt_local _ T).
        * exfalso. apply Hn. apply map_eq. intros q. rewrite lookup_empty. destruct (no_dirs _ !! q) as [n|] eqn:E; [|done]. exfalso.
          unfold no_dirs in E. apply map_filter_lookup_Some in E as [E Hd]. apply hide_util_lookup in E as [E Hz]. apply tree_lookup in E as [Hq E].
          pose proof (retrieved_dirs m q n Hk T Hq Hz E) as Hn'. by destruct n.
  Qed.
  Lemma reset_main_wp : wp (reset_main C keep false true) on_reset (λ r w', r = Ok tt ∧ after_reset w') w.
  Proof using H Hfl Hw Hl Hr Hfl2 Hit.
    unfold reset_main. apply wp_bind, retrieve_wp. intros m s B. cbv beta iota.
    pose proof (resetting_mounted m (bl_ing _ B)) as Hm.
    assert (valid_comps R) as HvR by (eapply wf_dir_valid; [apply H|apply H]).
    apply wp_bind. apply unlink_all_wp; [done|exact Hm|done|by left| |].
    - cbn [w_fs set_fs]. intros m' U. unfold on_reset. cbn [w_fs set_fs w_ldb w_rdb w_last set_rscan set_lscan]. split; [|done]. by eapply unlinking_resetting.
    - cbn [w_fs set_fs]. intros m' U. pose proof (unlinking_resetting m m' B (proj1 U)) as P. pose proof (resetting_exclude m' P) as [He Hf].
      apply rm_exclude_wp; cbn [w_fs set_fs]; [apply P|done|done|apply H|done| |].
      + unfold on_reset. cbn [w_fs set_fs w_ldb w_rdb w_last set_rscan set_lscan]. split; [|done]. by apply no_exclude_resetting.
      + split; [done|]. unfold after_reset. cbn [w_fs set_fs w_ldb w_rdb w_last set_rscan set_lscan]. split; [|done]. by apply (unlinked_done m).
  Qed.
End reset.

(** Without retrieving. *)
Record detaching (C : conf) (m0 m : fs) : Prop := {
  dg_wf : wf_fs m;
  dg_out : ∀ k, m !! k = m0 !! k ∨ m !! k = None ∧ (k = exclude_file C ∨ ∃ p, k = c_L C ++ p ∧ doomed C m0 p)
}.
Lemma detach_wp C w keep fits : (∀ l, c_iter C l ≡ₚ l) → mounted C (w_fs w) → v_lscan w = ∅ → apart (c_R C) (c_L C) →
  dirs_ok (w_fs w) (exclude_dir C) → valid_name (c_id C) → ¬ dir_at (w_fs w) (exclude_file C) →
  wp (reset_main C keep true fits) (λ w', detaching C (w_fs w) (w_fs w') ∧ w_ldb w' = w_ldb w ∧ w_rdb w' = w_rdb w)
    (λ r w', r = Ok tt ∧ detaching C (w_fs w) (w_fs w') ∧ w_fs w' !! exclude_file C = None ∧ (∀ p, doomed C (w_fs w) p → w_fs w' !! (c_L C ++ p) = None)
       ∧ w_ldb w' = w_ldb w ∧ w_rdb w' = w_rdb w) w.
Proof.
  intros Hit Hm Hl Ha Hok Hid Hnd. unfold reset_main. apply wp_bind, wp_ret. cbv beta iota.
  assert (valid_comps (c_R C)) as HvR by (eapply wf_dir_valid; apply Hm).
  assert (∀ k, exclude_file C ≠ c_L C ++ k) as HL by (intros k E; rewrite exclude_file_app in E; by apply (apart_ne _ _ _ _ Ha) in E).
  apply wp_bind. apply unlink_all_wp; [done|done|done|by left| |].
  - cbn [w_fs set_fs]. intros m' [U1 U2]. cbn [w_fs set_fs w_ldb w_rdb set_lscan]. split; [|done]. split; [done|].
    intros k. destruct (U2 k) as [?|(? & ?)]; [by left|right]. auto.
  - cbn [w_fs set_fs]. intros m' [[U1 U2] U3].
    assert (∀ k, is_Some (m' !! k) → m' !! k = w_fs w !! k) as Hs.
    { intros k [n E]. destruct (U2 k) as [?|[? _]]; [done|congruence]. }
    assert (dirs_ok m' (exclude_dir C)) as Hok'.
    { intros q Hq Hp. destruct (m' !! q) as [n|] eqn:E; [|by left]. right. destruct (Hok q Hq Hp) as [E'|[t Ht]].
      - rewrite Hs, E' in E; [done|by eexists].
      - exists t. rewrite node_at_ne in Ht |- * by done. rewrite Hs; [done|by eexists]. }
    assert (¬ dir_at m' (exclude_file C)) as Hnd'.
    { intros [t Ht]. rewrite node_at_ne in Ht by apply exclude_file_ne. apply Hnd. exists t. rewrite node_at_ne by apply exclude_file_ne. rewrite <-Hs; [done|by eexists]. }
    assert (detaching C (w_fs w) (delete (exclude_file C) m')) as D.
    { split.
      - apply wf_delete; [done|]. intros q n Hq Hc. apply child_parent in Hc as [_ Hc]. destruct (U1 _ _ Hq) as (_ & _ & Hd). by rewrite Hc in Hd.
      - intros k. destruct (decide (exclude_file C = k)) as [<-|Hne]; [right; rewrite lookup_delete; by auto|]. rewrite lookup_delete_ne by done.
        destruct (U2 k) as [?|(? & ?)]; [by left|right]. auto. }
    apply rm_exclude_wp; cbn [w_fs set_fs]; [done|done|done|done|done| |].
    + cbn [w_fs set_fs w_ldb w_rdb set_lscan]. done.
    + cbn [w_fs set_fs w_ldb w_rdb set_lscan]. split_and!; [done|done|apply lookup_delete| |done|done].
      intros p Hd. rewrite lookup_delete_ne by done. by apply U3.
Qed.

(** ** Another attempt after an interruption, with the remote directory kept *)
Section again.
  Context (C C' : conf) (EL : c_L C' = c_L C) (ER : c_R C' = c_R C) (EI : c_id C' = c_id C).
  Context (m0 : fs) (db : pset) (H : resettable C m0 db).
  Local Notation L := (c_L C).
  Local Notation R := (c_R C).
  Lemma again_remote m q : resetting C m0 true m → R ++ q ≠ exclude_file C → m !! (R ++ q) = m0 !! (R ++ q).
  Proof using. intros P. by apply (rg_keep _ _ _ _ P). Qed.
  Lemma again_user m q : resetting C m0 true m → ¬ zielen_dir `prefix_of` q → m !! (R ++ q) = m0 !! (R ++ q).
  Proof using.
    intros P Hz. apply again_remote; [done|]. rewrite exclude_file_app. intros E%app_inv_head. subst q. apply Hz. by apply prefix_app_r.
  Qed.
  Lemma again_link keep m q l k : resetting C m0 keep m → q ≠ [] → m !! (L ++ q) = Some (Link l k) → m0 !! (L ++ q) = Some (Link l k).
  Proof using H.
    intros P Hq E. destruct (decide (zielen_dir `prefix_of` q ∨ m0 !! (R ++ q) = None)) as [Hor|Hn].
    - destruct (rg_local _ _ _ _ P q Hq Hor) as [?|[? _]]; congruence.
    - destruct (m0 !! (R ++ q)) as [n|] eqn:En; [|tauto]. assert (¬ zielen_dir `prefix_of` q) as Hz by tauto.
      destruct n as [c t|l' t|t].
      + destruct (rg_way _ _ _ _ P q c t Hq Hz En) as [?|[?|(? & ? & ?)]]; congruence.
      + by apply (rs_nolinks _ _ _ H) in En.
      + destruct (rg_dirs _ _ _ _ P q t Hq Hz En) as [?|[? [k' ?]]]; congruence.
  Qed.
  Lemma resetting_again m : resetting C m0 true m → resettable C' m db.
  Proof using EL ER EI H.
    intros P. pose proof (resetting_mounted C m0 db true H m P) as Hm.
    pose proof (resetting_exclude C m0 db true H m P) as [He Hf].
    assert (exclude_file C' = exclude_file C) as Ef by (unfold exclude_file, exclude_dir, util_dir; by rewrite ER, EI).
    split; rewrite ?EL, ?ER, ?EI, ?Ef; try apply H.
    - destruct Hm. split; rewrite ?EL, ?ER; done.
    - unfold exclude_dir, util_dir. by rewrite ER.
    - done.
    - intros n. rewrite again_remote; [apply H|done|]. rewrite exclude_file_app. by intros E%app_inv_head.
    - intros q l t Hz. rewrite again_user by done. by apply H.
    - intros q Hq. destruct (rs_db _ _ _ H q Hq) as (? & Hz & ?). by rewrite again_user.
    - intros q c t Hq Hz. rewrite again_user by done. by apply H.
    - intros q c t Hq Hz. rewrite again_user by done. intros E. destruct (rg_way _ _ _ _ P q c t Hq Hz E) as [->|[?|?]]; [by apply (rs_files _ _ _ H q c t)|by left|right; by left].
    - intros q t Hq Hz. rewrite again_user by done. intros E. destruct (rg_dirs _ _ _ _ P q t Hq Hz E) as [E'|[_ [k E']]].
      + destruct (rs_dirs _ _ _ H q t Hq Hz E) as [?|[t' Ht']]; [left; congruence|right]. exists t'. rewrite node_at_app_ne in Ht' |- * by done. congruence.
      + right. exists k. by rewrite node_at_app_ne.
    - intros q x t l k Hq Hz Hx. rewrite again_user by done. intros E El. apply (again_link true) in El; [|done|by destruct q].
      destruct (rs_echo _ _ _ H q x t l k Hq Hz Hx E El) as [-> (c & t' & E')]. split; [done|]. exists c, t'. rewrite again_user; [done|done|].
      intros Hu. apply Hz. eapply zielen_below; [done| |exact Hu]. by apply prefix_app_r.
  Qed.
  Lemma doomed_setup m q : doomed C' m q ↔ doomed C m q.
  Proof using EL ER. unfold doomed. by rewrite EL, ER. Qed.
  Lemma again_doomed m q : resetting C m0 true m → doomed C m q → doomed C m0 q.
  Proof using H. intros P (Hq & t & k & E & Hp). split; [done|]. exists t, k. split; [|done]. by apply (again_link true m). Qed.
  Lemma resetting_trans m1 m2 : resetting C m0 true m1 → resetting C' m1 true m2 → resetting C m0 true m2.
  Proof using EL ER EI H.
    intros P1 P2.
    assert (exclude_file C' = exclude_file C) as Ef by (unfold exclude_file, exclude_dir, util_dir; by rewrite ER, EI).
    assert (∀ q, R ++ q ≠ exclude_file C → m2 !! (R ++ q) = m0 !! (R ++ q)) as HR.
    { intros q Hq. rewrite <-ER. rewrite (rg_keep _ _ _ _ P2); [rewrite ER; by apply again_remote|done|by rewrite ER, Ef]. }
    assert (∀ q, ¬ zielen_dir `prefix_of` q → R ++ q ≠ exclude_file C) as Hz'.
    { intros q Hz. rewrite exclude_file_app. intros E%app_inv_head. subst q. apply Hz. by apply prefix_app_r. }
    split.
    - apply P2.
    - intros k Hk Hk'. rewrite (rg_out _ _ _ _ P2), (rg_out _ _ _ _ P1); rewrite ?EL, ?ER; done.
    - intros k. pose proof (rg_util _ _ _ _ P2 k) as Hu. rewrite ER in Hu. destruct Hu as [->|?]; [apply P1|by right].
    - done.
    - intros q c t Hq Hz E. left. rewrite HR; auto.
    - intros q Hq Hor. pose proof (rg_local _ _ _ _ P2 q Hq) as Hl. rewrite EL, ER, doomed_setup in Hl.
      destruct Hl as [->|[? ?]].
      + destruct Hor as [?|E]; [by left|]. destruct (rg_util _ _ _ _ P1 q); [right; congruence|by right].
      + by apply (rg_local _ _ _ _ P1).
      + right. split; [done|]. by apply (again_doomed m1).
    - intros q t Hq Hz E. pose proof (rg_dirs _ _ _ _ P2 q t Hq Hz) as Hd. rewrite EL, ER in Hd. rewrite again_user in Hd by done.
      destruct (Hd E) as [->|[E1 E2]]; [by apply (rg_dirs _ _ _ _ P1 q t)|].
      destruct (rg_dirs _ _ _ _ P1 q t Hq Hz E) as [E3|[? [k E3]]]; [right; split; [congruence|done]|congruence].
    - intros q c t Hq Hz E. pose proof (rg_way _ _ _ _ P2 q c t Hq Hz) as Hd. rewrite EL, ER in Hd. rewrite again_user in Hd by done.
      destruct (Hd E) as [->|[?|?]]; [by apply (rg_way _ _ _ _ P1 q c t)|by right; left|by right; right].
  Qed.
End again.
