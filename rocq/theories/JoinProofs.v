(** What [init --add-remote] does: an empty local directory is filled with links
    to the files of a remote directory that is in use. *)
From Coq Require Import QArith Qcanon.
From Verif Require Export MergeDB.
From stdpp Require Import options.

Section join.
  Set Default Proof Using "Type*".
  Context (C : conf) (m0 : fs).
  Local Notation L := (c_L C).
  Local Notation R := (c_R C).
  Local Notation util := (R ++ zielen_dir).
  (** Shown in the local directory: everything but the program's own directory
      and the links that cannot be copied. *)
  Definition shown (q : path) : Prop :=
    q ≠ [] ∧ ¬ zielen_dir `prefix_of` q ∧ is_Some (m0 !! (R ++ q)) ∧ safe_entry m0 R q.
  (** What may stand in the local directory. *)
  Definition stands (q : path) (n : node) : Prop :=
    match n with
    | Dir _ => shown q ∧ dir_at m0 (R ++ q)
    | Link t _ => shown q ∧ nondir (m0 !! (R ++ q)) ∧ t = abs_path (R ++ q)
    | File _ _ => False
    end.
  Record underway (m : fs) : Prop := {
    uw_wf : wf_fs m;
    uw_out : ∀ k, ¬ below k L → ¬ util `prefix_of` k → m !! k = m0 !! k;
    uw_local : ∀ q n, q ≠ [] → m !! (L ++ q) = Some n → stands q n;
    uw_util : util_part R (c_id C) m;
    uw_kept : ∀ k n, util `prefix_of` k → k ≠ exclude_file C → m0 !! k = Some n → m !! k = Some n;
    uw_new : ∀ k n, util `prefix_of` k → k ≠ exclude_file C → m0 !! k = None → m !! k = Some n →
      is_Dir n = true ∧ (k `prefix_of` exclude_dir C ∨ k `prefix_of` trash_dir C)
  }.
  (** The directories before. *)
  Record joinable : Prop := {
    jo_wf : wf_fs m0;
    jo_apart : apart L R;
    jo_L : dir_at m0 L;
    jo_R : dir_at m0 R;
    jo_Lne : L ≠ [];
    jo_Rne : R ≠ [];
    jo_empty : ∀ q, q ≠ [] → m0 !! (L ++ q) = None;
    jo_util : util_part R (c_id C) m0;
    jo_id : valid_name (c_id C)
  }.
  Context (H0 : joinable).

  Lemma nbR q : ¬ below (L ++ q) R.
  Proof. apply apart_not_below, H0. Qed.
  Lemma nbL q : ¬ below (R ++ q) L.
  Proof. apply apart_not_below, apart_sym, H0. Qed.
  Lemma util_below k : util `prefix_of` k → below k R.
  Proof using Type. intros [s ->]. rewrite <-app_assoc. by apply below_app_ne. Qed.
  Lemma not_util_L q : ¬ util `prefix_of` L ++ q.
  Proof. intros H%util_below. by apply nbR in H. Qed.
  Lemma not_util_R q : ¬ zielen_dir `prefix_of` q → ¬ util `prefix_of` R ++ q.
  Proof using Type. intros H Hp. apply H. by apply (prefix_app_inv R). Qed.
  Lemma remote_same m q : underway m → ¬ zielen_dir `prefix_of` q → m !! (R ++ q) = m0 !! (R ++ q).
  Proof. intros U Hz. apply (uw_out _ U); [apply nbL|by apply not_util_R]. Qed.
  Lemma root_same m k : underway m → k = L ∨ k = R → dir_at m k.
  Proof.
    intros U Hk.
    assert (dir_at m0 k ∧ k ≠ [] ∧ ¬ below k L ∧ ¬ util `prefix_of` k) as ([t Ht] & Hne & H1 & H2).
    { destruct Hk as [-> | ->]; (split; [apply H0|split; [apply H0|split]]); try apply not_below_self.
      - pose proof (not_util_L []) as Hb. by rewrite app_nil_r in Hb.
      - pose proof (nbL []) as Hb. by rewrite app_nil_r in Hb.
      - intros Hp%prefix_length. rewrite app_length in Hp. simpl in Hp. lia. }
    exists t. rewrite node_at_ne in Ht |- * by done. by rewrite (uw_out _ U).
  Qed.
  Lemma underway_mounted m : underway m → mounted C m.
  Proof. intros U. split; [apply U|apply root_same; auto|apply root_same; auto|apply H0]. Qed.
  Lemma underway_start : underway m0.
  Proof.
    split; try done.
    - apply H0.
    - intros q n Hq E. by rewrite (jo_empty H0) in E.
    - apply H0.
    - intros k n _ _ E E'. congruence.
  Qed.
  Lemma underway_util m m' : underway m → wf_fs m' → util_part R (c_id C) m' →
    (∀ k, ¬ util `prefix_of` k → m' !! k = m !! k) →
    (∀ k n, util `prefix_of` k → k ≠ exclude_file C → m !! k = Some n → m' !! k = Some n) →
    (∀ k n, util `prefix_of` k → k ≠ exclude_file C → m !! k = None → m' !! k = Some n →
      is_Dir n = true ∧ (k `prefix_of` exclude_dir C ∨ k `prefix_of` trash_dir C)) → underway m'.
  Proof.
    intros U Hwf Hu Ho Hk Hn. split.
    - done.
    - intros k H1 H2. rewrite Ho by done. by apply U.
    - intros q n Hq. rewrite Ho by apply not_util_L. by apply U.
    - done.
    - intros k n H1 H2 H3. apply Hk; [done..|]. by apply (uw_kept _ U).
    - intros k n H1 H2 H3 H4. destruct (m !! k) as [n'|] eqn:E; [|by apply (Hn k)].
      assert (n' = n) as -> by (apply Hk in E; [congruence|done..]). by apply (uw_new _ U k).
  Qed.

  (** ** The program's own directory *)
  Local Notation part s := (util ++ [s]).
  Lemma part_exclude : part (lit "exclude") = exclude_dir C.
  Proof using Type. done. Qed.
  Lemma part_trash : part (lit "Trash") = trash_dir C.
  Proof using Type. done. Qed.
  Lemma mk_out m now s d k : underway m → d `prefix_of` part s → ¬ util `prefix_of` k → (m ∪ dirmap now d) !! k = m !! k.
  Proof.
    intros U Hd Hz. rewrite lookup_mk. destruct (m !! k) eqn:E; [done|]. destruct (decide _) as [[H1 H2]|]; [|done]. exfalso.
    assert (k `prefix_of` part s) as H3 by by trans d. rewrite <-app_assoc in H3.
    destruct (prefix_root_cases _ _ _ H3) as [H4|(q & Hq & [r Hr] & ->)].
    - assert (dir_at m k) as [t Ht] by (eapply wf_dir_anc; [apply U|apply root_same; auto|done]). rewrite node_at_ne in Ht by done. congruence.
    - apply Hz. apply prefix_app. destruct q as [|x q]; [done|]. injection Hr as <- _. by exists q.
  Qed.
  Lemma part_ok m s : underway m → s = lit "exclude" ∨ s = lit "Trash" → dirs_ok m (part s) ∧ valid_comps (part s).
  Proof.
    intros U Hs. split.
    - rewrite <-app_assoc. destruct Hs as [-> | ->]; apply (uw_util _ U).
    - rewrite <-app_assoc. apply valid_app. split; [eapply wf_dir_valid; [apply U|apply root_same; auto]|].
      destruct Hs as [-> | ->]; apply (bool_decide_unpack _); vm_compute; exact Logic.I.
  Qed.
  Lemma mk_underway m now s d : underway m → s = lit "exclude" ∨ s = lit "Trash" → d `prefix_of` part s → underway (m ∪ dirmap now d).
  Proof.
    intros U Hs Hd. destruct (part_ok m s U Hs) as [Hok Hv].
    assert (∀ k, dirs_ok m k → dirs_ok (m ∪ dirmap now d) k) as Hk.
    { intros k Hk q Hq Hp. destruct (Hk q Hq Hp) as [E|[t E]].
      - rewrite lookup_mk, E. destruct (decide _); [|by left]. right. exists now. rewrite node_at_ne by done. rewrite lookup_mk, E. by rewrite decide_True.
      - right. exists t. rewrite node_at_ne in E |- * by done. by rewrite lookup_mk, E. }
    assert (¬ exclude_file C `prefix_of` part s) as Hf.
    { intros Hp. rewrite exclude_file_app, <-app_assoc in Hp. apply prefix_app_inv, prefix_app_inv in Hp. apply prefix_length in Hp. simpl in Hp. lia. }
    apply (underway_util m); [done| | |intros k Hk'; by eapply mk_out| |].
    - apply wf_mk; [apply U| |].
      + destruct Hd as [r Hr]. rewrite Hr in Hv. by apply valid_app in Hv as [? _].
      + intros q Hq Hp. apply Hok; [done|by trans d].
    - split; [apply Hk, U..|]. pose proof (up_file _ _ _ (uw_util _ U)) as Hfl. rewrite lookup_mk.
      destruct Hfl as [E|(c & t & E)]; rewrite E; [|by eauto]. rewrite decide_False; [by left|]. intros [_ Hp].
      apply Hf. rewrite exclude_file_app. rewrite <-!app_assoc in Hp. by trans d.
    - intros k n _ _ E. by rewrite lookup_mk, E.
    - intros k n _ _ E. rewrite lookup_mk, E. destruct (decide _) as [[H1 H2]|]; [|done]. intros [= <-]. split; [done|].
      destruct Hs as [-> | ->]; [left|right]; by trans d.
  Qed.
  Lemma part_run m now s (I : fs → Prop) (Q : res unit → fs → Prop) : underway m → s = lit "exclude" ∨ s = lit "Trash" →
    (∀ m', underway m' → I m') →
    (∀ m', underway m' → (∀ k, ¬ util `prefix_of` k → m' !! k = m !! k) →
       (∀ k, dir_at m k → dir_at m' k) → dir_at m' (part s) → Q (Ok tt) m') →
    wp (makedirs now (part s)) I Q m.
  Proof.
    intros U Hs HI HQ. destruct (part_ok m s U Hs) as [Hok Hv].
    apply makedirs_wp; [apply U|done|done| |].
    - intros q Hq. apply HI. by eapply mk_underway.
    - apply HQ; [by eapply mk_underway|intros; by eapply mk_out| |].
      + intros k [t Ht]. exists t. destruct (decide (k = [])) as [->|Hk]; [done|]. rewrite node_at_ne in Ht |- * by done. by rewrite lookup_mk, Ht.
      + by apply dir_at_made.
  Qed.

  (** ** The links *)
  Lemma underway_links m m' : underway m → wf_fs m' → (∀ k, ¬ below k L → m' !! k = m !! k) →
    (∀ q n, q ≠ [] → m' !! (L ++ q) = Some n → m !! (L ++ q) = Some n ∨ stands q n) → underway m'.
  Proof.
    intros U Hwf Ho Hl.
    assert (∀ k, util `prefix_of` k → m' !! k = m !! k) as Hu.
    { intros k [s ->]. rewrite <-app_assoc. apply Ho, nbL. }
    split.
    - done.
    - intros k H1 H2. rewrite Ho by done. by apply U.
    - intros q n Hq E. destruct (Hl q n Hq E) as [E'|?]; [|done]. by apply U.
    - eapply util_same; [| |apply U]; [by intros q _; apply Ho, nbL|].
      intros k Hk. apply Ho. intros (x & s & ->). apply (proj1 (jo_apart H0)). trans (L ++ x :: s); [by eexists|done].
    - intros k n H1 H2 H3. rewrite Hu by done. by apply (uw_kept _ U).
    - intros k n H1 H2 H3. rewrite Hu by done. by apply (uw_new _ U).
  Qed.
  Lemma shown_up q r : shown q → r `prefix_of` q → r ≠ q → r ≠ [] → shown r ∧ dir_at m0 (R ++ r).
  Proof.
    intros (H1 & H2 & [n H3] & H4) Hr Hne Hrn.
    assert (dir_at m0 (R ++ r)) as Hd.
    { destruct Hr as [s ->]. destruct s as [|x s]; [by rewrite app_nil_r in Hne|]. rewrite app_assoc in H3.
      eapply wf_dir_anc; [apply H0| |]. 2:{ apply prefix_app. exists []. by rewrite app_nil_r. }
      revert H3. clear -H0. revert n. induction s as [|y s IH] using rev_ind; intros n H3.
      - apply (jo_wf H0) in H3 as (_ & _ & Hd). by rewrite parent_snoc in Hd.
      - change (x :: s ++ [y]) with ((x :: s) ++ [y]) in H3. rewrite app_assoc in H3. apply (jo_wf H0) in H3 as (_ & _ & Hd). rewrite parent_snoc in Hd.
        apply dir_at_lookup in Hd as [t Hd]; [|by apply app_ne]. by eapply IH. }
    split; [|done]. pose proof Hd as Hd'. apply dir_at_lookup in Hd' as [t E]; [|by apply app_ne].
    split; [done|]. split; [intros Hz; apply H2; by trans r|]. split; [eauto|]. intros l k E'. congruence.
  Qed.
  Section linking.
    Context (m : fs) (U : underway m) (now : Z) (files dirs : pset).
    Context (Hfiles : ∀ q, q ∈ files ↔ shown q ∧ nondir (m0 !! (R ++ q))).
    Context (Hdirs : ∀ q, q ∈ dirs ↔ shown q ∧ dir_at m0 (R ++ q)).
    Lemma in_shown q : q ∈ dirs ∪ files → shown q.
    Proof. intros [Hq|Hq]%elem_of_union; [by apply Hdirs|by apply Hfiles]. Qed.
    Lemma join_linkable : linkable L files dirs true m.
    Proof.
      split.
      - apply U.
      - apply root_same; auto.
      - intros q Hq. apply in_shown in Hq as (H1 & H2 & [n H3] & _). split; [done|].
        apply (jo_wf H0) in H3 as (_ & Hv & _). by apply valid_app in Hv as [_ ?].
      - intros q r Hq Hr Hne Hrn. apply in_shown in Hq. destruct (shown_up q r Hq Hr Hne Hrn) as [Hs Hd].
        destruct (m !! (L ++ r)) as [n|] eqn:E; [|right; split; [done|by apply Hdirs]]. left.
        apply (uw_local _ U) in E as Hn; [|done]. apply dir_at_lookup; [by apply app_ne|].
        apply dir_at_lookup in Hd as [t Hd]; [|by apply app_ne].
        destruct n as [| |k]; cbn [stands] in Hn; [done|destruct Hn as (_ & Hn & _); rewrite Hd in Hn; done|by eexists].
      - intros _ q (Hq & Hn)%Hfiles _ Hd. apply dir_at_lookup in Hd as [t Hd]; [|apply app_ne, Hq].
        apply (uw_local _ U) in Hd; [|apply Hq]. destruct Hd as [_ Hd]. apply dir_at_lookup in Hd as [t' Hd]; [|apply app_ne, Hq].
        by rewrite Hd in Hn.
    Qed.
    Lemma linked_underway Y m1 : (∀ q, q ∈ Y → q ∈ dirs ∪ files) → linked now R L dirs true m Y m1 → underway m1.
    Proof.
      intros HY K.
      apply (underway_links m); [done|apply K| |].
      - intros k Hk. apply (li_out _ _ _ _ _ _ _ _ K). intros q Hq ->. apply Hk, below_app_ne, (in_shown q (HY q Hq)).
      - intros q n Hq E. destruct (decide (q ∈ Y)) as [Hin|Hn].
        + rewrite (li_in _ _ _ _ _ _ _ _ K q Hin) in E. unfold sl_node in E. destruct (decide (q ∈ dirs)) as [Hd|Hd].
          * destruct (m !! (L ++ q)); [by left|]. injection E as <-. right. by apply Hdirs.
          * right. assert (q ∈ files) as Hf by (specialize (HY q Hin); set_solver).
            assert (n = Link (abs_path (R ++ q)) now) as -> by (destruct (m !! (L ++ q)); congruence).
            apply Hfiles in Hf as [? ?]. by split.
        + left. rewrite <-E. symmetry. apply (li_out _ _ _ _ _ _ _ _ K). intros r Hr E'. apply app_inv_head in E'. by subst.
    Qed.
    Lemma linked_delete_underway Y m1 p : (∀ q, q ∈ Y → q ∈ dirs ∪ files) → p ∈ files → linked now R L dirs true m Y m1 →
      underway (delete (L ++ p) m1).
    Proof.
      intros HY Hp K. pose proof (linked_underway Y m1 HY K) as U1. apply Hfiles in Hp as [Hs Hn].
      apply (underway_links m1); [done| | |].
      - apply wf_delete; [apply U1|]. intros q n Hq [x ->]. apply (uw_wf _ U1) in Hq as (_ & _ & Hd). rewrite parent_snoc in Hd.
        apply dir_at_lookup in Hd as [t Hd]; [|apply app_ne, Hs]. apply (uw_local _ U1) in Hd as [_ Hd]; [|apply Hs].
        apply dir_at_lookup in Hd as [t' Hd]; [|apply app_ne, Hs]. by rewrite Hd in Hn.
      - intros k Hk. apply lookup_delete_ne. intros <-. apply Hk, below_app_ne, Hs.
      - intros q n Hq E. apply lookup_delete_Some in E as [_ E]. by left.
    Qed.
  End linking.

  (** ** The whole command *)
  Definition join_way (w w' : world) : Prop := underway (w_fs w') ∧ w_ldb w' = w_ldb w ∧ w_rdb w' = w_rdb w ∧ w_last w' = w_last w.
  Lemma join_generate_wp (w : world) (Q : res unit → world → Prop) : underway (w_fs w) →
    (∀ m', underway m' → dir_at m' (exclude_dir C) → dir_at m' (trash_dir C) → Q (Ok tt) (set_fs m' w)) → wp (generate C) (join_way w) Q w.
  Proof.
    intros U HQ. unfold generate. apply wp_bind, wp_fsm. change (exclude_dir C) with (part (lit "exclude")). change (trash_dir C) with (part (lit "Trash")).
    apply part_run; [done|by left|by intros m' U'; split_and!|]. intros m1 U1 S1 K1 D1. apply wp_fsm. cbn [w_fs set_fs].
    apply part_run; [done|by right|by intros m' U'; split_and!|]. intros m2 U2 S2 K2 D2. rewrite set_fs_fs. apply HQ; [done|by apply K2|done].
  Qed.
  (** The links that are left out. *)
  Lemma elem_of_left_out m q : underway m →
    q ∈ unsafe_links m R (hide_util (tree m R)) ↔ q ≠ [] ∧ ¬ zielen_dir `prefix_of` q ∧ is_Some (m0 !! (R ++ q)) ∧ ¬ safe_entry m0 R q.
  Proof.
    intros U. unfold unsafe_links. rewrite elem_of_filter, elem_of_dom. unfold is_Some at 1. setoid_rewrite map_filter_lookup_Some.
    setoid_rewrite hide_util_lookup. setoid_rewrite tree_lookup. simpl. split.
    - intros (Hu & n & ((Hq & E) & Hz) & Hl). pose proof (remote_same m q U Hz) as Es. split_and!; try done; [rewrite <-Es; eauto|].
      intros Hs. assert (unsafe_link m (R ++ q) R = false) as Hf; [|congruence].
      apply (unsafe_link_spec m R q n); [apply U|apply H0|done|done|]. intros t k E'. apply (Hs t k). by rewrite <-Es.
    - intros (Hq & Hz & [n E] & Hs). pose proof (remote_same m q U Hz) as Es. rewrite E in Es. split.
      + apply not_false_is_true. intros Hf. apply (unsafe_link_spec m R q n) in Hf; [|apply U|apply H0|done|done].
        apply Hs. intros t k E'. apply (Hf t k). congruence.
      + exists n. split; [done|]. destruct n; [exfalso; apply Hs; intros ? ? ?; congruence|done|exfalso; apply Hs; intros ? ? ?; congruence].
  Qed.
  (** What the command leaves when it has been through. *)
  Record through (w w' : world) : Prop := {
    tg_way : join_way w w';
    tg_file : ∀ q, shown q → nondir (m0 !! (R ++ q)) → ∃ k, w_fs w' !! (L ++ q) = Some (Link (abs_path (R ++ q)) k);
    tg_dir : ∀ q, shown q → dir_at m0 (R ++ q) → ∃ k, w_fs w' !! (L ++ q) = Some (Dir k);
    tg_excl : dir_at (w_fs w') (exclude_dir C);
    tg_trash : dir_at (w_fs w') (trash_dir C);
    tg_rows : ∃ files dirs, (∀ q, q ∈ files ↔ shown q ∧ nondir (m0 !! (R ++ q))) ∧ (∀ q, q ∈ dirs ↔ shown q ∧ dir_at m0 (R ++ q))
      ∧ v_ldb w' = sl_add ∅ files dirs 0%Qc false ∧ v_rdb w' = sr_add (v_rdb w) files dirs (c_now C)
  }.
  Context (Hit : ∀ l, c_iter C l ≡ₚ l).
  Lemma setup_remote_wp (w : world) (Q : res unit → world → Prop) :
    underway (w_fs w) → dir_at (w_fs w) (exclude_dir C) → dir_at (w_fs w) (trash_dir C) → v_rscan w = ∅ → v_ldb w = ∅ →
    (∀ w', through w w' → Q (Ok tt) w') → wp (setup_from_remote C) (join_way w) Q w.
  Proof.
    intros U De Dt Hs Hl HQ. pose proof (underway_mounted _ U) as Hm. unfold setup_from_remote.
    apply wp_bind. eapply wp_run; [exact (remote_scan_known C w Hm (or_introl Hs))|constructor|]. cbv beta iota zeta.
    apply wp_bind, wp_get. cbn [w_fs set_rscan]. unfold setup_dir.
    apply wp_bind. eapply wp_run; [refine (remote_scan_known C (set_rscan _ w) Hm (or_intror eq_refl))|constructor|]. cbv beta iota zeta.
    apply wp_bind. eapply wp_run; [refine (remote_scan_known C (set_rscan _ (set_rscan _ w)) Hm (or_intror eq_refl))|constructor|]. cbv beta iota zeta.
    cbn [w_fs set_rscan].
    set (unsafe := unsafe_links (w_fs w) R (hide_util (tree (w_fs w) R))).
    set (files := c_iter C (elements (dom (no_dirs (hide_util (tree (w_fs w) R))) ∖ unsafe))).
    set (dirs := c_iter C (elements (dom (only_dirs (hide_util (tree (w_fs w) R)))))).
    assert (∀ q, q ∈ files ↔ shown q ∧ nondir (m0 !! (R ++ q))) as Hf.
    { intros q. unfold files. rewrite Hit, elem_of_elements, elem_of_difference, elem_of_dom. unfold unsafe. rewrite elem_of_left_out by done.
      unfold is_Some at 1, no_dirs. setoid_rewrite map_filter_lookup_Some. setoid_rewrite hide_util_lookup. setoid_rewrite tree_lookup. simpl. split.
      - intros [(n & ((Hq & E) & Hz) & Hn) Hu]. rewrite (remote_same _ q U Hz) in E. rewrite E. split; [|done]. unfold shown. rewrite E.
        split_and!; [done|done|eauto|]. destruct (decide (safe_entry m0 R q)) as [?|Hns]; [done|]. exfalso. apply Hu. split_and!; [done|done|rewrite E; eauto|done].
      - intros ((Hq & Hz & [n E] & Hsf) & Hn). split; [|by intros (_ & _ & _ & ?)]. exists n. rewrite (remote_same _ q U Hz). rewrite E in Hn. done. }
    assert (∀ q, q ∈ dirs ↔ shown q ∧ dir_at m0 (R ++ q)) as Hd.
    { intros q. unfold dirs. rewrite Hit, elem_of_elements, elem_of_dom. unfold is_Some at 1, only_dirs.
      setoid_rewrite map_filter_lookup_Some. setoid_rewrite hide_util_lookup. setoid_rewrite tree_lookup. simpl. split.
      - intros (n & ((Hq & E) & Hz) & Hn). rewrite (remote_same _ q U Hz) in E. destruct n as [| |t]; [done|done|].
        split; [|apply dir_at_lookup; [by apply app_ne|eauto]]. split_and!; [done|done|eauto|]. intros l k E'. congruence.
      - intros ((Hq & Hz & _) & Hn). apply dir_at_lookup in Hn as [t Hn]; [|by apply app_ne]. exists (Dir t). by rewrite (remote_same _ q U Hz). }
    clearbody files dirs.
    assert (∀ q, q ∈ files → q ∉ dirs ∧ q ∉ parents (files ++ dirs)) as Hfd.
    { intros q (Hq & Hn)%Hf. split.
      - intros (_ & Hd')%Hd. apply dir_at_lookup in Hd' as [t Hd']; [|apply app_ne, Hq]. by rewrite Hd' in Hn.
      - intros (_ & c & Hc & ->)%elem_of_parents.
        assert (shown c) as Hsc by (apply elem_of_app in Hc as [?%Hf|?%Hd]; naive_solver). pose proof Hsc as (Hcn & _ & [n' E'] & _).
        destruct (m0 !! (R ++ parent c)) as [n|] eqn:E; [|done].
        apply (wf_nondir_nochild _ _ _ (jo_wf H0) E Hn _ _ E'). rewrite <-parent_app by done. apply child_parent. split; [by apply app_ne|done]. }
    apply wp_bind. apply wp_mut. apply wp_bind. apply wp_mut. apply wp_bind. apply wp_get. apply wp_bind. apply wp_fsm.
    cbn [v_ldb v_rdb w_fs set_vldb set_vrdb set_rscan]. rewrite Hl.
    set (w1 := set_vrdb _ _).
    set (F := dom (sl_get (sl_add ∅ files dirs 0%Qc false) None (Some false) None)).
    set (D := dom (sl_get (sl_add ∅ files dirs 0%Qc false) None (Some true) None)).
    assert (∀ q, q ∈ F ↔ shown q ∧ nondir (m0 !! (R ++ q))) as HF by (intros q; rewrite <-Hf; by apply sl_add_files).
    assert (∀ q, q ∈ D ↔ shown q ∧ dir_at m0 (R ++ q)) as HD by (intros q; rewrite <-Hd; by apply sl_add_dirs).
    clearbody F D.
    assert (∀ m', underway m' → join_way w (set_fs m' w1)) as HI by (intros m' U'; split_and!; done).
    eapply symlink_tree_wp; [by eapply join_linkable|done| | |].
    - intros Y p m2 Hp _ _ _ K _ HY. apply HI. by eapply linked_delete_underway.
    - intros Y m2 K HY. apply HI. by eapply linked_underway.
    - intros Y m2 K HY. apply wp_ret.
      assert (∀ q, q ∈ Y → q ∈ D ∪ F) as HY' by (intros q; by apply HY).
      pose proof (linked_underway _ U (c_now C) F D HF HD Y m2 HY' K) as U2.
      assert (∀ q, m2 !! (R ++ q) = w_fs w !! (R ++ q)) as HR.
      { intros q. apply (li_out _ _ _ _ _ _ _ _ K). intros r _ E. apply (apart_ne L R r q (jo_apart H0)). done. }
      assert (∀ s, dir_at (w_fs w) (R ++ zielen_dir ++ [s]) → dir_at m2 (R ++ zielen_dir ++ [s])) as HRd.
      { intros s [t Ht]. exists t. rewrite node_at_app_ne in Ht |- * by done. by rewrite HR. }
      apply HQ. split; cbn [w_fs set_fs v_ldb v_rdb w1 set_vrdb set_vldb set_rscan].
      + by apply HI.
      + intros q Hq Hn. exists (c_now C). rewrite (li_in _ _ _ _ _ _ _ _ K q); [|apply HY, elem_of_union; right; by apply HF].
        unfold sl_node. rewrite decide_False; [by destruct (w_fs w !! (L ++ q))|]. intros [_ Hx]%HD.
        apply dir_at_lookup in Hx as [t Hx]; [|apply app_ne, Hq]. by rewrite Hx in Hn.
      + intros q Hq Hn. rewrite (li_in _ _ _ _ _ _ _ _ K q); [|apply HY, elem_of_union; left; by apply HD].
        unfold sl_node. rewrite decide_True by by apply HD. destruct (w_fs w !! (L ++ q)) as [n|] eqn:E; [|eauto].
        apply (uw_local _ U) in E; [|apply Hq]. destruct n as [| |k]; [done| |eauto]. destruct E as (_ & E & _).
        apply dir_at_lookup in Hn as [t Hn]; [|apply app_ne, Hq]. by rewrite Hn in E.
      + unfold exclude_dir, util_dir in *. rewrite <-app_assoc in *. by apply HRd.
      + unfold trash_dir, util_dir in *. rewrite <-app_assoc in *. by apply HRd.
      + by exists files, dirs.
  Qed.
  Lemma underway_excl m c : underway m → dir_at m (exclude_dir C) → underway (with_excl C c m) ∧ util_ok C m.
  Proof.
    intros U De.
    assert (util_ok C m) as Hu.
    { split; [done|apply H0|]. pose proof (up_file _ _ _ (uw_util _ U)) as Hf. rewrite exclude_file_app. rewrite <-!app_assoc in Hf. exact Hf. }
    split; [|done]. pose proof (with_excl_util C c _ (uw_wf _ U) Hu) as [W1 W2 W3].
    pose proof (uw_util _ U) as [V1 V2 V3].
    apply (underway_util m); [done|by apply with_excl_mounted, underway_mounted| | | |].
    - assert (∀ k, dirs_ok m k → ¬ exclude_file C `prefix_of` k → dirs_ok (with_excl C c m) k) as Hok.
      { intros k Hk Hn q Hq Hp. unfold dir_at. rewrite node_at_ne by done. assert (with_excl C c m !! q = m !! q) as ->.
        { apply lookup_insert_ne. intros <-. done. }
        destruct (Hk q Hq Hp) as [?|[t Ht]]; [by left|]. right. exists t. by rewrite node_at_ne in Ht. }
      split.
      + apply Hok; [done|]. rewrite exclude_file_app. intros Hp%prefix_app_inv%prefix_app_inv. apply prefix_length in Hp. simpl in Hp. lia.
      + apply Hok; [done|]. rewrite exclude_file_app. intros Hp%prefix_app_inv%prefix_app_inv. apply prefix_length in Hp. simpl in Hp. lia.
      + rewrite exclude_file_app in W3. rewrite <-!app_assoc. exact W3.
    - intros k Hk. by apply with_excl_other.
    - intros k n _ Hn E. unfold with_excl. by rewrite lookup_insert_ne.
    - intros k n _ Hn E. unfold with_excl. rewrite lookup_insert_ne by done. congruence.
  Qed.
  Lemma join_files_wp (w : world) (fits : bool) (Q : res unit → world → Prop) :
    underway (w_fs w) → v_rscan w = ∅ → v_ldb w = ∅ →
    (∀ w', through w w' → w_fs w' !! exclude_file C = Some (File (c_patterns C) (c_now C)) → Q (Ok tt) w') →
    wp (init_files C true fits) (join_way w) Q w.
  Proof.
    intros U Hs Hl HQ. unfold init_files. apply wp_bind. apply join_generate_wp; [done|]. intros m1 U1 D1 T1. apply wp_bind.
    eapply wp_trace_mono; [apply (setup_remote_wp (set_fs m1 w)); try done|by intros w' (A1 & A2 & A3 & A4); split_and!].
    intros w2 T. pose proof T as [(U2 & A1 & A2 & A3) F2 D2 E2 R2 (files & dirs & Hfl & Hdr & HL & HR)].
    apply add_exclude_wp; [apply U2|by apply (underway_excl _ [])| |].
    - intros i. destruct (underway_excl (w_fs w2) (take i (c_patterns C)) U2 E2) as [? _]. split_and!; done.
    - destruct (underway_excl (w_fs w2) (c_patterns C) U2 E2) as [U3 Hu].
      assert (∀ q, with_excl C (c_patterns C) (w_fs w2) !! (L ++ q) = w_fs w2 !! (L ++ q)) as HLq.
      { intros q. apply with_excl_other. apply not_util_L. }
      apply HQ; [|cbn [w_fs set_fs]; apply lookup_insert]. split; cbn [w_fs set_fs w_ldb w_rdb w_last v_ldb v_rdb].
      + split_and!; done.
      + intros q. rewrite HLq. apply F2.
      + intros q. rewrite HLq. apply D2.
      + apply with_excl_dir; [apply U2|done|done].
      + apply with_excl_dir; [apply U2|done|done].
      + by exists files, dirs.
  Qed.
End join.
