(** A sync of a clean state: what stays local is selected; stale files are
    dropped, links and directories are created and the selected files copied. *)
From Coq Require Import QArith Qcanon.
From Verif Require Export MergeUp.
From Verif Require Import ResetProofs Prop_Priority SelectProofs.
From Verif Require Export PriorityProofs.
From stdpp Require Import options.

(** One stale path. *)
Lemma drop_one_wp C p n (I : fs → Prop) (Q : res unit → fs → Prop) (m : fs) : let k := c_L C ++ p in
  wf_fs m → m !! k = Some n →
  (is_Link n = true → Q (Ok tt) m) →
  (is_Link n = false → is_Dir n = false → I (delete k m) ∧ Q (Ok tt) (delete k m)) →
  (is_Dir n = true → Q (Ok tt) m ∧ ((∀ q n, m !! q = Some n → ¬ child_of q k) → I (delete k m) ∧ Q (Ok tt) (delete k m))) →
  wp (drop_one C p) I Q m.
Proof.
  intros k Hwf Hk Hl Hf Hd. destruct (Hwf k n Hk) as (Hne & Hv & Hpar). unfold drop_one. fold k.
  apply wp_bind, wp_get. assert (islink m k = is_Link n) as ->.
  { unfold islink. rewrite (stat_lookup _ Hwf _ _ Hk). by destruct n. }
  destruct (is_Link n) eqn:El; [apply wp_ret; auto|]. apply wp_catch.
  destruct (is_Dir n) eqn:Ed.
  - unfold FS.remove. apply wp_bind, wp_eval. rewrite resolve_nofollow by done. apply wp_bind, wp_get.
    rewrite node_at_ne, Hk by done. destruct n as [| |t]; try done. apply wp_throw. cbn beta iota.
    apply wp_catch. unfold rmdir. apply wp_bind, wp_eval. rewrite resolve_nofollow by done. apply wp_bind, wp_get.
    rewrite node_at_ne, Hk by done. apply wp_bind, wp_get. destruct (Hd eq_refl) as [Hd1 Hd2].
    rewrite bool_decide_false by done. cbn [orb]. destruct (bool_decide (entries m k = [])) eqn:Ee; cbn [negb].
    + apply bool_decide_eq_true in Ee. destruct Hd2 as [H1 H2]; [|by apply wp_put].
      intros q n Hq [x ->]. apply elem_of_entries in Hq. rewrite Ee in Hq. by apply elem_of_nil in Hq.
    + apply wp_throw. cbn beta iota. cbn [is_oserror]. by apply wp_ret.
  - destruct (Hf eq_refl eq_refl). by eapply remove_wp.
Qed.

(** Sums. *)
Lemma set_sum_mono (f : path → Z) (A B : pset) : (∀ q, 0 <= f q)%Z → A ⊆ B → (set_sum f A <= set_sum f B)%Z.
Proof.
  intros Hf HA. rewrite (union_difference_L A B HA), set_sum_union by set_solver.
  enough (0 <= set_sum f (B ∖ A))%Z by lia. unfold set_sum. induction (elements (B ∖ A)) as [|q l IH]; cbn; [lia|]. specialize (Hf q). unfold zsum in IH. lia.
Qed.
Lemma set_sum_cover (f : path → Z) (U : path → pset) (D A E : pset) : (∀ q, 0 <= f q)%Z →
  (∀ q, q ∈ A → q ∈ E ∨ ∃ d, d ∈ D ∧ q ∈ U d) → (set_sum f A <= set_sum (λ d, set_sum f (U d)) D + set_sum f E)%Z.
Proof.
  intros Hf. revert A. induction D as [|d D Hd IH] using set_ind_L; intros A HA.
  - rewrite set_sum_empty. apply (set_sum_mono f A E Hf). intros q Hq. destruct (HA q Hq) as [?|(d & Hd & _)]; [done|by apply elem_of_empty in Hd].
  - rewrite set_sum_union, set_sum_singleton by set_solver. specialize (IH (A ∖ U d)).
    assert (set_sum f A <= set_sum f (U d) + set_sum f (A ∖ U d))%Z as Hle.
    { assert (A = (A ∩ U d) ∪ (A ∖ U d)) as EA. { apply set_eq. intros q. destruct (decide (q ∈ U d)); set_solver. }
      rewrite EA at 1. rewrite set_sum_union by set_solver. pose proof (set_sum_mono f (A ∩ U d) (U d) Hf ltac:(set_solver)). lia. }
    assert (set_sum f (A ∖ U d) <= set_sum (λ d, set_sum f (U d)) D + set_sum f E)%Z; [|lia].
    apply IH. intros q [Hq Hn]%elem_of_difference. destruct (HA q Hq) as [?|(e & [->%elem_of_singleton|He]%elem_of_union & Hqe)]; [by left|done|right; eauto].
Qed.

Section sync.
  Set Default Proof Using "Type*".
  Context (C : conf) (w : world) (last : Z) (X : pset).
  Local Notation m := (w_fs w).
  Local Notation ldb := (w_ldb w).
  Local Notation rdb := (w_rdb w).
  Context (H : clean_x C m ldb rdb last X).
  Context (Hit : ∀ l, c_iter C l ≡ₚ l) (Hrows : ∀ l, c_rows C l ≡ₚ l).
  Context (Hvl : v_ldb w = ldb) (Hvr : v_rdb w = rdb) (Hfresh : FMProofs.fresh w) (Hlast : w_last w = Some last).
  Context (w0 : world) (row : path → ldata → Prop) (Hsf : stands_for C w X w0 row).
  Local Notation L := (c_L C).
  Local Notation R := (c_R C).
  Local Notation l_at := (l_at C m).
  Local Notation r_at := (r_at C m).
  Local Notation known := (known ldb).
  Local Notation stray := (stray C m ldb X).
  Local Notation merged := (merged C m ldb last X).
  Local Notation new_l := (new_l C m ldb X).
  Local Notation gone_l := (gone_l C m ldb).
  Local Notation gone_r := (gone_r C m ldb).
  Local Notation edited_l := (edited_l C m ldb last).
  Local Notation edited_r := (edited_r C m ldb rdb last).
  Local Notation trashed := (trashed C m ldb).
  Local Notation m1 := (with_excl C (c_patterns C) m).
  Local Notation intact := (intact C w last X).
  Local Notation tsafe := (tsafe C w).
  Local Notation tsafe_r := (tsafe_r C w last X H Hit Hrows Hvl Hvr Hfresh Hlast).
  Local Notation tin := (tin C w).
  Local Notation to_trash := (to_trash C w).
  Local Notation stored := (stored w0).
  Local Notation seen := (seen C w0 X).
  Local Notation utl := (utl C w).
  Local Notation less := (less C w).
  Local Notation lessing := (lessing C w).
  Local Notation act := (act C w last X w0).
  Local Notation kind := (kind C w last X).
  Local Notation HR0 := (HR0 C w last X H Hit Hrows Hvl Hvr Hfresh Hlast).
  Local Notation HL0 := (HL0 C w last X H Hit Hrows Hvl Hvr Hfresh Hlast).
  Local Notation LR_ne := (LR_ne C w last X H Hit Hrows Hvl Hvr Hfresh Hlast).
  Local Notation util_not_L := (util_not_L C w last X H Hit Hrows Hvl Hvr Hfresh Hlast).
  Local Notation util_not_R := (util_not_R C w last X H Hit Hrows Hvl Hvr Hfresh Hlast).
  Local Notation util_out := (util_out C w last X H Hit Hrows Hvl Hvr Hfresh Hlast).
  Local Notation m1_less := (m1_less C w last X H Hit Hrows Hvl Hvr Hfresh Hlast).
  Local Notation m1_other := (m1_other C w last X H Hit Hrows Hvl Hvr Hfresh Hlast).
  Local Notation less_lessing := (less_lessing C w last X H Hit Hrows Hvl Hvr Hfresh Hlast).
  Local Notation lkind := (lkind row).
  Local Notation kind_over := (kind_over C w last X H Hit Hrows Hvl Hvr Hfresh Hlast).
  Local Notation kind_merged := (kind_merged C w last X H Hit Hrows Hvl Hvr Hfresh Hlast).
  Local Notation kind_ldb := (kind_ldb C w last X H Hit Hrows Hvl Hvr Hfresh Hlast).
  Local Notation tsame_utl := (tsame_utl C w last X H Hit Hrows Hvl Hvr Hfresh Hlast).
  Local Notation L_out := (L_out C w last X H Hit Hrows Hvl Hvr Hfresh Hlast).
  Local Notation R_out := (R_out C w last X H Hit Hrows Hvl Hvr Hfresh Hlast).
  Local Notation out_dir := (out_dir C w last X H Hit Hrows Hvl Hvr Hfresh Hlast).
  Local Notation iter_elem := (iter_elem C w last X H Hit Hrows Hvl Hvr Hfresh Hlast).
  Local Notation below_not_both := (below_not_both C w last X H Hit Hrows Hvl Hvr Hfresh Hlast).
  Local Notation util_below := (util_below C w last X H Hit Hrows Hvl Hvr Hfresh Hlast).
  Local Notation excluded_seen := (excluded_seen C w last X H Hit Hrows Hvl Hvr Hfresh Hlast w0 row Hsf).
  Local Notation top_gone_l := (top_gone_l C w last X H Hit Hrows Hvl Hvr Hfresh Hlast).
  Local Notation top_gone_r := (top_gone_r C w last X H Hit Hrows Hvl Hvr Hfresh Hlast).
  Local Notation stray_not_gone := (stray_not_gone C w last X H Hit Hrows Hvl Hvr Hfresh Hlast).
  Local Notation ltree_m1 := (ltree_m1 C w last X H Hit Hrows Hvl Hvr Hfresh Hlast).
  Local Notation rtree_m1 := (rtree_m1 C w last X H Hit Hrows Hvl Hvr Hfresh Hlast).
  Local Notation not_under_util := (not_under_util C w last X H Hit Hrows Hvl Hvr Hfresh Hlast).
  Local Notation tsame := (tsame C w).
  Local Notation K2 := (K2 C w last X).
  Local Notation km := (km C w last X).
  Local Notation remote_scan_seen := (remote_scan_seen C w last X H Hit Hrows Hvl Hvr Hfresh Hlast w0 row Hsf).
  Local Notation update_remote_wp := (update_remote_wp C w last X H Hit Hrows Hvl Hvr Hfresh Hlast w0 row Hsf).
  Local Notation utl_same := (utl_same C w last X H Hit Hrows Hvl Hvr Hfresh Hlast w0 row Hsf).
  Local Notation rsent := (rsent C w last X).
  Local Notation tin_file := (tin_file C w last X H Hit Hrows Hvl Hvr Hfresh Hlast w0 row Hsf).
  Local Notation tin_same := (tin_same C w last X H Hit Hrows Hvl Hvr Hfresh Hlast w0 row Hsf).
  Local Notation sent := (sent C w last X).

  (** ** The selection *)
  (** After the remote directory has been scanned again. *)
  Definition seen' (w' : world) : Prop := v_lscan w' = tree m L ∧ v_excl w' = Some X.
  Lemma sent_l m' q : sent m' → q ≠ [] → m' !! (L ++ q) = l_at q ∨ (m' !! (L ++ q) = None ∧ gone_r q).
  Proof.
    intros Hs Hq. destruct (sn_l _ _ _ _ _ Hs q Hq) as [E1 E2]. destruct (decide (gone_r q)); [right; split; [by apply E1|done]|left; by apply E2].
  Qed.
  Lemma sent_local_scan m' w' : sent m' → w_fs w' = m' → v_lscan w' = tree m L → local_scan C true w' = ([], w', Ok (tree m L)).
  Proof.
    intros Hs <- El. unfold local_scan, bind, get, eval, mut, ret. rewrite El.
    destruct (true && _) eqn:E; [done|]. apply andb_false_iff in E as [E|E]; [done|]. apply negb_false_iff, bool_decide_eq_true in E.
    assert (tree (w_fs w') L = ∅) as E'.
    { apply map_empty. intros q. destruct (tree (w_fs w') L !! q) as [n|] eqn:En; [|done]. apply tree_lookup in En as [Hq En].
      destruct (sent_l _ q Hs Hq) as [E'|[E' _]]; rewrite En in E'; [|done]. by rewrite l_at_tree, E in E'. }
    rewrite scan_dir_tree, E', E; [|apply (sn_wf _ _ _ _ _ Hs)|eapply out_dir; [apply (sn_out _ _ _ _ _ Hs)|by left]].
    rewrite E in El. by rewrite <-El, set_lscan_id.
  Qed.
  Lemma excluded_size_wp (Q : res Z → world → Prop) w' :
    sent (w_fs w') → seen w' → Q (Ok (set_sum (λ p, default 0%Z (c_blocks C p <$> l_at p)) X)) w' → wp (excluded_size C) act Q w'.
  Proof.
    intros Hs Hse HQ. unfold excluded_size. apply wp_bind. eapply wp_run; [by apply excluded_seen|done|]. cbn beta iota.
    apply wp_bind. eapply wp_run; [eapply sent_local_scan; [exact Hs|done|rewrite <-(sf_lscan _ _ _ _ _ Hsf); apply Hse]|done|]. cbn beta iota. apply wp_eval.
    assert (Hall : ∀ p, p ∈ elements X → is_Some (tree m L !! p)).
    { intros p Hp%elem_of_elements. rewrite <-l_at_tree. by apply (cl_excluded_x _ _ _ _ _ _ H). }
    assert (sum_res (map (lookup_blocks C (w_fs w') (tree m L)) (elements X)) = Ok (set_sum (λ p, default 0%Z (c_blocks C p <$> l_at p)) X)) as ->; [|done].
    unfold set_sum. clear -Hall. induction (elements X) as [|p l IH]; cbn [map sum_res zsum foldr]; [done|].
    unfold lookup_blocks at 1. rewrite l_at_tree. destruct (Hall p (elem_of_list_here _ _)) as [n ->].
    rewrite IH; [done|]. intros q Hq. apply Hall. by right.
  Qed.
  Lemma excluded_remote p : p ∈ X ∩ dom (hide_util (tree (with_excl C (c_patterns C) (w_fs w0)) R)) ↔ p ∈ X ∧ known p.
  Proof.
    rewrite elem_of_intersection, elem_of_dom. split; intros [Hp Hn]; (split; [done|]).
    - destruct Hn as [n Hn]. apply hide_util_lookup in Hn as [[Hp0 Hn]%tree_lookup Hz]. rewrite with_excl_other in Hn by by apply util_not_R.
      apply (sf_excl_r _ _ _ _ _ Hsf p Hp). rewrite r_at_ne by done. by eexists.
    - apply (sf_excl_r _ _ _ _ _ Hsf p Hp) in Hn as [n Hn]. unfold Merge.r_at in Hn. case_decide as Hd; [done|]. assert (p ≠ [] ∧ ¬ zielen_dir `prefix_of` p) as [Hp0 Hz] by tauto.
      exists n. rewrite hide_util_lookup, tree_lookup. split; [split; [done|]|done]. by rewrite with_excl_other by by apply util_not_R.
  Qed.
  Lemma sent_r m' p n : sent m' → merged p = Some n → ∃ n', m' !! (R ++ p) = Some n' ∧ is_Dir n' = is_Dir n ∧ (is_Dir n = false → n' = n).
  Proof.
    intros Hs Hm. destruct (merged_ours _ _ _ _ _ _ H _ _ Hm) as (Hp & _ & Hz). pose proof (sn_r _ _ _ _ _ Hs p Hp Hz) as Hl.
    rewrite Hm in Hl. destruct (m' !! (R ++ p)) as [n'|]; [|by destruct n]. exists n'. split; [done|].
    destruct n', n; simplify_eq/=; naive_solver.
  Qed.
  Lemma mapM_total {A B} (f : A → option B) l : (∀ x, x ∈ l → is_Some (f x)) → is_Some (mapM f l).
  Proof using Type. intros Hx. apply mapM_is_Some. by apply Forall_forall. Qed.
  Definition covered (S : pset) (q : path) : Prop := ∃ r, r ∈ S ∧ r `prefix_of` q.
  (** What is selected fits: the files, and one block for every other file. *)
  Definition fits (m6 : fs) (S : pset) (limit : Z) : Prop :=
    S ≠ ∅ → (∀ p n, 0 <= c_blocks C p n)%Z → ∀ F G : pset,
    (∀ q, q ∈ F ↔ km q = Some false ∧ covered S q) → (∀ q, q ∈ G ↔ km q = Some false ∧ ¬ covered S q) →
    (set_sum (λ q, default 0 (c_blocks C q <$> m6 !! (R ++ q))) F + Z.of_nat (size G) * c_block C <= limit)%Z.
  (** If everything fits, then everything is selected. *)
  Definition roomy (m6 : fs) (S : pset) (limit : Z) : Prop :=
    (∀ p n, 0 <= c_blocks C p n)%Z → ∀ K : pset, (∀ q, q ∈ K ↔ is_Some (km q)) →
    (set_sum (λ q, Z.max (default 0 (c_blocks C q <$> m6 !! (R ++ q))) (c_block C)) K < limit)%Z →
    ∀ q, km q = Some false → covered S q.
  (** A selected file is smaller than those of higher priority that are not. *)
  Definition ranked (S : pset) (db : lmap) : Prop :=
    (∀ q c t, merged q = Some (File c t) → c_block C <= c_blocks C q (File c t))%Z →
    ∀ p q x y c t c' t', merged p = Some (File c t) → merged q = Some (File c' t') → ¬ covered S p → q ∈ S →
    db !! p = Some x → db !! q = Some y →
    (adj (c_account C) (ld_prio y) (c_blocks C q (File c' t')) < adj (c_account C) (ld_prio x) (c_blocks C p (File c t)))%Qc →
    (c_blocks C q (File c' t') < c_blocks C p (File c t))%Z.
  Lemma file_leaf q c t r : merged q = Some (File c t) → is_Some (merged r) → q `prefix_of` r → q = r.
  Proof.
    intros Hq [n Hr] Hp. destruct (decide (q = r)) as [|Hne]; [done|].
    assert (q ≠ []) as Hq0 by (by destruct (merged_ours _ _ _ _ _ _ H _ _ Hq)).
    destruct (merged_anc _ _ _ _ _ _ H r q n Hr Hp Hne Hq0) as [t' E]. congruence.
  Qed.
  Lemma km_file q : km q = Some false ↔ ∃ c t, merged q = Some (File c t).
  Proof.
    unfold MergeCut.km. split; [|by intros (c & t & ->)]. intros (n & Hn & Hd)%fmap_Some.
    destruct n as [c t|t k|t]; [eauto|by apply (merged_no_link _ _ _ _ _ _ H) in Hn|done].
  Qed.
  Lemma select_fits (m6 : fs) (db : lmap) (rdb' : rmap) (limit rem : Z) (s1 s2 : pset) : let rs := hide_util (tree m6 R) in
    (∀ p, ld_dir <$> db !! p = km p) → (∀ p, rd_dir <$> rdb' !! p = km p) →
    select (c_account C) (c_block C) (c_limit C) (c_limit C - limit) (blocks_of C rs) (blocks_of C (no_dirs rs)) db rdb' (c_rows C) = Some (rem, s1, s2) →
    sent m6 → fits m6 (s1 ∪ s2) limit.
  Proof.
    intros rs Hdb Hrdb Hsel Hs Hne Hnn F G HF HG.
    pose proof (C29_storage_limit _ _ _ _ _ _ _ _ _ _ _ _ Hrows Hsel) as [_ Hlim]. specialize (Hlim Hne).
    pose proof (C32_directories_whole _ _ _ _ _ _ _ _ _ _ _ _ Hrows Hsel) as (_ & Hdirs & Hfiles).
    set (f := λ q, default 0%Z (c_blocks C q <$> m6 !! (R ++ q))) in *.
    assert (Hf : ∀ q, (0 <= f q)%Z). { intros q. unfold f. destruct (m6 !! (R ++ q)); cbn; [apply Hnn|lia]. }
    assert (Hrs : ∀ q n, merged q = Some n → rs !! q = m6 !! (R ++ q)).
    { intros q n Hm. destruct (sent_r _ _ _ Hs Hm) as (n' & E & _). destruct (merged_ours _ _ _ _ _ _ H _ _ Hm) as (Hp & _ & Hz).
      rewrite E. unfold rs. by rewrite hide_util_lookup, tree_lookup. }
    assert (Hfile : ∀ q, q ∈ s2 → ∃ c t, merged q = Some (File c t)).
    { intros q (( x & Hx & Hd) & _)%Hfiles. apply km_file. by rewrite <-Hdb, Hx, <-Hd. }
    assert (links db s1 s2 = G) as EG.
    { apply set_eq. intros q. rewrite HG. unfold links. rewrite elem_of_filter, elem_of_dom. split.
      - intros [[Hn Hall] [x [Hx Hd]%map_filter_lookup_Some]]. cbn in Hd. split; [by rewrite <-Hdb, Hx, <-Hd|].
        intros (r & [Hr|Hr]%elem_of_union & Hp).
        + rewrite Forall_forall in Hall. by apply (Hall r); [apply elem_of_elements|].
        + destruct (Hfile r Hr) as (c & t & Hm). assert (r = q) as ->; [|done]. eapply file_leaf; [exact Hm| |done].
          pose proof (Hdb q) as E. rewrite Hx in E. unfold MergeCut.km in E. destruct (merged q); [by eexists|done].
      - intros [Hk Hc]. pose proof (Hdb q) as E. rewrite Hk in E. apply fmap_Some in E as (x & Hx & Hd). split; [split|].
        + intros Hq. apply Hc. exists q. split; [set_solver|done].
        + apply Forall_forall. intros d Hd'%elem_of_elements Hp. apply Hc. exists d. split; [set_solver|done].
        + exists x. apply map_filter_lookup_Some. by split. }
    rewrite EG in Hlim.
    assert (set_sum (λ q, default 0%Z (blocks_of C (no_dirs rs) q)) s2 = set_sum f s2) as E2.
    { apply set_sum_ext. intros q Hq. destruct (Hfile q Hq) as (c & t & Hm). unfold f, blocks_of. destruct (sent_r _ _ _ Hs Hm) as (n' & E & Ed & _).
      assert (no_dirs rs !! q = Some n') as ->; [|by rewrite E]. unfold no_dirs. apply map_filter_lookup_Some. split; [by rewrite (Hrs q _ Hm)|]. cbn in *. congruence. }
    rewrite E2 in Hlim.
    assert (set_sum f F <= set_sum (λ d, set_sum f (filter (λ q, d `prefix_of` q) (dom rdb'))) s1 + set_sum f s2)%Z as Hcov.
    { apply set_sum_cover; [done|]. intros q [Hk (r & [Hr|Hr]%elem_of_union & Hp)]%HF.
      - right. exists r. split; [done|]. apply elem_of_filter. split; [done|]. apply elem_of_dom. pose proof (Hrdb q) as E. rewrite Hk in E.
        apply fmap_Some in E as (x & Hx & _). by eexists.
      - left. destruct (Hfile r Hr) as (c & t & Hm). assert (r = q) as <-; [|done]. eapply file_leaf; [exact Hm| |done].
        apply km_file in Hk as (? & ? & ->). by eexists. }
    assert (set_sum (usage (blocks_of C rs) rdb') s1 = set_sum (λ d, set_sum f (filter (λ q, d `prefix_of` q) (dom rdb'))) s1) as E1.
    { apply set_sum_ext. intros d _. unfold usage. apply set_sum_ext. intros q [_ [x Hx]%elem_of_dom]%elem_of_filter. pose proof (Hrdb q) as E.
      rewrite Hx in E. unfold MergeCut.km in E. destruct (merged q) as [n|] eqn:Hm; [|done]. unfold f, blocks_of. by rewrite (Hrs q n Hm). }
    rewrite E1 in Hlim. lia.
  Qed.
  Lemma select_best (m6 : fs) (db : lmap) (rdb' : rmap) (limit rem : Z) (s1 s2 : pset) : let rs := hide_util (tree m6 R) in
    (∀ p, ld_dir <$> db !! p = km p) → (∀ p, rd_dir <$> rdb' !! p = km p) →
    select (c_account C) (c_block C) (c_limit C) (c_limit C - limit) (blocks_of C rs) (blocks_of C (no_dirs rs)) db rdb' (c_rows C) = Some (rem, s1, s2) →
    sent m6 → roomy m6 (s1 ∪ s2) limit ∧ ranked (s1 ∪ s2) db.
  Proof.
    intros rs Hdb Hrdb Hsel Hs.
    pose proof (C32_directories_whole _ _ _ _ _ _ _ _ _ _ _ _ Hrows Hsel) as (_ & Hdirs & Hfiles).
    assert (Hrs : ∀ q n, merged q = Some n → rs !! q = m6 !! (R ++ q)).
    { intros q n Hm. destruct (sent_r _ _ _ Hs Hm) as (n' & E & _). destruct (merged_ours _ _ _ _ _ _ H _ _ Hm) as (Hp & _ & Hz).
      rewrite E. unfold rs. by rewrite hide_util_lookup, tree_lookup. }
    assert (Hd : ∀ q b, ld_dir <$> db !! q = Some b → ∃ n, merged q = Some n ∧ is_Dir n = b).
    { intros q b E. rewrite Hdb in E. unfold MergeCut.km in E. by apply fmap_Some in E as (n & Hn & ->); eauto. }
    assert (Hsz : ∀ p x, db !! p = Some x → ld_dir x = false → blocks_of C (no_dirs rs) p = blocks_of C rs p).
    { intros p x Hx Hdx. destruct (Hd p false) as (n & Hn & En); [by rewrite Hx, <-Hdx|]. destruct (sent_r _ _ _ Hs Hn) as (n' & E & Ed & _).
      pose proof (Hrs p n Hn) as E'. rewrite E in E'. unfold blocks_of. rewrite E'. assert (no_dirs rs !! p = Some n') as ->; [|done].
      unfold no_dirs. apply map_filter_lookup_Some. split; [done|]. cbn. congruence. }
    assert (Hfl : ∀ q c t, merged q = Some (File c t) → default 0%Z (blocks_of C rs q) = c_blocks C q (File c t)).
    { intros q c t Hm. unfold blocks_of. rewrite (Hrs q _ Hm). destruct (sent_r _ _ _ Hs Hm) as (n' & -> & _ & Hn). by rewrite Hn. }
    split.
    - intros Hnn K HK Hlt q Hq. pose proof (Hdb q) as Eq. rewrite Hq in Eq. apply fmap_Some in Eq as (x & Hx & Hdx).
      assert (dom db = K) as EK.
      { apply set_eq. intros p. rewrite elem_of_dom, HK, <-Hdb. destruct (db !! p); cbn; split; intros [? ?]; try done; by eexists. }
      destruct (select_room _ _ _ _ _ _ _ _ _ Hrows _ _ _ Hsel Hsz) with (p := q) (x := x) as [Hin|(d & Hin & Hp)]; [| | |done|done|..].
      + intros p. unfold blocks_of. destruct (rs !! p); cbn; [apply Hnn|lia].
      + apply set_eq. intros p. rewrite !elem_of_dom. pose proof (Hdb p) as E1. pose proof (Hrdb p) as E2. rewrite <-E1 in E2.
        destruct (db !! p), (rdb' !! p); try done; split; intros [? ?]; try done; by eexists.
      + rewrite EK. enough (set_sum (λ p, Z.max (default 0%Z (blocks_of C rs p)) (c_block C)) K
          = set_sum (λ q, Z.max (default 0%Z (c_blocks C q <$> m6 !! (R ++ q))) (c_block C)) K) as E by (rewrite E; lia).
        apply set_sum_ext. intros p Hp%HK. unfold MergeCut.km in Hp. destruct (merged p) as [n|] eqn:En; [|by destruct Hp]. unfold blocks_of. by rewrite (Hrs p n En).
      + exists q. split; [set_solver|done].
      + exists d. split; [set_solver|done].
    - intros HS p q x y c t c' t' Hp Hq Hnc Hin Hx Hy Hlt.
      assert (Hfd : ∀ p c t x, merged p = Some (File c t) → db !! p = Some x → ld_dir x = false).
      { intros p0 c0 t0 x0 Hm Hx0. pose proof (Hdb p0) as E. rewrite Hx0 in E. unfold MergeCut.km in E. rewrite Hm in E. by injection E. }
      rewrite <-(Hfl p c t Hp), <-(Hfl q c' t' Hq) in *.
      apply (select_rank _ _ _ _ _ _ _ _ _ Hrows _ _ _ Hsel Hsz) with (p := p) (q := q) (x := x) (y := y); [|done|exact (Hfd _ _ _ _ Hp Hx)|..|done| |done].
      + intros r z Hz Hdz. destruct (Hd r false) as (n & Hn & En); [by rewrite Hz, <-Hdz|]. assert (∃ c t, merged r = Some (File c t)) as (c0 & t0 & Hr).
        { apply km_file. unfold MergeCut.km. by rewrite Hn, <-En. }
        rewrite (Hfl r c0 t0 Hr). by apply HS.
      + intros Hp2. apply Hnc. exists p. split; [set_solver|done].
      + intros d Hd1 Hdp. apply Hnc. exists d. split; [set_solver|done].
      + apply elem_of_union in Hin as [Hin|]; [|done]. apply Hdirs in Hin as (_ & z & Hz & Hdz). rewrite Hy in Hz. injection Hz as <-.
        rewrite (Hfd _ _ _ _ Hq Hy) in Hdz. done.
  Qed.
  Lemma prioritize_wp (Q : res (pset * pset) → world → Prop) w' limit :
    sent (w_fs w') → stored w' → seen w' → lkind km w' → rsent w' →
    (∀ w'' s1 s2, w_fs w'' = w_fs w' → stored w'' → seen' w'' → lkind km w'' → rsent w'' →
      (∀ p, p ∈ s1 ∪ s2 → is_Some (merged p)) → fits (w_fs w') (s1 ∪ s2) limit →
      v_ldb w'' = v_ldb w' → roomy (w_fs w') (s1 ∪ s2) limit → ranked (s1 ∪ s2) (v_ldb w') → Q (Ok (s1, s2)) w'') →
    wp (prioritize C limit) act Q w'.
  Proof.
    intros Hs Hst Hse Hlk0 Hrk HQ. pose proof (proj1 Hlk0) as Hlk. unfold prioritize.
    assert (Hscan : ∀ w1, w_fs w1 = w_fs w' → remote_scan C false w1 = ([], set_rscan (tree (w_fs w') R) w1, Ok (hide_util (tree (w_fs w') R)))).
    { intros w1 E. unfold remote_scan, bind, get, eval, mut, ret. cbn [andb]. rewrite E.
      by rewrite scan_dir_tree; [|apply (sn_wf _ _ _ _ _ Hs)|eapply out_dir; [apply (sn_out _ _ _ _ _ Hs)|by right]]. }
    assert (Hsome : ∀ p n, merged p = Some n → ∃ n', hide_util (tree (w_fs w') R) !! p = Some n' ∧ is_Dir n' = is_Dir n).
    { intros p n Hm. destruct (sent_r _ _ _ Hs Hm) as (n' & E & Ed & _). destruct (merged_ours _ _ _ _ _ _ H _ _ Hm) as (Hp & _ & Hz).
      exists n'. rewrite hide_util_lookup, tree_lookup. done. }
    assert (Hlm : ∀ p d, v_ldb w' !! p = Some d → ∃ n, merged p = Some n ∧ is_Dir n = ld_dir d).
    { intros p d Hd. pose proof (Hlk p) as E. rewrite Hd in E. unfold MergeCut.km in E. destruct (merged p) as [n|]; [|done]. injection E as E. eauto. }
    assert (Hrm : ∀ p d, v_rdb w' !! p = Some d → ∃ n, merged p = Some n).
    { intros p d Hd. pose proof (proj1 Hrk p) as E. rewrite Hd in E. unfold MergeCut.km in E. destruct (merged p) as [n|]; [|done]. eauto. }
    apply wp_bind. eapply wp_run; [by apply Hscan|done|]. cbn beta iota. apply wp_bind, wp_eval.
    cbn [v_ldb v_rdb set_rscan].
    destruct (prioritize_dirs _ _ _ _ _ _ _ _) as [[rem dirs]|] eqn:Ed.
    2:{ exfalso. unfold prioritize_dirs in Ed. match type of Ed with (mapM ?f ?l ≫= _) = _ => destruct (mapM_total f l) as [rs Ers] end; [|by rewrite Ers in Ed].
        intros [p d] Hp. rewrite Hrows in Hp. unfold mk_drow, dir_size. cbn [fst snd].
        match goal with |- context [mapM ?f ?l] => destruct (mapM_total f l) as [zs Ezs] end; [|rewrite Ezs; by eexists].
        intros q Hq. unfold sr_get in Hq. apply elem_of_elements, dom_s_query in Hq as (d' & Hd' & _).
        destruct (Hrm _ _ Hd') as [n Hn]. destruct (Hsome _ _ Hn) as (n' & En' & _). unfold blocks_of. rewrite En'. by eexists. }
    destruct (prioritize_dirs_inv _ _ _ _ _ _ _ _ _ _ Hrows Ed) as (st & rs & Hinv & Er1 & Er2 & _).
    apply wp_bind. eapply wp_run; [by apply Hscan|done|]. cbn beta iota. apply wp_bind, wp_eval. cbn [v_ldb v_rdb set_rscan fst snd].
    unfold prioritize_files.
    match goal with |- context [mapM ?f ?l] => set (ff := f); set (ll := l) end.
    assert (Hll : ∀ p d, (p, d) ∈ ll → ∃ n, merged p = Some n ∧ is_Dir n = false).
    { intros p d Hp. unfold ll in Hp. apply elem_of_list_In, filter_In in Hp as [Hp _]. apply elem_of_list_In in Hp. rewrite Hrows in Hp.
      apply elem_of_map_to_list, sl_get_lookup in Hp as (Hd & Hb & _). destruct (Hlm _ _ Hd) as (n & Hn & En). exists n. split; [done|]. rewrite En. by apply Hb. }
    destruct (mapM_total ff ll) as [rs' Ers].
    { intros [p d] Hp. destruct (Hll _ _ Hp) as (n & Hn & Hd). destruct (Hsome _ _ Hn) as (n' & En' & Ed').
      unfold ff, mk_row, blocks_of. cbn [fst]. assert (no_dirs (hide_util (tree (w_fs w') R)) !! p = Some n') as ->; [|by eexists].
      unfold no_dirs. apply map_filter_lookup_Some. split; [done|]. cbn. congruence. }
    rewrite Ers. cbn [mbind option_bind]. apply wp_ret. cbn [fst snd].
    destruct (foldl (pick_file (c_block C)) (rem, ∅) (rank rs')) as [rem' s2] eqn:Efold.
    assert (Hsl : select (c_account C) (c_block C) (c_limit C) (c_limit C - limit) (blocks_of C (hide_util (tree (w_fs w') R)))
      (blocks_of C (no_dirs (hide_util (tree (w_fs w') R)))) (v_ldb w') (v_rdb w') (c_rows C) = Some (rem', dirs, s2)).
    { unfold select. replace (c_limit C - (c_limit C - limit))%Z with limit by lia. rewrite Ed. cbn [mbind option_bind].
      unfold prioritize_files. fold ff ll. rewrite Ers. cbn [mbind option_bind]. by rewrite Efold. }
    apply HQ.
    - done.
    - done.
    - split; [rewrite <-(sf_lscan _ _ _ _ _ Hsf)|]; apply Hse.
    - done.
    - done.
    - intros p [Hp|Hp]%elem_of_union.
      + rewrite Er2 in Hp. apply (di_dir _ _ _ _ _ _ _ Hinv) in Hp as (d & Hd & _). destruct (Hlm _ _ Hd) as (n & Hn & _). by eexists.
      + change s2 with (rem', s2).2 in Hp. rewrite <-Efold in Hp. apply pick_file_new in Hp as [Hp|Hp]; [by apply elem_of_empty in Hp|].
        apply elem_of_list_fmap in Hp as (r & -> & Hr). rewrite rank_perm in Hr.
        apply (mapM_elem _ _ _ Ers) in Hr as ([p d] & Hpd & Er). destruct (Hll _ _ Hpd) as (n & Hn & _).
        unfold ff, mk_row in Er. cbn [fst] in Er. destruct (blocks_of _ _ p); [|done]. injection Er as <-. by eexists.
    - by apply (select_fits _ (v_ldb w') (v_rdb w') limit rem'); [|apply (proj1 Hrk)|..].
    - done.
    - by apply (select_best _ (v_ldb w') (v_rdb w') limit rem'); [|apply (proj1 Hrk)|..].
    - by apply (select_best (w_fs w') (v_ldb w') (v_rdb w') limit rem'); [|apply (proj1 Hrk)|..].
  Qed.

  (** ** The local directory *)
  Section down.
    Context (m6 : fs) (Hs : sent m6) (S : pset) (HS : ∀ p, p ∈ S → is_Some (merged p)) (HSx : ∀ p, p ∈ X → known p → p ∈ S).
    (** What can stand in the local directory on the way. *)
    Record mixed (m' : fs) : Prop := {
      mx_wf : wf_fs m';
      mx_out : ∀ k, ¬ below k L → m' !! k = m6 !! k;
      mx_none : ∀ q, q ≠ [] → merged q = None → m' !! (L ++ q) = m6 !! (L ++ q);
      mx_dir : ∀ q t, merged q = Some (Dir t) → m' !! (L ++ q) = None ∨ ∃ t, m' !! (L ++ q) = Some (Dir t);
      mx_file : ∀ q c t, merged q = Some (File c t) →
        m' !! (L ++ q) = None ∨ (∃ c t, m' !! (L ++ q) = Some (File c t)) ∨ ∃ k, m' !! (L ++ q) = Some (Link (abs_path (R ++ q)) k)
    }.
    Lemma mixed_sent : mixed m6.
    Proof.
      split; [apply (sn_wf _ _ _ _ _ Hs)|done|done|..].
      - intros q t Hm. destruct (merged_ours _ _ _ _ _ _ H _ _ Hm) as (Hq & _). destruct (sent_l _ q Hs Hq) as [E|[E _]]; [|by left].
        rewrite E. destruct (l_at q) as [n|] eqn:El; [|by left]. right. pose proof (merged_kind_l _ _ _ _ _ _ H _ _ _ Hm El). destruct n; try done. eauto.
      - intros q c t Hm. destruct (merged_ours _ _ _ _ _ _ H _ _ Hm) as (Hq & _). destruct (sent_l _ q Hs Hq) as [E|[E _]]; [|by left].
        rewrite E. destruct (l_at q) as [n|] eqn:El; [|by left]. right. pose proof (merged_kind_l _ _ _ _ _ _ H _ _ _ Hm El) as Ek.
        destruct n as [c' t'|t' k|]; [left; eauto|right|done]. destruct (cl_link_l _ _ _ _ _ _ H _ _ _ El) as [[_ ->]|Hst]; [eauto|].
        by rewrite (merged_not_stray _ _ _ _ _ _ H) in Hm.
    Qed.
    Lemma below_intact m' : (∀ k, ¬ below k L → m' !! k = m6 !! k) → (∀ q, stray q → m' !! (L ++ q) = m6 !! (L ++ q)) → intact m'.
    Proof.
      intros Ho Hst. split.
      - intros k Hk Hk'. rewrite Ho by done. by apply (sn_out _ _ _ _ _ Hs).
      - intros p Hp. rewrite Hst by done. apply (sn_l _ _ _ _ _ Hs); [|by apply stray_not_gone]. destruct Hp as ([n Hn] & _). by apply l_at_some in Hn as [? _].
      - intros p c t Hm. left. rewrite Ho. 
        + destruct (sent_r _ _ _ Hs Hm) as (n' & E & _ & Hn). rewrite E. f_equal. by apply Hn.
        + destruct (merged_ours _ _ _ _ _ _ H _ _ Hm) as (Hq & _). intros Hb. eapply below_not_both; [exact Hb|]. by apply below_app_ne.
      - intros _ p x s c t Hp Hx E. right. destruct (tin_file _ (sn_trash _ _ _ _ _ Hs) p x s c t Hp Hx E) as [t' Ht']. exists t'.
        rewrite Ho; [done|]. intros Hb. eapply below_not_both; [exact Hb|]. unfold trash_dir, util_dir. rewrite <-!app_assoc. by apply below_app_ne.
    Qed.
    Lemma stray_ne q : stray q → q ≠ [].
    Proof. intros ([n Hn] & _). by apply l_at_some in Hn as [? _]. Qed.
    Lemma mixed_intact m' : mixed m' → intact m'.
    Proof.
      intros Hm. apply below_intact; [apply (mx_out _ Hm)|]. intros q Hq. apply (mx_none _ Hm); [by apply stray_ne|].
      by apply (merged_not_stray _ _ _ _ _ _ H).
    Qed.
    (** The files that are neither dropped nor copied over are gone. *)
    Local Notation covered := (covered S).
    Definition loose (m' : fs) : Prop :=
      ∀ q c t c' t', merged q = Some (File c t) → m' !! (L ++ q) = Some (File c' t') → covered q.

    Lemma stale_spec (db : lmap) : (∀ p, ld_dir <$> db !! p = km p) →
      (∀ p, p ∈ stale (tree m L) db X S → is_Some (l_at p) ∧ is_Some (merged p)) ∧
      (∀ q c t, merged q = Some (File c t) → is_Some (l_at q) → q ∈ stale (tree m L) db X S ∨ covered q) ∧
      (∀ q, q ∈ stale (tree m L) db X S → ¬ covered q).
    Proof.
      intros Hdb.
      assert (Hdom : ∀ p, p ∈ dom db ↔ is_Some (merged p)).
      { intros p. pose proof (Hdb p) as E. unfold MergeCut.km in E. rewrite elem_of_dom. destruct (db !! p), (merged p); try done; split; intros [? ?]; try done; by eexists. }
      assert (Hret : ∀ q, q ∈ retained db S ↔ q ∈ dom db ∧ ∃ r, r ∈ S ∧ r `prefix_of` q).
      { intros q. unfold retained. rewrite elem_of_union_list. split.
        - intros (Y & HY & Hq). apply elem_of_list_fmap in HY as (r & -> & Hr). apply elem_of_elements in Hr.
          apply dom_sl_under in Hq as [? ?]. eauto.
        - intros (Hq & r & Hr & Hp). eexists. split; [apply elem_of_list_fmap; exists r; split; [done|by apply elem_of_elements]|].
          by apply dom_sl_under. }
      unfold stale. split; [|split].
      - intros p. rewrite elem_of_filter, elem_of_difference, elem_of_intersection, elem_of_difference, Hdom, (elem_of_dom (tree m L)), <-l_at_tree. naive_solver.
      - intros q c t Hm Hl. rewrite elem_of_filter, elem_of_difference, elem_of_intersection, elem_of_difference, Hdom, (elem_of_dom (tree m L)), <-l_at_tree.
        destruct (decide (q ∈ retained db S)) as [Hq|Hq]; [right; by apply Hret|left].
        split; [|split; [split; [split|]|]]; try done.
        + apply set_eq. intros r. split; [|by rewrite elem_of_empty]. rewrite elem_of_intersection, dom_sl_under. intros [[Hr Hqr] Hrr].
          apply Hdom in Hr. by rewrite (file_leaf q c t r) in Hq.
        + intros Hx. destruct (ldb !! q) as [x|] eqn:Ex.
          { apply Hq, Hret. split; [apply Hdom; by eexists|]. exists q. split; [|done]. apply HSx; [done|by eexists]. }
          rewrite (merged_not_stray _ _ _ _ _ _ H q) in Hm; [done|]. split; [done|]. split; [by intros [? ?]; congruence|by left].
      - intros q. rewrite elem_of_filter, elem_of_difference, elem_of_intersection, elem_of_difference. intros [_ [[_ Hq] Hr]] Hc. apply Hr, Hret. by split.
    Qed.
    (** The selected files are as they were, the others are gone. *)
    Definition dropped (m' : fs) : Prop := ∀ q c t, merged q = Some (File c t) →
      (covered q → m' !! (L ++ q) = l_at q) ∧
      (¬ covered q → m' !! (L ++ q) = match l_at q with Some (Link l k) => Some (Link l k) | _ => None end).
    Lemma drop_wp (Q : res unit → fs → Prop) (I : fs → Prop) (st : list path) :
      NoDup st → (∀ p, p ∈ st → is_Some (l_at p) ∧ is_Some (merged p)) →
      (∀ q c t, merged q = Some (File c t) → is_Some (l_at q) → q ∈ st ∨ covered q) →
      (∀ q, q ∈ st → ¬ covered q) →
      (∀ m', intact m' → I m') → (∀ m', mixed m' → loose m' → dropped m' → Q (Ok tt) m') →
      wp (for_ st (drop_one C)) I Q m6.
    Proof.
      intros Hnd Hst Hcov Hunc HI HQ.
      set (J := λ (Y : list path) (m' : fs), wf_fs m' ∧
        (∀ k, (∀ p, p ∈ Y → k ≠ L ++ p) → m' !! k = m6 !! k) ∧
        (∀ p, p ∈ Y → ∃ n, m6 !! (L ++ p) = Some n ∧ (if is_Link n then m' !! (L ++ p) = Some n
           else if is_Dir n then m' !! (L ++ p) = Some n ∨ m' !! (L ++ p) = None else m' !! (L ++ p) = None))).
      assert (HJm : ∀ Y m', (∀ p, p ∈ Y → is_Some (merged p)) → J Y m' → mixed m').
      { intros Y m' HY (Hwf & Ho & Hi). 
        assert (Hat : ∀ q, m' !! (L ++ q) = m6 !! (L ++ q) ∨ (m' !! (L ++ q) = None ∧ is_Some (merged q))).
        { intros q. destruct (decide (q ∈ Y)) as [Hq|Hq].
          - destruct (Hi q Hq) as (n & En & Hn). rewrite En. destruct (is_Link n); [by left|]. destruct (is_Dir n); [destruct Hn; auto|auto].
          - left. apply Ho. intros p Hp E. apply app_inv_head in E as ->. done. }
        destruct mixed_sent as [_ _ _ Hd Hf]. split; [done|..].
        - intros k Hk. apply Ho. intros p Hp ->. apply Hk, below_app_ne. destruct (HY p Hp) as [n Hn]. by destruct (merged_ours _ _ _ _ _ _ H _ _ Hn).
        - intros q Hq Hm. destruct (Hat q) as [?|[_ [? ?]]]; [done|congruence].
        - intros q t Hm. destruct (Hat q) as [->|[? _]]; [by eapply Hd|by left].
        - intros q c t Hm. destruct (Hat q) as [->|[? _]]; [by eapply Hf|by left]. }
      apply (wp_for_inv _ _ _ J).
      - split; [apply (sn_wf _ _ _ _ _ Hs)|]. split; [done|]. intros p Hp. by apply elem_of_nil in Hp.
      - intros Y p Z m' Est HJ. assert (Hp : p ∈ st) by (rewrite Est; set_solver).
        destruct (Hst p Hp) as [[nl Hl] [nm Hm]]. destruct (merged_ours _ _ _ _ _ _ H _ _ Hm) as (Hp0 & _ & _).
        assert (Hfr : p ∉ Y). { rewrite Est in Hnd. apply NoDup_app in Hnd as (_ & Hx & _). intros Hy. apply (Hx p Hy). left. }
        assert (HY : ∀ q, q ∈ Y → is_Some (merged q)) by (intros q Hq; apply Hst; rewrite Est; set_solver).
        pose proof HJ as (Hwf & Ho & Hi).
        assert (E6 : m6 !! (L ++ p) = Some nl).
        { rewrite <-Hl. apply (sn_l _ _ _ _ _ Hs); [done|]. intros Hg. rewrite (merged_gone _ _ _ _ _ _ H) in Hm; [done|by right]. }
        assert (E : m' !! (L ++ p) = Some nl).
        { rewrite Ho; [done|]. intros q Hq E. apply app_inv_head in E as ->. done. }
        assert (Hsame : (is_Link nl = true ∨ is_Dir nl = true) → J (Y ++ [p]) m').
        { intros Hk. split; [done|]. split; [intros k Hk'; apply Ho; intros q Hq; apply Hk'; set_solver|].
          intros q [Hq| ->%elem_of_list_singleton]%elem_of_app; [by apply Hi|]. exists nl. split; [done|].
          destruct (is_Link nl); [done|]. destruct Hk as [?|Hk]; [done|]. rewrite Hk. by left. }
        assert (Hdel : is_Link nl = false → (∀ q n, m' !! q = Some n → ¬ child_of q (L ++ p)) → J (Y ++ [p]) (delete (L ++ p) m')).
        { intros Hk Hc. split; [by apply wf_delete|]. split.
          - intros k Hk'. rewrite lookup_delete_ne by (apply not_eq_sym, Hk'; set_solver). apply Ho. intros q Hq. apply Hk'. set_solver.
          - intros q [Hq| ->%elem_of_list_singleton]%elem_of_app.
            + rewrite lookup_delete_ne; [by apply Hi|]. intros E'. apply app_inv_head in E' as ->. done.
            + exists nl. split; [done|]. rewrite Hk, lookup_delete. destruct (is_Dir nl); auto. }
        assert (HY' : ∀ q, q ∈ Y ++ [p] → is_Some (merged q)).
        { intros q [Hq| ->%elem_of_list_singleton]%elem_of_app; [by apply HY|by eexists]. }
        eapply drop_one_wp; [done|exact E|..].
        + intros Hk. apply Hsame. by left.
        + intros Hk Hd. assert (J (Y ++ [p]) (delete (L ++ p) m')) as HJ'; [|split; [by eapply HI, mixed_intact, HJm|done]].
          apply Hdel; [done|]. by eapply wf_nondir_nochild.
        + intros Hd. split; [apply Hsame; by right|]. intros Hc.
          assert (J (Y ++ [p]) (delete (L ++ p) m')) as HJ'; [|split; [by eapply HI, mixed_intact, HJm|done]].
          apply Hdel; [by destruct nl|done].
      - intros m' HJ. assert (Hmx : mixed m') by (eapply HJm; [|exact HJ]; intros p Hp; by apply Hst).
        assert (Hdr : dropped m').
        { intros q c t Hm. destruct HJ as (_ & Ho & Hi). destruct (merged_ours _ _ _ _ _ _ H _ _ Hm) as (Hq0 & _ & _).
          assert (E6 : m6 !! (L ++ q) = l_at q).
          { apply (sn_l _ _ _ _ _ Hs); [done|]. intros Hg. rewrite (merged_gone _ _ _ _ _ _ H) in Hm; [done|by right]. }
          destruct (decide (q ∈ st)) as [Hq|Hq].
          - split; [intros Hc; by apply Hunc in Hc|intros _]. destruct (Hi q Hq) as (n & En & Hn). rewrite <-E6, En.
            assert (El : l_at q = Some n) by congruence. pose proof (merged_kind_l _ _ _ _ _ _ H _ _ _ Hm El) as Ek. by destruct n.
          - assert (E' : m' !! (L ++ q) = l_at q) by (rewrite Ho; [done|]; intros p Hp E; apply app_inv_head in E as ->; done).
            split; [done|]. intros Hc. rewrite E'. destruct (l_at q) as [n|] eqn:El; [|done]. by destruct (Hcov q c t Hm). }
        apply HQ; [done| |done].
        intros q c t c' t' Hm E. destruct HJ as (_ & Ho & Hi). destruct (merged_ours _ _ _ _ _ _ H _ _ Hm) as (Hq0 & _ & _).
        destruct (decide (q ∈ st)) as [Hq|Hq].
        + exfalso. destruct (Hi q Hq) as (n & En & Hn). destruct (Hst q Hq) as [[nl Hl] _].
          pose proof (merged_kind_l _ _ _ _ _ _ H _ _ _ Hm Hl) as Ek.
          destruct (sent_l _ q Hs Hq0) as [E'|[E' _]]; rewrite En in E'; [|done]. rewrite Hl in E'. injection E' as ->.
          destruct nl; cbn in Hn; [congruence|congruence|done].
        + destruct (Hcov q c t Hm) as [?|?]; [|done|done].
          rewrite Ho in E; [|intros p Hp E'; apply app_inv_head in E' as ->; done].
          destruct (sent_l _ q Hs Hq0) as [E'|[E' _]]; rewrite E in E'; [by eexists|done].
    Qed.

    (** ** Links and directories *)
    Record shown (m' : fs) : Prop := {
      sh_mixed : mixed m';
      sh_loose : loose m';
      sh_all : ∀ q, is_Some (merged q) → is_Some (m' !! (L ++ q))
    }.
    Lemma abs_ne p : p ≠ [] → L ++ p ≠ [].
    Proof. intros Hp. pose proof HL0. by destruct L. Qed.
    Lemma mixed_Ldir m' : mixed m' → dir_at m' L.
    Proof.
      intros Hm. destruct (out_dir m6 L (sn_out _ _ _ _ _ Hs) (or_introl eq_refl)) as [t Ht]. exists t. rewrite node_at_ne in * by apply HL0.
      rewrite (mx_out _ Hm); [done|apply L_out].
    Qed.
    Lemma mixed_Rdir m' : mixed m' → dir_at m' R.
    Proof.
      intros Hm. destruct (out_dir m6 R (sn_out _ _ _ _ _ Hs) (or_intror eq_refl)) as [t Ht]. exists t. rewrite node_at_ne in * by apply HR0.
      rewrite (mx_out _ Hm); [done|apply R_out].
    Qed.
    Lemma link_wp (I : fs → Prop) (Q : res pset → fs → Prop) (files dirs : pset) m7 :
      (∀ p, p ∈ files ↔ km p = Some false) → (∀ p, p ∈ dirs ↔ km p = Some true) → mixed m7 → loose m7 →
      (∀ m', intact m' → I m') → (∀ m' (new : pset), shown m' → (∀ q, q ∈ new ↔ is_Some (merged q) ∧ m7 !! (L ++ q) = None) → Q (Ok new) m') →
      wp (symlink_tree (c_now C) (c_iter C) R L files dirs false) I Q m7.
    Proof.
      intros Hf Hd Hmx Hlo HI HQ.
      assert (Hall : ∀ p, p ∈ dirs ∪ files ↔ is_Some (merged p)).
      { intros p. rewrite elem_of_union, Hf, Hd. unfold MergeCut.km. destruct (merged p) as [n|]; [|split; [intros [?|?]; done|by intros [? ?]]].
        cbn. destruct (is_Dir n); split; eauto. }
      assert (Hlk : linkable L files dirs false m7).
      { split.
        - apply (mx_wf _ Hmx).
        - by apply mixed_Ldir.
        - intros q [n Hn]%Hall. by destruct (merged_ours _ _ _ _ _ _ H _ _ Hn) as (? & ? & _).
        - intros q r [n Hn]%Hall Hp Hne Hr. destruct (merged_anc _ _ _ _ _ _ H q r n Hn Hp Hne Hr) as [t Ht].
          destruct (mx_dir _ Hmx r t Ht) as [E|E]; [right|left; apply dir_at_lookup; [by apply abs_ne|done]]. split; [done|]. apply Hd. unfold MergeCut.km. by rewrite Ht.
        - done. }
      assert (Hli : ∀ Y m', (∀ q, q ∈ Y → q ∈ dirs ∪ files) → linked (c_now C) R L dirs false m7 Y m' → mixed m').
      { intros Y m' HY Hli.
        assert (Hin : ∀ q, q ∈ Y → is_Some (merged q)) by (intros q Hq; by apply Hall, HY).
        assert (Hno : ∀ q, q ∉ Y → m' !! (L ++ q) = m7 !! (L ++ q)).
        { intros q Hq. apply (li_out _ _ _ _ _ _ _ _ Hli). intros r Hr E. apply app_inv_head in E as ->. done. }
        split.
        - apply (li_wf _ _ _ _ _ _ _ _ Hli).
        - intros k Hk. rewrite <-(mx_out _ Hmx) by done. apply (li_out _ _ _ _ _ _ _ _ Hli). intros r Hr ->.
          apply Hk, below_app_ne. destruct (Hin r Hr) as [n Hn]. by destruct (merged_ours _ _ _ _ _ _ H _ _ Hn).
        - intros q Hq Hm. rewrite Hno; [by apply (mx_none _ Hmx)|]. intros [n Hn]%Hin. congruence.
        - intros q t Hm. destruct (decide (q ∈ Y)) as [Hq|Hq]; [|rewrite Hno by done; by eapply (mx_dir _ Hmx)].
          rewrite (li_in _ _ _ _ _ _ _ _ Hli) by done. unfold sl_node. rewrite decide_True by (apply Hd; unfold MergeCut.km; by rewrite Hm).
          right. destruct (mx_dir _ Hmx q t Hm) as [->|[t' ->]]; eauto.
        - intros q c t Hm. destruct (decide (q ∈ Y)) as [Hq|Hq]; [|rewrite Hno by done; by eapply (mx_file _ Hmx)].
          rewrite (li_in _ _ _ _ _ _ _ _ Hli) by done. unfold sl_node. rewrite decide_False by (rewrite Hd; unfold MergeCut.km; by rewrite Hm).
          right. destruct (mx_file _ Hmx q c t Hm) as [->|[(c' & t' & ->)|[k ->]]]; eauto. }
      apply (symlink_tree_wp (c_now C) R L files dirs false m7 Hlk); [done|done|..].
      - intros Y m' Hm' HY. by eapply HI, mixed_intact, Hli.
      - intros Y m' Hm' HY. apply HQ; [|intros q; rewrite elem_of_filter, Hall; unfold created; naive_solver]. split.
        + eapply Hli; [|done]. intros q Hq. by apply HY.
        + intros q c t c' t' Hm E. assert (Hq : q ∈ Y) by (apply HY, Hall; by eexists).
          rewrite (li_in _ _ _ _ _ _ _ _ Hm') in E by done. unfold sl_node in E. rewrite decide_False in E by (rewrite Hd; unfold MergeCut.km; by rewrite Hm).
          destruct (m7 !! (L ++ q)) as [n|] eqn:E7; [|done]. injection E as ->. by eapply Hlo.
        + intros q Hq%Hall. apply HY in Hq as Hq'. rewrite (li_in _ _ _ _ _ _ _ _ Hm') by done. unfold sl_node.
          case_decide; destruct (m7 !! (L ++ q)); by eexists.
    Qed.

    (** ** The copies *)
    (** The local directory shows the merge: directories, and files or links to
        the remote ones; stray entries are as they were. *)
    Record placed (m' : fs) : Prop := {
      pl_wf : wf_fs m';
      pl_out : ∀ k, ¬ below k L → m' !! k = m6 !! k;
      pl_none : ∀ q, q ≠ [] → merged q = None → m' !! (L ++ q) = m6 !! (L ++ q);
      pl_dir : ∀ q t, merged q = Some (Dir t) → ∃ t, m' !! (L ++ q) = Some (Dir t);
      pl_file : ∀ q c t, merged q = Some (File c t) → (covered q ∧ m' !! (L ++ q) = Some (File c t)) ∨ (¬ covered q ∧ ∃ k, m' !! (L ++ q) = Some (Link (abs_path (R ++ q)) k))
    }.
    Section copy.
      Context (m8 : fs) (Hsh : shown m8).
      Local Notation fl := (Some (c_iter C (elements S))).
      Lemma m8_r q : m8 !! (R ++ q) = m6 !! (R ++ q).
      Proof. apply (mx_out _ (sh_mixed _ Hsh)). apply apart_not_below, apart_sym, (cl_apart _ _ _ _ _ _ H). Qed.
      Lemma m8_merged q n : merged q = Some n → ∃ n', m8 !! (R ++ q) = Some n' ∧ is_Dir n' = is_Dir n ∧ (is_Dir n = false → n' = n).
      Proof. intros Hm. rewrite m8_r. by apply sent_r. Qed.
      Lemma Rabs_ne p : R ++ p ≠ [].
      Proof. pose proof HR0. by destruct R. Qed.
      Lemma m8_dir q n : merged q = Some n → dir_at m8 (R ++ q) ↔ is_Dir n = true.
      Proof.
        intros Hm. rewrite dir_at_lookup by apply Rabs_ne. destruct (m8_merged q n Hm) as (n' & E & Ed & _). rewrite E. split.
        - intros [t Ht]. injection Ht as ->. by rewrite <-Ed.
        - intros Hn. rewrite Hn in Ed. destruct n'; try done. eauto.
      Qed.
      Lemma zielen_below (p q : path) : p ≠ [] → p `prefix_of` q → zielen_dir `prefix_of` q → zielen_dir `prefix_of` p.
      Proof using Type. intros Hp [s ->] Hz. destruct p as [|x p]; [done|]. cbn in Hz. apply prefix_cons_inv_1 in Hz as <-. by eexists. Qed.
      Lemma wanted_merged q : wanted m8 R fl ∅ q → is_Some (merged q).
      Proof.
        intros [_ (p & Hp%iter_elem & Hcase)]. destruct (HS p Hp) as [n Hn]. destruct Hcase as [[_ ->]|(_ & Hb & [n' Hq])]; [by eexists|].
        destruct (merged_ours _ _ _ _ _ _ H _ _ Hn) as (Hp0 & _ & Hz). apply MergeFacts.below_prefix in Hb as [Hpq Hne].
        assert (q ≠ []) as Hq0 by (intros ->; by apply prefix_nil_inv in Hpq).
        assert (¬ zielen_dir `prefix_of` q) as Hzq by (intros Hzq; by eapply Hz, zielen_below).
        pose proof (sn_r _ _ _ _ _ Hs q Hq0 Hzq) as Hl. rewrite m8_r in Hq. rewrite Hq in Hl. destruct (merged q); [by eexists|by destruct n'].
      Qed.
      Lemma wanted_covered q : wanted m8 R fl ∅ q → covered q.
      Proof. intros [_ (p & Hp%iter_elem & Hcase)]. exists p. split; [done|]. destruct Hcase as [[_ ->]|(_ & Hb & _)]; [done|]. by apply MergeFacts.below_prefix in Hb as [? _]. Qed.
      Lemma wanted_file q c t : merged q = Some (File c t) → covered q → wanted m8 R fl ∅ q.
      Proof.
        intros Hm (r & Hr & Hrq). split; [set_solver|]. exists r. split; [by apply iter_elem|].
        destruct (decide (r = q)) as [->|Hne].
        - left. split; [|done]. rewrite (m8_dir q (File c t)) by done. done.
        - right. destruct (HS r Hr) as [n Hn]. assert (r ≠ []) as Hr0 by (by destruct (merged_ours _ _ _ _ _ _ H _ _ Hn)).
          destruct (merged_anc _ _ _ _ _ _ H q r _ Hm Hrq Hne Hr0) as [t' Ht']. split; [by apply (m8_dir r (Dir t'))|].
          split; [apply MergeFacts.below_prefix; split; [done|congruence]|]. destruct (m8_merged q _ Hm) as (n' & -> & _). by eexists.
      Qed.
      Lemma m8_local q n : merged q = Some n →
        (is_Dir n = true ∧ ∃ t, m8 !! (L ++ q) = Some (Dir t)) ∨
        (is_Dir n = false ∧ ((∃ c t, m8 !! (L ++ q) = Some (File c t)) ∨ ∃ k, m8 !! (L ++ q) = Some (Link (abs_path (R ++ q)) k))).
      Proof.
        intros Hm. destruct (sh_all _ Hsh q ltac:(by eexists)) as [n' E]. destruct n as [c t|t k|t].
        - right. split; [done|]. destruct (mx_file _ (sh_mixed _ Hsh) q c t Hm) as [?|?]; [congruence|done].
        - by apply (merged_no_link _ _ _ _ _ _ H) in Hm.
        - left. split; [done|]. destruct (mx_dir _ (sh_mixed _ Hsh) q t Hm) as [?|?]; [congruence|done].
      Qed.
      Lemma copy_ready : transferable false m8 R L fl ∅.
      Proof.
        pose proof (sh_mixed _ Hsh) as Hmx. split.
        - apply (mx_wf _ Hmx).
        - apply apart_sym, (cl_apart _ _ _ _ _ _ H).
        - by apply mixed_Rdir.
        - by apply mixed_Ldir.
        - intros p Hp%iter_elem. destruct (HS p Hp) as [n Hn]. destruct (m8_merged p n Hn) as (n' & E & Ed & Hn').
          rewrite (m8_dir p n Hn). destruct (is_Dir n) eqn:Edn; [by left|right]. split; [by eexists|]. split; [done|].
          exists n'. split; [|congruence]. apply stat_lookup_follow; [apply (mx_wf _ Hmx)|done|]. rewrite Hn' by done.
          destruct n as [|t k|]; [done| |done]. by apply (merged_no_link _ _ _ _ _ _ H) in Hn.
        - intros q Hq. destruct (wanted_merged q Hq) as [n Hn]. destruct (m8_merged q n Hn) as (n' & E & Ed & Hn'). unfold compat. rewrite E.
          destruct (m8_local q n Hn) as [[Hd [t Ht]]|[Hd Hfl]].
          + rewrite Hd in Ed. destruct n' as [| |t']; try done. split; [right; apply dir_at_lookup; [|by eauto]|].
            { apply abs_ne. by destruct (merged_ours _ _ _ _ _ _ H _ _ Hn). }
            intros x Hx. assert (Hqx : q ++ [x] ≠ []) by by destruct q. split.
            * intros Hw l k Ek. destruct (wanted_merged _ Hw) as [nx Hnx]. destruct (m8_merged _ _ Hnx) as (nx' & E' & Ed' & Hnx').
              rewrite E' in Ek. injection Ek as ->. cbn in Ed'. destruct nx; try done; specialize (Hnx' eq_refl); try done.
              by apply (merged_no_link _ _ _ _ _ _ H) in Hnx.
            * intros l k Ek. destruct (merged (q ++ [x])) as [nx|] eqn:Hnx.
              -- destruct (m8_local _ _ Hnx) as [[_ [t'' E'']]|[Hdx [(c & t'' & E'')|[k' E'']]]]; [congruence|congruence|].
                 rewrite E'' in Ek. injection Ek as <- <-. split; [done|]. destruct (m8_merged _ _ Hnx) as (nx' & E' & Ed' & Hnx').
                 specialize (Hnx' Hdx) as ->. rewrite E'. destruct nx as [c t''|t'' k''|]; [eauto| |done]. by apply (merged_no_link _ _ _ _ _ _ H) in Hnx.
              -- exfalso. rewrite (mx_none _ Hmx) in Ek by done. destruct (sent_l _ _ Hs Hqx) as [E'|[E' _]]; rewrite Ek in E'; [|done].
                 symmetry in E'. destruct (decide (stray (q ++ [x]))) as [Hst|Hst].
                 ++ apply (cl_echo _ _ _ _ _ _ H q x l k); [by destruct (merged_ours _ _ _ _ _ _ H _ _ Hn)|done|done|done].
                 ++ assert (gone_r (q ++ [x])) as Hg by (apply (not_merged_l _ _ _ _ _ _ H); [done|done|by eexists]).
                    destruct (sn_l _ _ _ _ _ Hs (q ++ [x]) Hqx) as [E1 _]. rewrite E1 in Ek by done. done.
          + rewrite (Hn' Hd). destruct n as [c t|t k|t]; [by right| |done]. by apply (merged_no_link _ _ _ _ _ _ H) in Hn.
        - intros q p Hq Hp Hne Hp0. destruct (wanted_merged q Hq) as [n Hn]. destruct (merged_anc _ _ _ _ _ _ H q p n Hn Hp Hne Hp0) as [t Ht].
          right. apply dir_at_lookup; [by apply abs_ne|]. by destruct (m8_local p _ Ht) as [[_ ?]|[? _]].
        - done.
      Qed.
      Context (l : list path) (Hl : ∀ q, q ∈ l ↔ wanted m8 R fl ∅ q).
      Local Notation now := (c_now C).
      Lemma copied_at Y m' : (∀ q, q ∈ Y → q ∈ l) → copied now R L false m8 Y m' → ∀ q, q ≠ [] →
        m' !! (L ++ q) = m8 !! (L ++ q) ∨ (q ∈ Y ∧ nondir (m8 !! (R ++ q)) ∧ m' !! (L ++ q) = m8 !! (R ++ q)).
      Proof.
        intros HY Hc q Hq. rewrite (cp_dst _ _ _ _ _ _ _ Hc) by done. unfold tr_node.
        destruct (decide (q ∈ Y ∧ nondir (m8 !! (R ++ q)))) as [[Hin Hnd]|Hno]; [by right|left].
        destruct (m8 !! (L ++ q)) eqn:E; [done|]. rewrite decide_False; [done|]. intros (x & Hx & Hqx)%Exists_exists.
        destruct (wanted_merged x) as [n Hn]; [by apply Hl, HY|].
        assert (is_Some (merged q)) as Hmq.
        { destruct (decide (q = x)) as [->|Hne]; [by eexists|]. destruct (merged_anc _ _ _ _ _ _ H x q n Hn Hqx Hne Hq) as [t ->]. by eexists. }
        apply (sh_all _ Hsh) in Hmq as [? ?]. congruence.
      Qed.
      Lemma copied_none Y m' : (∀ q, q ∈ Y → q ∈ l) → copied now R L false m8 Y m' →
        (∀ k, ¬ below k L → m' !! k = m6 !! k) ∧ (∀ q, q ≠ [] → merged q = None → m' !! (L ++ q) = m6 !! (L ++ q)).
      Proof.
        intros HY Hc. split.
        - intros k Hk. rewrite <-(mx_out _ (sh_mixed _ Hsh)) by done. apply (cp_out _ _ _ _ _ _ _ Hc); [done|by intros [? _]].
        - intros q Hq Hm. destruct (copied_at Y m' HY Hc q Hq) as [->|(Hin & _)]; [by apply (mx_none _ (sh_mixed _ Hsh))|].
          destruct (wanted_merged q) as [n Hn]; [by apply Hl, HY|]. congruence.
      Qed.
      Lemma copied_intact Y m' : (∀ q, q ∈ Y → q ∈ l) → copied now R L false m8 Y m' → intact m'.
      Proof.
        intros HY Hc. destruct (copied_none Y m' HY Hc) as [H1 H2]. apply below_intact; [done|]. intros q Hq. apply H2; [by apply stray_ne|].
        by apply (merged_not_stray _ _ _ _ _ _ H).
      Qed.
      Lemma copy_mid Y p Z m1' m2' : ready R L false m8 l → l = Y ++ p :: Z → copied now R L false m8 Y m1' → mid now R L m8 m1' p m2' → intact m2'.
      Proof.
        intros Rd El Hc Hm.
        assert (HY : ∀ q, q ∈ Y → q ∈ l) by (intros q Hq; rewrite El; apply elem_of_app; by left).
        assert (Hp : is_Some (merged p)) by (apply wanted_merged, Hl; rewrite El; apply elem_of_app; right; left).
        destruct Hp as [n Hn]. destruct (merged_ours _ _ _ _ _ _ H _ _ Hn) as (Hp0 & _ & _).
        destruct (copied_none Y m1' HY Hc) as [H1 H2].
        pose proof (mid_wf _ _ _ _ _ _ Rd Y p Z El m1' Hc m2' Hm) as Hwf.
        pose proof (mid_other _ _ _ _ _ _ _ Hp0 Hm) as Ho.
        apply below_intact.
        - intros k Hk. rewrite <-H1 by done. destruct (Ho k) as [?|(E & E' & Hkp)]; [intros ->; apply Hk; by apply below_app_ne|done|exfalso].
          destruct (prefix_root_cases _ _ _ Hkp) as [HkL|(q & Hq & _ & ->)]; [|apply Hk; by apply below_app_ne].
          assert (Hd : dir_at m1' L).
          { destruct (out_dir m6 L (sn_out _ _ _ _ _ Hs) (or_introl eq_refl)) as [t Ht]. exists t. rewrite node_at_ne in * by apply HL0.
            rewrite H1 by apply L_out. done. }
          pose proof (wf_dir_anc _ (cp_wf _ _ _ _ _ _ _ Hc) _ _ Hd HkL) as [t Ht].
          destruct (decide (k = [])) as [-> |Hk0]; [by rewrite wf_nil in E'|]. rewrite node_at_ne in Ht by done. congruence.
        - intros q Hst. pose proof (stray_ne q Hst) as Hq0. pose proof (merged_not_stray _ _ _ _ _ _ H q Hst) as Hmq.
          rewrite <-H2 by done. destruct (Ho (L ++ q)) as [?|(E & E' & Hkp)]; [|done|exfalso].
          + intros E. apply app_inv_head in E as ->. congruence.
          + apply prefix_app_inv in Hkp. destruct (decide (q = p)) as [->|Hne]; [congruence|].
            destruct (merged_anc _ _ _ _ _ _ H p q n Hn Hkp Hne Hq0) as [t ?]. congruence.
      Qed.
      Lemma copy_done m' : copied now R L false m8 l m' → placed m'.
      Proof.
        intros Hc. destruct (copied_none l m' (λ _ x, x) Hc) as [H1 H2]. split; [apply (cp_wf _ _ _ _ _ _ _ Hc)|done|done|..].
        - intros q t Hm. destruct (merged_ours _ _ _ _ _ _ H _ _ Hm) as (Hq0 & _). destruct (m8_local q _ Hm) as [[_ [t' E]]|[? _]]; [|done].
          destruct (copied_at l m' (λ _ x, x) Hc q Hq0) as [->|(_ & Hnd & _)]; [eauto|].
          destruct (m8_merged q _ Hm) as (n' & E' & Ed & _). rewrite E' in Hnd. cbn in Hnd, Ed. congruence.
        - intros q c t Hm. destruct (merged_ours _ _ _ _ _ _ H _ _ Hm) as (Hq0 & _). destruct (m8_merged q _ Hm) as (n' & E' & _ & Hn').
          specialize (Hn' eq_refl) as ->.
          destruct (m8_local q _ Hm) as [[? _]|[_ [(c' & t' & E)|[k E]]]]; [done|..].
          + left. assert (covered q) as Hcv by by eapply (sh_loose _ Hsh). split; [done|].
            assert (q ∈ l) as Hin. { apply Hl. by eapply wanted_file. }
            rewrite (cp_dst _ _ _ _ _ _ _ Hc) by done. unfold tr_node. rewrite decide_True by (rewrite E'; done). by rewrite E'.
          + destruct (decide (q ∈ l)) as [Hin|Hin].
            * left. split; [by apply wanted_covered, Hl|]. rewrite (cp_dst _ _ _ _ _ _ _ Hc) by done. unfold tr_node. rewrite decide_True by (rewrite E'; done). by rewrite E'.
            * right. split; [intros Hcv; apply Hin, Hl; by eapply wanted_file|]. destruct (copied_at l m' (λ _ x, x) Hc q Hq0) as [->|(? & _)]; [eauto|done].
      Qed.
    End copy.
    Lemma copy_wp (I : fs → Prop) (Q : res unit → fs → Prop) m8 : shown m8 →
      (∀ m', intact m' → I m') → (∀ m', placed m' → Q (Ok tt) m') →
      wp (transfer_tree (c_now C) (c_tty C) R L (Some (c_iter C (elements S))) ∅ false) I Q m8.
    Proof.
      intros Hsh HI HQ. eapply transfer_tree_wp; [by apply copy_ready|..].
      - intros _ q Hq. destruct (wanted_merged _ Hsh q Hq) as [n Hn]. destruct (m8_merged _ Hsh q n Hn) as (n' & E & Ed & Hn'). unfold exists_.
        rewrite (stat_lookup_follow _ (mx_wf _ (sh_mixed _ Hsh)) _ n'); [done|done|].
        destruct n' as [|t k|]; [done| |done]. cbn in Ed. specialize (Hn' (eq_sym Ed)). subst n. by apply (merged_no_link _ _ _ _ _ _ H) in Hn.
      - intros l Rd Hl. split; [|split].
        + intros Y p Z m1' m2' El Hc Hm. by eapply HI, copy_mid.
        + intros Y Z m' El Hc. eapply HI, copied_intact; [done|done| |exact Hc]. intros q Hq. rewrite El. apply elem_of_app. by left.
        + intros m' Hc. by eapply HQ, copy_done.
    Qed.
  End down.
  Lemma dom_sr_get (db : rmap) b p : p ∈ dom (sr_get db None (Some b) None) ↔ rd_dir <$> db !! p = Some b.
  Proof using Type.
    unfold sr_get. rewrite dom_s_query. cbn [default]. split.
    - intros (d & Hd & _ & Hb). rewrite Hd. cbn in *. by destruct b, (rd_dir d).
    - intros (d & Hd & ->)%fmap_Some. exists d. split; [done|]. split; [apply prefix_nil|]. by destruct (rd_dir d).
  Qed.
  Lemma excluded_seen' w' : v_excl w' = Some X → excluded C w' = ([], w', Ok X).
  Proof using Type. intros E. unfold excluded, bind, get, ret. by rewrite E. Qed.
  (** The rows of files after the local directory has been updated. *)
  Definition flagged (S : pset) (db : lmap) : Prop := ∀ p x, db !! p = Some x → ld_dir x = false → ∃ x0, row p x0 ∧ ld_prio x = ld_prio x0 ∧
    (covered S p → ld_local x = bool_decide (is_Some (l_at p))) ∧
    (¬ covered S p → ld_local x = match l_at p with Some (Link _ _) => ld_local x0 | _ => false end).
  Lemma covered_dec (S : pset) p : covered S p ∨ ¬ covered S p.
  Proof using Type.
    destruct (decide (set_Exists (λ r, r `prefix_of` p) S)) as [(r & ? & ?)|Hn]; [left; by exists r|right]. intros (r & ? & ?). apply Hn. by exists r.
  Qed.
  Lemma km_over p r : is_Some (km r) → below r p → km p ≠ Some false.
  Proof.
    intros [b Hr] Hb (c & t & Hp)%km_file. unfold MergeCut.km in Hr. apply fmap_Some in Hr as (n & Hn & _).
    apply (kind_over p r (is_Dir n)); [by apply kind_merged|done|]. by rewrite (kind_merged p (File c t)).
  Qed.
  Definition lkd (w' : world) : Prop := ∀ p, ld_dir <$> v_ldb w' !! p = km p.
  Lemma flag_loop (Q : res unit → world → Prop) (w' : world) (S new : pset) : lkind km w' →
    (∀ p, p ∈ new → is_Some (merged p)) →
    (∀ db : lmap, (∀ p, ld_dir <$> db !! p = km p) →
      (∀ p x, db !! p = Some x → ld_dir x = false → ∃ x0, row p x0 ∧ ld_prio x = ld_prio x0 ∧
        (p ∈ new → ld_local x = false) ∧ (p ∉ new → covered S p → ld_local x = true) ∧ (p ∉ new → ¬ covered S p → ld_local x = ld_local x0)) →
      Q (Ok tt) (set_vldb db w')) →
    wp (for_ (c_iter C (elements S)) (λ p,
          ldb_do (λ d, sl_update d (c_iter C (elements (dom (sl_get d (Some p) None None)))) None None (Some true))) ;!
        ldb_do (λ d, sl_update d (c_iter C (elements new)) None None (Some false))) act Q w'.
  Proof.
    intros [Hlk Hro] Hnew HQ.
    assert (Hfile : ∀ (db : lmap) (ps : list path) p x b, (∀ p, ld_dir <$> db !! p = km p) → (∀ r, r ∈ ps → is_Some (km r)) →
      sl_update db ps None None (Some b) !! p = Some x → ld_dir x = false →
      ∃ y, db !! p = Some y ∧ ld_dir y = false ∧ x = if bool_decide (p ∈ ps) then set_local b y else y).
    { intros db ps p x b Hdb Hps Hx Hd. assert (Some (ld_dir x) = km p) as Hk by (rewrite <-Hdb, <-(sl_update_kind db ps None (Some b) p), Hx; done).
      rewrite sl_local_file in Hx.
      - case_bool_decide; [|eauto]. apply fmap_Some in Hx as (y & Hy & ->). exists y. by destruct y.
      - intros (r & Hr & Hb). apply (km_over p r); [by apply Hps|done|]. by rewrite <-Hk, Hd. }
    apply wp_bind. apply (wp_for_inv _ _ _ (λ Y w'', ∃ db, w'' = set_vldb db w' ∧ (∀ p, ld_dir <$> db !! p = km p) ∧
      (∀ p x, db !! p = Some x → ld_dir x = false → ∃ x0, row p x0 ∧ ld_prio x = ld_prio x0 ∧
         ((∃ r, r ∈ Y ∧ r `prefix_of` p) → ld_local x = true) ∧ (¬ (∃ r, r ∈ Y ∧ r `prefix_of` p) → ld_local x = ld_local x0)))).
    - exists (v_ldb w'). split; [by destruct w'|]. split; [done|]. intros p x Hx Hd. exists x. split; [by eapply Hro|]. split; [done|]. split; [|done].
      by intros (r & Hr%elem_of_nil & _).
    - intros Y r Z w'' _ (db & -> & Hdb & Hrow). apply wp_mut. eexists. split; [reflexivity|]. cbn [v_ldb set_vldb]. split.
      { intros p. by rewrite sl_update_kind. }
      intros p x Hx Hd. apply Hfile in Hx as (y & Hy & Hyd & ->); [|done| |done].
      2: { intros q Hq%iter_elem. apply dom_sl_under in Hq as [[z Hz]%elem_of_dom _]. rewrite <-Hdb, Hz. by eexists. }
      destruct (Hrow p y Hy Hyd) as (x0 & H1 & H2 & H3 & H4). exists x0. split; [done|].
      assert (p ∈ c_iter C (elements (dom (sl_get db (Some r) None None))) ↔ r `prefix_of` p) as Hin.
      { rewrite iter_elem, dom_sl_under, elem_of_dom. split; [tauto|]. split; [by eexists|done]. }
      case_bool_decide as Hb; rewrite Hin in Hb.
      + split; [by destruct y|]. split; [by destruct y|]. intros Hn. destruct Hn. exists r. split; [set_solver|done].
      + split; [done|]. split.
        * intros (r' & [Hr'| ->%elem_of_list_singleton]%elem_of_app & Hp); [|done]. apply H3. eauto.
        * intros Hn. apply H4. intros (r' & Hr' & Hp). apply Hn. exists r'. split; [set_solver|done].
    - intros w'' (db & -> & Hdb & Hrow). cbn beta iota. apply wp_mut. cbn [v_ldb set_vldb]. apply HQ.
      { intros p. by rewrite sl_update_kind. }
      intros p x Hx Hd. apply Hfile in Hx as (y & Hy & Hyd & ->); [|done| |done].
      2: { intros q Hq%iter_elem%Hnew. unfold MergeCut.km. destruct Hq as [n ->]. by eexists. }
      destruct (Hrow p y Hy Hyd) as (x0 & H1 & H2 & H3 & H4). exists x0. split; [done|].
      assert (Hcv : (∃ r, r ∈ c_iter C (elements S) ∧ r `prefix_of` p) ↔ covered S p).
      { unfold covered. split; intros (r & Hr & Hp); exists r; split; try done; by apply iter_elem. }
      rewrite Hcv in H3, H4. case_bool_decide as Hb; rewrite iter_elem in Hb.
      + split; [by destruct y|]. split; [by destruct y|]. done.
      + done.
  Qed.
  Lemma update_local_wp (Q : res unit → world → Prop) w' S :
    (∀ p, p ∈ S → is_Some (merged p)) → (∀ p, p ∈ X → known p → p ∈ S) → sent (w_fs w') → stored w' → seen' w' → lkind km w' → rsent w' →
    (∀ w'', placed (w_fs w') S (w_fs w'') → stored w'' → lkd w'' → flagged S (v_ldb w'') → rsent w'' → Q (Ok tt) w'') →
    wp (update_local C S) act Q w'.
  Proof.
    intros HS HSx Hs Hst [El Ex] Hlk Hrk HQ. unfold update_local, compute_stale.
    assert (HI : ∀ m', intact m' → act (set_fs m' w')) by (intros m' Hm; by split).
    apply wp_bind, wp_bind. eapply wp_run; [by apply excluded_seen'|done|].
    cbn beta iota. apply wp_bind. eapply wp_run; [by eapply sent_local_scan|done|]. cbn beta iota. apply wp_bind, wp_get, wp_ret. cbn beta iota.
    destruct (stale_spec (w_fs w') Hs S HS HSx (v_ldb w') (proj1 Hlk)) as (Hst1 & Hst2 & Hst3).
    set (st := isort depth_ge (c_iter C (elements (stale (tree m L) (v_ldb w') X S)))).
    assert (Hin : ∀ p, p ∈ st ↔ p ∈ stale (tree m L) (v_ldb w') X S).
    { intros p. unfold st. rewrite isort_perm. apply iter_elem. }
    apply wp_bind, wp_fsm_for. eapply (drop_wp (w_fs w') Hs S HS HSx _ _ st).
    - unfold st. rewrite isort_perm, Hit. apply NoDup_elements.
    - intros p Hp%Hin. by apply Hst1.
    - intros q c t Hm Hl. rewrite Hin. by eapply Hst2.
    - intros q Hq%Hin. by apply Hst3.
    - exact HI.
    - intros m7 Hmx Hlo Hdr. cbn beta iota. apply wp_bind, wp_get. apply wp_bind. unfold remote_guard. apply wp_catch.
      apply wp_bind, wp_fsm. cbn [w_fs set_fs v_rdb].
      eapply (link_wp (w_fs w') Hs S HS HSx); [..|exact Hmx|exact Hlo|done|].
      { intros p. rewrite dom_sr_get. by rewrite (proj1 Hrk p). }
      { intros p. rewrite dom_sr_get. by rewrite (proj1 Hrk p). }
      intros m8 new Hsh Hnew. cbn beta iota. apply wp_bind, wp_fsm. cbn [w_fs set_fs].
      eapply (copy_wp (w_fs w') Hs S HS HSx); [exact Hsh|done|]. intros m9 Hpl. cbn beta iota. apply wp_ret. cbn beta iota.
      apply flag_loop; [done|by intros p [? _]%Hnew|]. intros db Hdb Hrow. apply HQ; [done|done|done| |done].
      intros p x Hx Hd. cbn [v_ldb set_vldb] in Hx. destruct (Hrow p x Hx Hd) as (x0 & H1 & H2 & H3 & H4 & H5). exists x0. split; [done|]. split; [done|].
      assert (km p = Some false) as (c & t & Hm)%km_file by (by rewrite <-Hdb, Hx, <-Hd).
      destruct (Hdr p c t Hm) as [Hd1 Hd2].
      assert (Hn : p ∈ new ↔ m7 !! (L ++ p) = None). { rewrite Hnew. rewrite Hm. split; [tauto|]. split; [by eexists|done]. }
      split; intros Hc.
      + rewrite Hd1 in Hn by done. destruct (l_at p).
        * rewrite bool_decide_true by by eexists. apply H4; [|done]. rewrite Hn. done.
        * rewrite bool_decide_false by (by intros [? ?]). apply H3. by apply Hn.
      + rewrite Hd2 in Hn by done. destruct (l_at p) as [[c' t'|l k|t']|]; cbn; [apply H3; by apply Hn| |apply H3; by apply Hn..].
        apply H5; [|done]. by rewrite Hn.
  Qed.
End sync.
