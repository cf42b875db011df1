(** A sync of a clean state: no conflicts. *)
From Coq Require Import QArith Qcanon.
From Verif Require Export MergeCut.
From Verif Require Import ResetProofs ConflictProofs.
From stdpp Require Import options.

Section sync.
  Set Default Proof Using "Type*".
  Context (C : conf) (w : world) (last : Z) (X : pset).
  Local Notation m := (w_fs w).
  Local Notation ldb := (w_ldb w).
  Local Notation rdb := (w_rdb w).
  Context (H : clean_x C m ldb rdb last X).
  Context (Hit : ∀ l, c_iter C l ≡ₚ l) (Hrows : ∀ l, c_rows C l ≡ₚ l).
  Context (Hvl : v_ldb w = ldb) (Hvr : v_rdb w = rdb) (Hfresh : FMProofs.fresh w) (Hlast : w_last w = Some last).
  Local Notation L := (c_L C).
  Local Notation R := (c_R C).
  Local Notation l_at := (l_at C m).
  Local Notation r_at := (r_at C m).
  Local Notation known := (known ldb).
  Local Notation stray := (stray C m ldb X).
  Local Notation merged := (merged C m ldb last X).
  Local Notation new_l := (new_l C m ldb X).
  Local Notation gone_l := (gone_l C m ldb).
  Local Notation gone_r := (gone_r C m ldb).
  Local Notation edited_l := (edited_l C m ldb last).
  Local Notation edited_r := (edited_r C m ldb rdb last).
  Local Notation trashed := (trashed C m ldb).
  Local Notation m1 := (with_excl C (c_patterns C) m).
  Local Notation intact := (intact C w last X).
  Local Notation tsafe := (tsafe C w).
  Local Notation tsafe_r := (tsafe_r C w last X H Hit Hrows Hvl Hvr Hfresh Hlast).
  Local Notation tin := (tin C w).
  Local Notation to_trash := (to_trash C w).
  Local Notation stored := (stored w).
  Local Notation seen := (seen C w X).
  Local Notation utl := (utl C w).
  Local Notation less := (less C w).
  Local Notation lessing := (lessing C w).
  Local Notation rkind := (rkind C w).
  Local Notation act := (act C w).
  Local Notation found := (found C w last X).
  Local Notation kind := (kind C w last X).
  Local Notation HR0 := (HR0 C w last X H Hit Hrows Hvl Hvr Hfresh Hlast).
  Local Notation HL0 := (HL0 C w last X H Hit Hrows Hvl Hvr Hfresh Hlast).
  Local Notation LR_ne := (LR_ne C w last X H Hit Hrows Hvl Hvr Hfresh Hlast).
  Local Notation util_not_L := (util_not_L C w last X H Hit Hrows Hvl Hvr Hfresh Hlast).
  Local Notation util_not_R := (util_not_R C w last X H Hit Hrows Hvl Hvr Hfresh Hlast).
  Local Notation util_out := (util_out C w last X H Hit Hrows Hvl Hvr Hfresh Hlast).
  Local Notation m1_less := (m1_less C w last X H Hit Hrows Hvl Hvr Hfresh Hlast).
  Local Notation m1_other := (m1_other C w last X H Hit Hrows Hvl Hvr Hfresh Hlast).
  Local Notation lessing_intact := (lessing_intact C w last X H Hit Hrows Hvl Hvr Hfresh Hlast).
  Local Notation less_lessing := (less_lessing C w last X H Hit Hrows Hvl Hvr Hfresh Hlast).
  Local Notation lkind := (lkind C w X).
  Local Notation kind_over := (kind_over C w last X H Hit Hrows Hvl Hvr Hfresh Hlast).
  Local Notation kind_merged := (kind_merged C w last X H Hit Hrows Hvl Hvr Hfresh Hlast).
  Local Notation kind_ldb := (kind_ldb C w last X H Hit Hrows Hvl Hvr Hfresh Hlast).
  Local Notation tsame_utl := (tsame_utl C w last X H Hit Hrows Hvl Hvr Hfresh Hlast).
  Local Notation L_out := (L_out C w last X H Hit Hrows Hvl Hvr Hfresh Hlast).
  Local Notation R_out := (R_out C w last X H Hit Hrows Hvl Hvr Hfresh Hlast).
  Local Notation out_dir := (out_dir C w last X H Hit Hrows Hvl Hvr Hfresh Hlast).
  Local Notation rm_local_wp := (rm_local_wp C w last X H Hit Hrows Hvl Hvr Hfresh Hlast).
  Local Notation rm_remote_wp := (rm_remote_wp C w last X H Hit Hrows Hvl Hvr Hfresh Hlast).
  Local Notation trash_wp := (trash_wp C w last X H Hit Hrows Hvl Hvr Hfresh Hlast).
  Local Notation iter_elem := (iter_elem C w last X H Hit Hrows Hvl Hvr Hfresh Hlast).
  Local Notation below_not_both := (below_not_both C w last X H Hit Hrows Hvl Hvr Hfresh Hlast).
  Local Notation util_below := (util_below C w last X H Hit Hrows Hvl Hvr Hfresh Hlast).
  Local Notation excluded_seen := (excluded_seen C w last X H Hit Hrows Hvl Hvr Hfresh Hlast).
  Local Notation top_gone_l := (top_gone_l C w last X H Hit Hrows Hvl Hvr Hfresh Hlast).
  Local Notation top_gone_r := (top_gone_r C w last X H Hit Hrows Hvl Hvr Hfresh Hlast).
  Local Notation detect_wp := (detect_wp C w last X H Hit Hrows Hvl Hvr Hfresh Hlast).
  Local Notation stray_not_gone := (stray_not_gone C w last X H Hit Hrows Hvl Hvr Hfresh Hlast).
  Local Notation ltree_m1 := (ltree_m1 C w last X H Hit Hrows Hvl Hvr Hfresh Hlast).
  Local Notation rtree_m1 := (rtree_m1 C w last X H Hit Hrows Hvl Hvr Hfresh Hlast).
  Local Notation not_under_util := (not_under_util C w last X H Hit Hrows Hvl Hvr Hfresh Hlast).
  Local Notation changed_merged := (changed_merged _ _ _ _ _ _ H).
  Local Notation tsame := (tsame C w).
  Local Notation rexact := (rexact C w).
  Local Notation K2 := (K2 C w last X).
  Local Notation km := (km C w last X).

  (** ** No conflicts *)
  Lemma set_lscan_id w' : set_lscan (v_lscan w') w' = w'.
  Proof using Type. by destruct w'. Qed.
  Lemma local_scan_seen w' : seen w' → wf_fs (w_fs w') → dir_at (w_fs w') L →
    (∀ q, q ≠ [] → l_at q = None → w_fs w' !! (L ++ q) = None) → local_scan C true w' = ([], w', Ok (tree m L)).
  Proof.
    intros (El & _ & _) Hwf Hd Hn. unfold local_scan, bind, get, eval, mut, ret. rewrite El.
    destruct (true && _) eqn:E; [done|]. apply andb_false_iff in E as [E|E]; [done|]. apply negb_false_iff, bool_decide_eq_true in E.
    assert (tree (w_fs w') L = ∅) as E'.
    { apply map_empty. intros q. destruct (tree (w_fs w') L !! q) as [n|] eqn:En; [|done]. apply tree_lookup in En as [Hq En].
      rewrite Hn in En; [done|done|]. by rewrite l_at_tree, E. }
    rewrite scan_dir_tree, E', E by done. rewrite E in El. by rewrite <-El, set_lscan_id.
  Qed.
  Lemma remote_scan_seen w' : seen w' → remote_scan C true w' = ([], w', Ok (hide_util (tree m1 R))).
  Proof.
    intros (_ & Er & _). unfold remote_scan, bind, get, eval, mut, ret. rewrite Er.
    destruct (true && _) eqn:E; [done|]. apply andb_false_iff in E as [E|E]; [done|]. apply negb_false_iff, bool_decide_eq_true in E. exfalso.
    assert (Hd : dir_at m1 (util_dir C)).
    { eapply wf_dir_anc; [apply (ls_wf _ _ _ _ _ m1_less)|apply (uo_dir _ _ (ul_ok _ _ _ (ls_util _ _ _ _ _ m1_less)))|by eexists]. }
    apply dir_at_lookup in Hd as [t Hd]; [|unfold util_dir; by destruct R].
    assert (tree m1 R !! zielen_dir = Some (Dir t)) as E' by (by apply tree_lookup). by rewrite E in E'.
  Qed.
  Lemma conflicts_none (l : lmap) ls rs ps :
    (∀ p, p ∈ ps → ld_dir <$> l !! p = Some true ∨ ∃ n, ls !! p = Some n ∧ rs !! p = Some n) → conflicts l ls rs ps = Ok (∅, ∅).
  Proof using Type.
    intros Hp. destruct (conflicts_spec l ls rs ps) as (rl & rr & E & Hl & Hr).
    { intros p Hin Hd. destruct (Hp p Hin) as [Hy|(n & E & E')]; [|split; by eexists]. destruct Hd. apply fmap_Some in Hy as (d & Hy & Hd). by exists d. }
    assert (∀ p n n', p ∈ ps → ¬ db_dir l p → ls !! p = Some n → rs !! p = Some n' → n = n') as Heq.
    { intros p n n' Hin Hd E1 E2. destruct (Hp p Hin) as [Hy|(x & ? & ?)]; [|congruence]. destruct Hd. apply fmap_Some in Hy as (d & Hy & Hd). by exists d. }
    rewrite E. f_equal. f_equal; apply set_eq; intros p.
    - split; [|intros Hx; exfalso; by apply not_elem_of_empty in Hx]. intros (Hin & Hd & n & n' & E1 & E2 & Ho)%Hl. rewrite (Heq p n n') in Ho by done. unfold older in Ho. lia.
    - split; [|intros Hx; exfalso; by apply not_elem_of_empty in Hx]. intros (Hin & Hd & n & n' & E1 & E2 & Ho)%Hr. rewrite (Heq p n n') in Ho by done. unfold older in Ho. lia.
  Qed.
  Lemma renamed_none S : renamed C ∅ S = S.
  Proof.
    unfold renamed. apply set_eq. intros p. rewrite elem_of_map. split.
    - intros (q & -> & Hq). by rewrite bool_decide_false by set_solver.
    - intros Hp. exists p. by rewrite bool_decide_false by set_solver.
  Qed.
  Lemma both_dir p : new_l p ∨ edited_l p → (¬ known p ∧ is_Some (r_at p)) ∨ edited_r p →
    (∃ t, merged p = Some (Dir t)) ∨ ∃ n, l_at p = Some n ∧ r_at p = Some n.
  Proof.
    intros Ha Hb.
    assert (Hnew : new_l p → is_Some (r_at p) → (∃ t t', l_at p = Some (Dir t) ∧ r_at p = Some (Dir t')) ∨ ∃ n, l_at p = Some n ∧ r_at p = Some n).
    { intros ([n Hn] & Hk & _) [n' Hn']. destruct (cl_new _ _ _ _ _ _ H p n n' Hk Hn Hn') as [[Hd Hd']|(c & t & -> & ->)]; [left|right; eauto].
      destruct n; try done. destruct n'; try done. eauto. }
    destruct Ha as [Ha|Ha].
    - destruct Hb as [[Hk Hb]|Hb].
      + destruct (Hnew Ha Hb) as [(t & t' & _ & Er)|?]; [left|by right]. exists t'. by rewrite (merged_new_r _ _ _ _ _ _ H p (Dir t')).
      + right. destruct Ha as (Hl & Hk & Hs). destruct Hb as [[? _]|(d & Hd & Hdir & _)]; [done|].
        destruct (cl_unlisted _ _ _ _ _ _ H p) as [?|Hr]; [by eexists|done|].
        destruct (Hnew (conj Hl (conj Hk Hs)) Hr) as [(t & t' & _ & Er)|?]; [|done]. exfalso.
        pose proof (cl_kind_r _ _ _ _ _ _ H p false (Dir t')) as Hx. specialize (Hx ltac:(right; by rewrite Hd, <-Hdir) Er). done.
    - right. destruct Hb as [[Hk Hb]|Hb]; [by destruct Ha|]. destruct (cl_edited _ _ _ _ _ _ H p Ha Hb) as (c & t & ? & ?). eauto.
  Qed.
  Lemma less_conflict_wp (Q : res _ → world → Prop) w' a b a' b' :
    (∀ p, p ∈ a ↔ new_l p) → (∀ p, p ∈ b ↔ ¬ known p ∧ is_Some (r_at p)) → (∀ p, p ∈ a' ↔ edited_l p) → (∀ p, p ∈ b' ↔ edited_r p) →
    less gone_r gone_l (w_fs w') → seen w' → lkind km w' →
    Q (Ok (a' ∪ a, b' ∪ b)) w' → wp (handle_conflicts C (a' ∪ a) (b' ∪ b)) act Q w'.
  Proof.
    intros Ha Hb Ha' Hb' Hls Hse [Hlk _] HQ. unfold handle_conflicts.
    apply wp_bind. eapply wp_run.
    { apply local_scan_seen; [done|apply (ls_wf _ _ _ _ _ Hls)|eapply out_dir; [apply (ls_out _ _ _ _ _ Hls)|by left]|].
      intros q Hq El. destruct (ls_l _ _ _ _ _ Hls q Hq) as [E1 E2]. destruct (decide (gone_r q)); [by apply E1|]. by rewrite E2. }
    { done. }
    cbn beta iota. apply wp_bind. eapply wp_run; [by apply remote_scan_seen|done|]. cbn beta iota.
    apply wp_bind. eapply wp_run.
    { unfold eval. rewrite conflicts_none; [reflexivity|]. intros p [[Hp|Hp]%elem_of_union [Hp'|Hp']%elem_of_union]%iter_elem%elem_of_intersection.
      all: rewrite Hlk, <-l_at_tree, rtree_m1; unfold MergeCut.km; destruct (both_dir p) as [[t Ht]|?]; [..|left; by rewrite Ht|by right].
      all: first [left; by apply Ha|right; by apply Ha'|left; by apply Hb|right; by apply Hb']. }
    { done. }
    cbn beta iota. cbn [fst snd]. rewrite !decide_True by done.
    apply wp_bind, wp_ret. apply wp_bind, wp_ret. apply wp_ret. by rewrite !renamed_none.
  Qed.
  Lemma add_again_wp (Q : res unit → world → Prop) w' a b a' b' :
    (∀ p, p ∈ a ↔ new_l p) → (∀ p, p ∈ b ↔ ¬ known p ∧ is_Some (r_at p)) → (∀ p, p ∈ a' ↔ edited_l p) → (∀ p, p ∈ b' ↔ edited_r p) →
    stored w' → seen w' → lkind km w' → rexact km w' →
    (∀ w'', w_fs w'' = w_fs w' → stored w'' → seen w'' → lkind km w'' → rexact km w'' → Q (Ok tt) w'') →
    wp (add_both C (a' ∪ a) ∅ ((a' ∪ a) ∪ (b' ∪ b)) ∅) act Q w'.
  Proof.
    intros Ha Hb Ha' Hb' Hst Hse [Hlk Hro] [Hrk Hsi] HQ.
    assert (Hm : ∀ p, p ∈ (a' ∪ a) ∪ (b' ∪ b) ∪ ∅ → is_Some (merged p)).
    { intros p Hp. apply changed_merged. rewrite <-Ha, <-Hb, <-Ha', <-Hb'. set_solver. }
    assert (Hrow : ∀ p, is_Some (merged p) → is_Some (v_ldb w' !! p) ∧ is_Some (v_rdb w' !! p)).
    { intros p [n Hn]. pose proof (Hlk p) as E1. pose proof (Hrk p) as E2. unfold MergeCut.km in E1, E2. rewrite Hn in E1, E2.
      destruct (v_ldb w' !! p), (v_rdb w' !! p); done. }
    apply (add_both_wp C act _ w' _ _ _ _ km); [done|..].
    - intros Hi He. apply set_choose_L in He as [p0 Hp0]. assert (p0 ∈ a ∨ p0 ∈ a') as [Hp|Hp] by set_solver.
      + destruct (cl_inflate _ _ _ _ _ _ H Hi) as (p & Hp' & Hl & Hr); [exists p0; by apply Ha|]. exists p. rewrite Hlk. unfold MergeCut.km.
        destruct (ldb !! p) as [d|] eqn:E; [|done]. injection Hp' as Hp'.
        destruct (proj2 (merged_known _ _ _ _ _ _ H p ltac:(by eexists)) (conj Hl Hr)) as [n Hn]. rewrite Hn. cbn. f_equal.
        by rewrite (merged_kind_known _ _ _ _ _ _ H _ _ _ E Hn).
      + apply Ha' in Hp. exists p0. rewrite Hlk. unfold MergeCut.km. rewrite (merged_edit _ _ _ _ _ _ H) by done. by destruct Hp as (_ & c & t & -> & _).
    - set_solver.
    - set_solver.
    - set_solver.
    - intros p k [Hk|Hk]; [by rewrite Hlk in Hk|by rewrite Hrk in Hk].
    - intros p Hp%Hm Hn. destruct (Hrow p Hp) as [[? E1] [? E2]]. destruct Hn; congruence.
    - intros p Hp%Hm. destruct Hp as [n Hn]. destruct (merged_parent _ _ _ _ _ _ H _ _ Hn) as [?|[t Ht]]; [by left|right]. unfold MergeCut.km. by rewrite Ht.
    - intros p r [n Hn]%Hm Hbel Hk. unfold MergeCut.km in Hk. apply fmap_Some in Hk as (n' & Hn' & Hk). 
      apply (kind_over p r (is_Dir n)); [by apply kind_merged|done|]. rewrite Hk. by apply kind_merged.
    - intros l r Hl Hr Hnew Hs. apply HQ; [done|done|done|..].
      + split.
        * intros p. cbn [v_ldb set_vldb]. rewrite Hl. case_decide as Hd; [done|]. unfold MergeCut.km. destruct (merged p) as [n|] eqn:En; [|done].
          destruct Hd. right. apply Hrow. by eexists.
        * intros p x Hx Hxd. cbn [v_ldb set_vldb set_vrdb] in Hx. destruct (Hnew p x Hx Hxd) as [Hx'|[Hx' _]]; [by eapply Hro|].
          exfalso. specialize (Hl p). rewrite Hx in Hl. case_decide as Hd; [|done]. cbn in Hl. symmetry in Hl.
          apply fmap_Some in Hl as (n & Hn & _). destruct (proj1 (Hrow p ltac:(by eexists))). congruence.
      + split; [|cbn [v_rdb set_vldb set_vrdb]; eapply since_trans; [done|done|]; intros p [d Hd]; specialize (Hr p); rewrite Hd in Hr].
        2: { case_decide; [|done]. specialize (Hrk p). rewrite <-Hr in Hrk. by destruct (v_rdb w' !! p). }
        intros p. cbn [v_rdb set_vldb set_vrdb]. rewrite Hr. case_decide as Hd; [done|]. unfold MergeCut.km. destruct (merged p) as [n|] eqn:En; [|done].
        destruct Hd. right. apply Hrow. by eexists.
  Qed.

End sync.
