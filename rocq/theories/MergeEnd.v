(** A sync of a clean state: the end, and the whole. *)
From Coq Require Import QArith Qcanon.
From Verif Require Export ExcludeProofs MergeIntro MergeDown.
From Verif Require Import SelectProofs.
From stdpp Require Import options.

Section sync.
  Set Default Proof Using "Type*".
  Context (C : conf) (w : world) (last : Z) (X : pset).
  Local Notation m := (w_fs w).
  Local Notation ldb := (w_ldb w).
  Local Notation rdb := (w_rdb w).
  Context (H : clean_x C m ldb rdb last X).
  Context (Hit : ∀ l, c_iter C l ≡ₚ l) (Hrows : ∀ l, c_rows C l ≡ₚ l).
  Context (Hvl : v_ldb w = ldb) (Hvr : v_rdb w = rdb) (Hfresh : FMProofs.fresh w) (Hlast : w_last w = Some last).
  Context (w0 : world) (row : path → ldata → Prop) (Hsf : stands_for C w X w0 row).
  Local Notation L := (c_L C).
  Local Notation R := (c_R C).
  Local Notation l_at := (l_at C m).
  Local Notation r_at := (r_at C m).
  Local Notation known := (known ldb).
  Local Notation stray := (stray C m ldb X).
  Local Notation merged := (merged C m ldb last X).
  Local Notation new_l := (new_l C m ldb X).
  Local Notation gone_l := (gone_l C m ldb).
  Local Notation gone_r := (gone_r C m ldb).
  Local Notation edited_l := (edited_l C m ldb last).
  Local Notation edited_r := (edited_r C m ldb rdb last).
  Local Notation trashed := (trashed C m ldb).
  Local Notation m1 := (with_excl C (c_patterns C) m).
  Local Notation intact := (intact C w last X).
  Local Notation tsafe := (tsafe C w).
  Local Notation tsafe_r := (tsafe_r C w last X H Hit Hrows Hvl Hvr Hfresh Hlast).
  Local Notation tin := (tin C w).
  Local Notation to_trash := (to_trash C w).
  Local Notation stored := (stored w0).
  Local Notation seen := (seen C w0 X).
  Local Notation utl := (utl C w).
  Local Notation less := (less C w).
  Local Notation lessing := (lessing C w).
  Local Notation act := (act C w last X w0).
  Local Notation kind := (kind C w last X).
  Local Notation HR0 := (HR0 C w last X H Hit Hrows Hvl Hvr Hfresh Hlast).
  Local Notation HL0 := (HL0 C w last X H Hit Hrows Hvl Hvr Hfresh Hlast).
  Local Notation LR_ne := (LR_ne C w last X H Hit Hrows Hvl Hvr Hfresh Hlast).
  Local Notation util_not_L := (util_not_L C w last X H Hit Hrows Hvl Hvr Hfresh Hlast).
  Local Notation util_not_R := (util_not_R C w last X H Hit Hrows Hvl Hvr Hfresh Hlast).
  Local Notation util_out := (util_out C w last X H Hit Hrows Hvl Hvr Hfresh Hlast).
  Local Notation m1_less := (m1_less C w last X H Hit Hrows Hvl Hvr Hfresh Hlast).
  Local Notation m1_other := (m1_other C w last X H Hit Hrows Hvl Hvr Hfresh Hlast).
  Local Notation less_lessing := (less_lessing C w last X H Hit Hrows Hvl Hvr Hfresh Hlast).
  Local Notation lkind := (lkind row).
  Local Notation kind_over := (kind_over C w last X H Hit Hrows Hvl Hvr Hfresh Hlast).
  Local Notation kind_merged := (kind_merged C w last X H Hit Hrows Hvl Hvr Hfresh Hlast).
  Local Notation kind_ldb := (kind_ldb C w last X H Hit Hrows Hvl Hvr Hfresh Hlast).
  Local Notation tsame_utl := (tsame_utl C w last X H Hit Hrows Hvl Hvr Hfresh Hlast).
  Local Notation L_out := (L_out C w last X H Hit Hrows Hvl Hvr Hfresh Hlast).
  Local Notation R_out := (R_out C w last X H Hit Hrows Hvl Hvr Hfresh Hlast).
  Local Notation out_dir := (out_dir C w last X H Hit Hrows Hvl Hvr Hfresh Hlast).
  Local Notation iter_elem := (iter_elem C w last X H Hit Hrows Hvl Hvr Hfresh Hlast).
  Local Notation below_not_both := (below_not_both C w last X H Hit Hrows Hvl Hvr Hfresh Hlast).
  Local Notation util_below := (util_below C w last X H Hit Hrows Hvl Hvr Hfresh Hlast).
  Local Notation excluded_seen := (excluded_seen C w last X H Hit Hrows Hvl Hvr Hfresh Hlast w0 row Hsf).
  Local Notation top_gone_l := (top_gone_l C w last X H Hit Hrows Hvl Hvr Hfresh Hlast).
  Local Notation top_gone_r := (top_gone_r C w last X H Hit Hrows Hvl Hvr Hfresh Hlast).
  Local Notation stray_not_gone := (stray_not_gone C w last X H Hit Hrows Hvl Hvr Hfresh Hlast).
  Local Notation ltree_m1 := (ltree_m1 C w last X H Hit Hrows Hvl Hvr Hfresh Hlast).
  Local Notation rtree_m1 := (rtree_m1 C w last X H Hit Hrows Hvl Hvr Hfresh Hlast).
  Local Notation not_under_util := (not_under_util C w last X H Hit Hrows Hvl Hvr Hfresh Hlast).
  Local Notation tsame := (tsame C w).
  Local Notation K2 := (K2 C w last X).
  Local Notation km := (km C w last X).
  Local Notation remote_scan_seen := (remote_scan_seen C w last X H Hit Hrows Hvl Hvr Hfresh Hlast w0 row Hsf).
  Local Notation update_remote_wp := (update_remote_wp C w last X H Hit Hrows Hvl Hvr Hfresh Hlast w0 row Hsf).
  Local Notation utl_same := (utl_same C w last X H Hit Hrows Hvl Hvr Hfresh Hlast w0 row Hsf).
  Local Notation rsent := (rsent C w last X).
  Local Notation tin_file := (tin_file C w last X H Hit Hrows Hvl Hvr Hfresh Hlast w0 row Hsf).
  Local Notation tin_same := (tin_same C w last X H Hit Hrows Hvl Hvr Hfresh Hlast w0 row Hsf).
  Local Notation sent := (sent C w last X).
  Local Notation rready := (rready C w last X).
  Local Notation excluded_size_wp := (excluded_size_wp C w last X H Hit Hrows Hvl Hvr Hfresh Hlast w0 row Hsf).
  Local Notation excluded_remote := (excluded_remote C w last X H Hit Hrows Hvl Hvr Hfresh Hlast w0 row Hsf).
  Local Notation prioritize_wp := (prioritize_wp C w last X H Hit Hrows Hvl Hvr Hfresh Hlast w0 row Hsf).
  Local Notation update_local_wp := (update_local_wp C w last X H Hit Hrows Hvl Hvr Hfresh Hlast w0 row Hsf).
  Local Notation sent_l := (sent_l C w last X H Hit Hrows Hvl Hvr Hfresh Hlast w0 row Hsf).
  Local Notation sent_r := (sent_r C w last X H Hit Hrows Hvl Hvr Hfresh Hlast w0 row Hsf).
  Local Notation placed := (placed C w last X).
  Local Notation covered_dec := (covered_dec).
  Local Notation flagged := (flagged C w row).
  Local Notation lkd := (lkd C w last X).
  Local Notation km_over := (km_over C w last X H Hit Hrows Hvl Hvr Hfresh Hlast w0 row Hsf).
  Local Notation fits := (fits C w last X).
  Local Notation roomy := (roomy C w last X).
  Local Notation ranked := (ranked C w last X).
  Local Notation km_file := (km_file C w last X H Hit Hrows Hvl Hvr Hfresh Hlast w0 row Hsf).

  Local Notation outcome := (outcome C m ldb last X).
  Local Notation set_aside := (set_aside ldb X).
  Local Notation let_go := (let_go C ldb X).
  Local Notation parted := (parted C m ldb last X).
  Lemma merged_hidden p : p = [] ∨ zielen_dir `prefix_of` p → merged p = None.
  Proof.
    intros Hp. destruct (merged p) as [n|] eqn:Hm; [|done]. destruct (merged_ours _ _ _ _ _ _ H _ _ Hm) as (Hp0 & _ & Hz). by destruct Hp.
  Qed.
  Lemma placed_outcome m6 S m' : sent m6 → placed m6 S m' → outcome m'.
  Proof.
    intros Hs Hp.
    assert (Hr : ∀ q, m' !! (R ++ q) = m6 !! (R ++ q)).
    { intros q. apply (pl_out _ _ _ _ _ _ _ Hp). apply apart_not_below, apart_sym, (cl_apart _ _ _ _ _ _ H). }
    assert (Ho : ∀ k, ¬ below k L → ¬ below k R → m' !! k = m !! k).
    { intros k Hk Hk'. rewrite (pl_out _ _ _ _ _ _ _ Hp) by done. by apply (sn_out _ _ _ _ _ Hs). }
    assert (Hu : utl m').
    { eapply utl_same; [|apply (sn_util _ _ _ _ _ Hs)]. intros k [s ->]. unfold util_dir. rewrite <-!app_assoc. apply Hr. }
    split.
    - intros p. unfold Merge.r_at. case_decide as Hd; [by rewrite merged_hidden|]. rewrite Hr. apply (sn_r _ _ _ _ _ Hs); tauto.
    - intros p. unfold shows, Merge.l_at. case_decide as Hd.
      { rewrite merged_hidden by by left. rewrite decide_False; [done|]. intros ([n Hn] & _). by apply l_at_some in Hn as [? _]. }
      destruct (merged p) as [[c t|t k|t]|] eqn:Hm.
      + destruct (pl_file _ _ _ _ _ _ _ Hp p c t Hm) as [[_ E]|[_ E]]; [by left|by right].
      + by apply (merged_no_link _ _ _ _ _ _ H) in Hm.
      + by eapply (pl_dir _ _ _ _ _ _ _ Hp).
      + rewrite (pl_none _ _ _ _ _ _ _ Hp) by done. case_decide as Hst.
        * rewrite (proj2 (sn_l _ _ _ _ _ Hs p Hd)) by by apply stray_not_gone. by rewrite l_at_ne.
        * destruct (sent_l _ p Hs Hd) as [E|[E _]]; rewrite E; [|done]. destruct (l_at p) as [n|] eqn:El; [exfalso|done].
          assert (gone_r p) as Hg by (apply (not_merged_l _ _ _ _ _ _ H); [done|done|by eexists]).
          rewrite (proj1 (sn_l _ _ _ _ _ Hs p Hd)) in E by done. done.
    - done.
    - split; [apply (pl_wf _ _ _ _ _ _ _ Hp)|by eapply out_dir; [done|left]|by eapply out_dir; [done|right]|apply HL0].
    - apply Hu.
    - apply Hu.
    - apply Hu.
    - intros k Hk Hk'. rewrite (ul_rest _ _ _ Hu) by done. unfold with_excl. case_decide as Hd; [subst k; apply lookup_insert|by rewrite lookup_insert_ne].
  Qed.
  (** ** Excluded paths *)
  Lemma set_aside_dec p : set_aside p ∨ ¬ set_aside p.
  Proof using Type.
    destruct (decide (set_Exists (λ q, is_Some (ldb !! q) ∧ q `prefix_of` p) X)) as [(q & Hq & Hk & Hp)|Hn]; [left; by exists q|right].
    intros (q & Hq & Hk & Hp). apply Hn. by exists q.
  Qed.
  Lemma let_go_aside m5 p : let_go m5 p → set_aside p.
  Proof using Type. intros (q & Hq & Hk & _ & Hp). by exists q. Qed.
  Lemma here_ours p : known p → ours p.
  Proof. intros [x Hx]. destruct (cl_rows_l _ _ _ _ _ _ H p (ld_dir x)) as [Ho _]; [cbv beta; by rewrite Hx|done]. Qed.
  Lemma aside_ours p : set_aside p → p ≠ [] ∧ ¬ zielen_dir `prefix_of` p.
  Proof.
    intros (q & Hq & (Hq0 & _ & Hz)%here_ours & [s ->]). destruct q as [|x q]; [done|]. split; [done|]. intros [r Hr]. apply Hz.
    cbn in Hr. injection Hr as -> _. exists q. done.
  Qed.
  Lemma aside_not_util p k : set_aside p → util_dir C `prefix_of` k → ¬ R ++ p `prefix_of` k.
  Proof.
    intros (q & Hq & (Hq0 & _ & Hz)%here_ours & [s ->]) [r ->] [t E]. unfold util_dir in E. rewrite <-!app_assoc in E. apply app_inv_head in E.
    destruct q as [|x q]; [done|]. cbn in E. injection E as E _. apply Hz. exists q. by rewrite <-E.
  Qed.
  Lemma aside_merged p : p ∈ X → known p → is_Some (merged p).
  Proof.
    intros Hp Hk. destruct (cl_excluded_x _ _ _ _ _ _ H p Hp) as [[n Hn] Hr]. destruct (Hr Hk) as [n' Hn']. destruct Hk as [x Hx].
    unfold Merge.merged. rewrite Hx, Hn, Hn'. destruct n; try by eexists. destruct (_ <? _)%Z; by eexists.
  Qed.
  (** Only entries of the trash change. *)
  Lemma parted_spared m5 m' m'' P : (∀ x, P x ∨ ¬ P x) → parted m5 m' → wf_fs m'' → spared (trash_dir C) P m' m'' → (∀ x s, P x → m'' !! (trash_dir C ++ x :: s) = None) → parted m5 m''.
  Proof.
    intros HP [Hoc Hco Hg Hre Hm Hu Ht Htl] Hwf Hsp Hgone.
    assert (Hdir : ∀ d, (∀ x, ¬ trash_dir C ++ [x] `prefix_of` d) → d ≠ [] → dir_at m' d → dir_at m'' d).
    { intros d Hd Hd0 [t Ht']. exists t. rewrite node_at_ne in * by done. rewrite Hsp; [done|]. intros x _. apply Hd. }
    assert (HuL : ∀ x, ¬ trash_dir C ++ [x] `prefix_of` exclude_dir C).
    { intros x [s E]. unfold trash_dir, exclude_dir in E. rewrite <-!app_assoc in E. apply app_inv_head in E. by injection E. }
    assert (HuF : ∀ x, ¬ trash_dir C ++ [x] `prefix_of` exclude_file C).
    { intros x [s E]. unfold exclude_file, trash_dir, exclude_dir in E. rewrite <-!app_assoc in E. apply app_inv_head in E. by injection E. }
    assert (HuT : ∀ x, ¬ trash_dir C ++ [x] `prefix_of` trash_dir C).
    { intros x [s E]. apply (f_equal length) in E. rewrite !app_length in E. cbn in E. lia. }
    assert (HTu : ∀ x d, ¬ util_dir C `prefix_of` d → ¬ trash_dir C ++ [x] `prefix_of` d).
    { intros x d Hd Hx. apply Hd. etrans; [|exact Hx]. unfold trash_dir. rewrite <-app_assoc. by eexists. }
    split.
    - done.
    - done.
    - intros p Hp. destruct (aside_ours p (let_go_aside _ _ Hp)) as [_ Hz]. rewrite Hsp; [by apply Hg|]. intros x _. apply HTu. by apply util_not_R.
    - intros k Hk Hk'. rewrite Hsp; [by apply Hre|]. intros x _ Hx. apply Hk. etrans; [|exact Hx]. by eexists.
    - split; [done|..].
      + apply Hdir; [|apply HL0|apply Hm]. intros x. apply HTu. pose proof (util_not_L []) as Hx. by rewrite app_nil_r in Hx.
      + apply Hdir; [|apply HR0|apply Hm]. intros x. apply HTu. apply util_out, R_out.
      + apply HL0.
    - destruct Hu as [Hd Hid Hf]. split; [|done|].
      + apply Hdir; [done| |done]. unfold exclude_dir, util_dir. pose proof HR0. by destruct R.
      + rewrite Hsp; [done|]. intros x _. apply HuF.
    - apply Hdir; [done| |done]. unfold trash_dir, util_dir. pose proof HR0. by destruct R.
    - intros x t k E. destruct (HP x) as [Hx|Hx]; [rewrite (Hgone x []) in E by done; done|].
      rewrite Hsp in E; [by apply Htl in E|]. intros y Hy [s E']. rewrite <-app_assoc in E'. apply app_inv_head in E'. by injection E' as -> _.
  Qed.
  Lemma trash_util k : trash_dir C `prefix_of` k → util_dir C `prefix_of` k.
  Proof using Type. intros Hk. etrans; [|exact Hk]. by eexists. Qed.
  (** No known path is excluded. *)
  Lemma parted_outcome m5 m' : (∀ p, p ∈ X → ¬ known p) → parted m5 m' → outcome m'.
  Proof.
    intros Hun [[Hr Hl Ho Hm Hu Ht Htl Hrs] _ _ Hre Hm' Hu' Ht' Htl'].
    assert (Hsame : ∀ k, ¬ trash_dir C `prefix_of` k → m' !! k = m5 !! k).
    { intros k Hk. apply Hre; [done|]. intros p (q & Hq & Hkn & _). by destruct (Hun q Hq). }
    split; [..|done|done|done|done|].
    - intros p. unfold Merge.r_at in *. specialize (Hr p). case_decide as Hd; [done|]. rewrite Hsame; [done|]. intros ?%trash_util. eapply util_not_R; [|done]. tauto.
    - intros p. unfold Merge.l_at in *. specialize (Hl p). case_decide as Hd; [done|]. rewrite Hsame; [done|]. intros ?%trash_util. by eapply util_not_L.
    - intros k Hk Hk'. rewrite Hsame; [by apply Ho|]. intros ?%trash_util. by eapply util_out.
    - intros k Hk Hk'. rewrite Hsame by done. by apply Hrs.
  Qed.
  Lemma placed_tin m6 S m' : sent m6 → placed m6 S m' → tin m'.
  Proof.
    intros Hs Hp. eapply tin_same; [|apply (sn_trash _ _ _ _ _ Hs)]. intros k [s ->]. apply (pl_out _ _ _ _ _ _ _ Hp).
    unfold util_dir. rewrite <-!app_assoc. apply apart_not_below, apart_sym, (cl_apart _ _ _ _ _ _ H).
  Qed.
  Lemma tin_tsafe m' : tin m' → tsafe m'.
  Proof. intros Ht _ p x s c t Hp Hx E. right. by eapply tin_file. Qed.
  Lemma trashed_fresh m' z p x : tin m' → (0 <= z)%Z → z ≠ 0%Z → trashed p → list.last p = Some x → ¬ expired C m' (c_now C - z) x.
  Proof.
    intros Ht Hz Hz0 Hp Hx (n & Hn & Hmt). destruct (ti_new _ _ _ Ht p x Hp Hx) as [E _]. rewrite Hn in E. symmetry in E.
    apply fmap_Some in E as (n' & _ & ->). destruct n'; cbn in Hmt; lia.
  Qed.
  Lemma spared_tsafe m' m'' z : tin m' → c_cleanup C = Some z → z ≠ 0%Z → spared (trash_dir C) (expired C m' (c_now C - z)) m' m'' → tsafe m''.
  Proof.
    intros Ht Ez Hz Hsp Hcl p x s c t Hp Hx E. right. destruct (tin_file _ Ht p x s c t Hp Hx E) as [t' Et]. exists t'. rewrite Hsp; [done|].
    intros y Hy [r Er]. rewrite <-app_assoc in Er. apply app_inv_head in Er. injection Er as -> _. eapply trashed_fresh; eauto.
  Qed.
  Lemma spared_intact m' m'' P : intact m' → tsafe m'' → spared (trash_dir C) P m' m'' → intact m''.
  Proof.
    intros [Ho Hst Hk _] Hts Hsp.
    assert (Hsame : ∀ k, ¬ util_dir C `prefix_of` k → m'' !! k = m' !! k).
    { intros k Hk'. apply Hsp. intros x _ Hx. apply Hk'. etrans; [|exact Hx]. unfold trash_dir. rewrite <-app_assoc. by eexists. }
    split.
    - intros k H1 H2. rewrite Hsame; [by apply Ho|]. by apply util_out.
    - intros p Hp. rewrite Hsame by apply util_not_L. by apply Hst.
    - intros p c t Hm. destruct (merged_ours _ _ _ _ _ _ H _ _ Hm) as (_ & _ & Hz).
      rewrite Hsame by by apply util_not_R. rewrite Hsame by apply util_not_L. by eapply Hk.
    - done.
  Qed.
  Lemma outcome_intact m' : outcome m' → tsafe m' → intact m'.
  Proof.
    intros Ho Hts. split; [apply (oc_out _ _ _ _ _ _ Ho)|..].
    - intros p Hp. pose proof (oc_local _ _ _ _ _ _ Ho p) as Hl. unfold shows in Hl. rewrite (merged_not_stray _ _ _ _ _ _ H) in Hl by done.
      rewrite decide_True in Hl by done. rewrite <-Hl. assert (p ≠ []) as Hp0. { destruct Hp as ([n Hn] & _). by apply l_at_some in Hn as [? _]. }
      by rewrite l_at_ne.
    - intros p c t Hm. left. pose proof (oc_remote _ _ _ _ _ _ Ho p) as Hr. rewrite Hm in Hr. destruct (merged_ours _ _ _ _ _ _ H _ _ Hm) as (Hp & _ & Hz).
      rewrite r_at_ne in Hr by done. unfold like in Hr. by destruct (m' !! (R ++ p)) as [[]|].
    - done.
  Qed.

  Lemma removing_intact m5 m' : outcome m5 → (∀ p c t, set_aside p → merged p = Some (File c t) → Merge.l_at C m5 p = Some (File c t)) →
    (∀ k, ¬ trash_dir C `prefix_of` k → (∀ p, set_aside p → k ≠ R ++ p) → m' !! k = m5 !! k) → tsafe m' → intact m'.
  Proof.
    intros Ho Hco Hre Hts.
    assert (Hl : ∀ p, m' !! (L ++ p) = m5 !! (L ++ p)).
    { intros p. apply Hre; [intros ?%trash_util; by eapply util_not_L|]. intros q [Hq _]%aside_ours E.
      eapply (apart_not_below L R p); [apply (cl_apart _ _ _ _ _ _ H)|]. rewrite E. by apply below_app_ne. }
    split; [..|done].
    - intros k Hk Hk'. rewrite Hre; [by apply (oc_out _ _ _ _ _ _ Ho)|intros ?%trash_util; by eapply util_out|].
      intros q [Hq _]%aside_ours ->. apply Hk'. by apply below_app_ne.
    - intros p Hp. rewrite Hl. pose proof (oc_local _ _ _ _ _ _ Ho p) as E. unfold shows in E. rewrite (merged_not_stray _ _ _ _ _ _ H) in E by done.
      rewrite decide_True in E by done. rewrite <-E. assert (p ≠ []) as Hp0. { destruct Hp as ([n Hn] & _). by apply l_at_some in Hn as [? _]. }
      by rewrite l_at_ne.
    - intros p c t Hm. destruct (merged_ours _ _ _ _ _ _ H _ _ Hm) as (Hp & _ & Hz). destruct (set_aside_dec p) as [Hx|Hx].
      + right. rewrite Hl. specialize (Hco p c t Hx Hm). by rewrite l_at_ne in Hco.
      + left. rewrite Hre.
        * pose proof (oc_remote _ _ _ _ _ _ Ho p) as Hr. rewrite Hm in Hr. rewrite r_at_ne in Hr by done. unfold like in Hr. by destruct (m5 !! (R ++ p)) as [[]|].
        * intros ?%trash_util. by eapply util_not_R.
        * intros q Hq E. apply app_inv_head in E as ->. done.
  Qed.
  Lemma parted_intact m5 m' : parted m5 m' → tsafe m' → intact m'.
  Proof.
    intros Hp Hts. eapply removing_intact; [apply (pa_merge _ _ _ _ _ _ _ Hp)|apply (pa_copied _ _ _ _ _ _ _ Hp)| |done].
    intros k Hk Hk'. apply (pa_rest _ _ _ _ _ _ _ Hp); [done|]. intros p Hp'. by eapply Hk', let_go_aside.
  Qed.
  Lemma placed_copied m6 S m' : (∀ p, p ∈ X → known p → p ∈ S) → placed m6 S m' →
    ∀ p c t, set_aside p → merged p = Some (File c t) → Merge.l_at C m' p = Some (File c t).
  Proof.
    intros HS Hp p c t (q & Hq & Hk & Hqp) Hm. destruct (merged_ours _ _ _ _ _ _ H _ _ Hm) as (Hp0 & _). rewrite l_at_ne by done.
    destruct (pl_file _ _ _ _ _ _ _ Hp p c t Hm) as [[_ E]|[Hc _]]; [done|]. destruct Hc. exists q. split; [by apply HS|done].
  Qed.

  (** The rows of files and the space that is used: see C73-C75. *)
  Record settled_x (m' : fs) (db : lmap) : Prop := {
    sx_prio : ∀ p x, db !! p = Some x → ld_dir x = false →
      ∃ x0, row p x0 ∧ ld_prio x = ld_prio x0;
    sx_file : ∀ p x c t, db !! p = Some x → Merge.l_at C m' p = Some (File c t) → (ld_local x = true ↔ is_Some (l_at p));
    sx_link : ∀ p x t k, db !! p = Some x → Merge.l_at C m' p = Some (Link t k) →
      (ld_local x = true ↔ ∃ x0 t k, ldb !! p = Some x0 ∧ ld_local x0 = true ∧ l_at p = Some (Link t k));
    (** what is set aside counts with the size of what was there before *)
    sx_limit : ∀ F G : pset,
      (∀ p, p ∈ F ↔ (is_Some (db !! p) ∧ ∃ c t, Merge.l_at C m' p = Some (File c t)) ∧ ¬ set_aside p) →
      (∀ p, p ∈ G ↔ is_Some (db !! p) ∧ ∃ t k, Merge.l_at C m' p = Some (Link t k)) →
      (∀ p n, 0 <= c_blocks C p n)%Z → (0 <= c_block C)%Z ∨ (∀ p, p ∈ X → ¬ known p) → F ≠ ∅ →
      (set_sum (λ p, default 0 (c_blocks C p <$> Merge.l_at C m' p)) F + set_sum (λ p, default 0 (c_blocks C p <$> l_at p)) X
         + Z.of_nat (size G) * c_block C <= c_limit C)%Z;
    (** if everything fits, then everything is kept *)
    sx_room : (∀ p n, 0 <= c_blocks C p n)%Z → ∀ D : path → Z, (∀ p t, c_blocks C p (Dir t) <= D p)%Z →
      ∀ K : pset, (∀ p, p ∈ K ↔ is_Some (merged p)) →
      (set_sum (λ p, Z.max (match merged p with Some (File c t) => c_blocks C p (File c t) | _ => D p end) (c_block C)) K
         + set_sum (λ p, default 0 (c_blocks C p <$> l_at p)) X < c_limit C)%Z →
      ∀ p c t, merged p = Some (File c t) → Merge.l_at C m' p = Some (File c t);
    (** a file that is kept, though another one in its directory is not, is
        smaller than any file of higher priority that is not kept *)
    sx_rank : (∀ p c t, merged p = Some (File c t) → c_block C <= c_blocks C p (File c t))%Z →
      ∀ p q x y c t c' t', merged p = Some (File c t) → merged q = Some (File c' t') →
      (∃ l k, Merge.l_at C m' p = Some (Link l k)) → Merge.l_at C m' q = Some (File c' t') → ¬ set_aside q →
      (removelast q = [] ∨ ∃ r c t l k, merged r = Some (File c t) ∧ Merge.l_at C m' r = Some (Link l k) ∧ removelast q `prefix_of` r) →
      db !! p = Some x → ld_dir x = false → db !! q = Some y → ld_dir y = false →
      (adj (c_account C) (ld_prio y) (c_blocks C q (File c' t')) < adj (c_account C) (ld_prio x) (c_blocks C p (File c t)))%Qc →
      (c_blocks C q (File c' t') < c_blocks C p (File c t))%Z
  }.
  Record settled (m' : fs) (db : lmap) : Prop := {
    se_prio : ∀ p x, db !! p = Some x → ld_dir x = false →
      ∃ x0, row p x0 ∧ ld_prio x = ld_prio x0;
    se_file : ∀ p x c t, db !! p = Some x → Merge.l_at C m' p = Some (File c t) → (ld_local x = true ↔ is_Some (l_at p));
    se_link : ∀ p x t k, db !! p = Some x → Merge.l_at C m' p = Some (Link t k) →
      (ld_local x = true ↔ ∃ x0 t k, ldb !! p = Some x0 ∧ ld_local x0 = true ∧ l_at p = Some (Link t k));
    se_limit : ∀ F G : pset,
      (∀ p, p ∈ F ↔ is_Some (db !! p) ∧ ∃ c t, Merge.l_at C m' p = Some (File c t)) →
      (∀ p, p ∈ G ↔ is_Some (db !! p) ∧ ∃ t k, Merge.l_at C m' p = Some (Link t k)) →
      (∀ p n, 0 <= c_blocks C p n)%Z → F ≠ ∅ →
      (set_sum (λ p, default 0 (c_blocks C p <$> Merge.l_at C m' p)) (F ∪ X) + Z.of_nat (size G) * c_block C <= c_limit C)%Z;
    (** if everything fits, then everything is kept *)
    se_room : (∀ p n, 0 <= c_blocks C p n)%Z → ∀ D : path → Z, (∀ p t, c_blocks C p (Dir t) <= D p)%Z →
      ∀ K : pset, (∀ p, p ∈ K ↔ is_Some (merged p)) →
      (set_sum (λ p, Z.max (match merged p with Some (File c t) => c_blocks C p (File c t) | _ => D p end) (c_block C)) K
         + set_sum (λ p, default 0 (c_blocks C p <$> l_at p)) X < c_limit C)%Z →
      ∀ p c t, merged p = Some (File c t) → Merge.l_at C m' p = Some (File c t);
    (** a file that is kept, though another one in its directory is not, is
        smaller than any file of higher priority that is not kept *)
    se_rank : (∀ p c t, merged p = Some (File c t) → c_block C <= c_blocks C p (File c t))%Z →
      ∀ p q x y c t c' t', merged p = Some (File c t) → merged q = Some (File c' t') →
      (∃ l k, Merge.l_at C m' p = Some (Link l k)) → Merge.l_at C m' q = Some (File c' t') →
      (removelast q = [] ∨ ∃ r c t l k, merged r = Some (File c t) ∧ Merge.l_at C m' r = Some (Link l k) ∧ removelast q `prefix_of` r) →
      db !! p = Some x → ld_dir x = false → db !! q = Some y → ld_dir y = false →
      (adj (c_account C) (ld_prio y) (c_blocks C q (File c' t')) < adj (c_account C) (ld_prio x) (c_blocks C p (File c t)))%Qc →
      (c_blocks C q (File c' t') < c_blocks C p (File c t))%Z
  }.
  Lemma settled_strict (m' : fs) (db : lmap) : (∀ p, p ∈ X → ¬ known p) → outcome m' → (∀ p, ld_dir <$> db !! p = km p) → settled_x m' db → settled m' db.
  Proof.
    intros Hun Ho Hdb [H1 H2 H3 H4 H5 H6]. split; [done..| |done|].
    2:{ intros HS p q x y c t c' t' Hp Hq Hl Hf Hs. apply (H6 HS p q x y c t c' t' Hp Hq Hl Hf); [|done].
        intros (r & Hr & Hk & _). by apply (Hun r). }
    intros F G HF HG Hnn Hne.
    assert (Hst : ∀ p, p ∈ X → stray p).
    { intros p Hx. destruct (cl_excluded_x _ _ _ _ _ _ H p Hx) as [Hl _]. split; [done|]. split; [by apply Hun|by left]. }
    assert (Hdisj : F ## X).
    { intros p [[x Hd] _]%HF Hx. specialize (Hdb p). rewrite Hd in Hdb. unfold MergeCut.km in Hdb.
      by rewrite (merged_not_stray _ _ _ _ _ _ H p (Hst p Hx)) in Hdb. }
    rewrite set_sum_union by done.
    assert (set_sum (λ p, default 0%Z (c_blocks C p <$> Merge.l_at C m' p)) X = set_sum (λ p, default 0%Z (c_blocks C p <$> l_at p)) X) as ->.
    { apply set_sum_ext. intros p Hx. pose proof (oc_local _ _ _ _ _ _ Ho p) as E. unfold shows in E.
      rewrite (merged_not_stray _ _ _ _ _ _ H p (Hst p Hx)), decide_True in E by by apply Hst. by rewrite E. }
    apply H4; [|done|done|by right|done]. intros p. rewrite HF. split; [|tauto]. intros Hp. split; [done|]. intros (q & Hq & Hk & _). by apply (Hun q).
  Qed.
  Lemma settled_same (m' m'' : fs) (db : lmap) : (∀ p, Merge.l_at C m'' p = Merge.l_at C m' p) → settled_x m' db → settled_x m'' db.
  Proof using Type.
    intros E [H1 H2 H3 H4 H5 H6]. split; [done|..].
    - intros p x c t. rewrite E. apply H2.
    - intros p x t k. rewrite E. apply H3.
    - intros F G HF HG Hn Hb Hne. rewrite (set_sum_ext _ (λ p, default 0%Z (c_blocks C p <$> Merge.l_at C m' p))) by (intros p _; by rewrite E).
      apply H4; [..|done|done|done]; intros p; [rewrite HF|rewrite HG]; by rewrite E.
    - intros Hn D HD K HK Hlt p c t Hm. rewrite E. by apply (H5 Hn D HD K HK Hlt).
    - intros HS p q x y c t c' t' Hp Hq Hl Hf Hna Hs. rewrite E in Hl, Hf. apply (H6 HS p q x y c t c' t' Hp Hq Hl Hf Hna).
      destruct Hs as [Hs|(r & c1 & t1 & l & k & Hr & Hrl & Hpre)]; [by left|right]. exists r, c1, t1, l, k. by rewrite <-E.
  Qed.
  Lemma placed_settled (m6 : fs) (S0 S : pset) (m' : fs) (db : lmap) : (∀ p, p ∈ S0 → is_Some (merged p)) → (∀ p, p ∈ S ↔ p ∈ S0 ∨ (p ∈ X ∧ known p)) →
    sent m6 → placed m6 S m' → (∀ p, ld_dir <$> db !! p = km p) → flagged S db →
    fits m6 S0 (c_limit C - set_sum (λ p, default 0%Z (c_blocks C p <$> l_at p)) X) →
    roomy m6 S0 (c_limit C - set_sum (λ p, default 0%Z (c_blocks C p <$> l_at p)) X) →
    (∃ db0 : lmap, ranked S0 db0 ∧ (∀ p x, db !! p = Some x → ld_dir x = false → ∃ x0, db0 !! p = Some x0 ∧ ld_prio x = ld_prio x0)) → settled_x m' db.
  Proof.
    intros HSm HS Hs Hp Hdb Hfl Hfit Hroom Hrank.
    assert (Hat : ∀ p n, merged p = Some n → Merge.l_at C m' p = m' !! (L ++ p)).
    { intros p n Hm. apply l_at_ne. by destruct (merged_ours _ _ _ _ _ _ H _ _ Hm). }
    assert (Hrow : ∀ p, is_Some (db !! p) ↔ is_Some (merged p)).
    { intros p. pose proof (Hdb p) as E. unfold MergeCut.km in E. destruct (db !! p), (merged p); try done; split; intros [? ?]; simplify_eq; by eexists. }
    assert (Hnd : ∀ p x n, db !! p = Some x → Merge.l_at C m' p = Some n → is_Dir n = false → ld_dir x = false ∧ ∃ c t, merged p = Some (File c t)).
    { intros p x n Hx Hn Hd. destruct (proj1 (Hrow p) ltac:(by eexists)) as [n0 Hm]. pose proof (Hdb p) as E. rewrite Hx in E. unfold MergeCut.km in E. rewrite Hm in E.
      injection E as E. destruct n0 as [c t|t k|t].
      - split; [done|eauto].
      - by apply (merged_no_link _ _ _ _ _ _ H) in Hm.
      - destruct (pl_dir _ _ _ _ _ _ _ Hp p t Hm) as [t' E']. rewrite (Hat p _ Hm), E' in Hn. by injection Hn as <-. }
    assert (Hcov : ∀ p x c t, db !! p = Some x → Merge.l_at C m' p = Some (File c t) → covered S p ∧ m6 !! (R ++ p) = Some (File c t)).
    { intros p x c t Hx Hl. destruct (Hnd p x _ Hx Hl eq_refl) as (_ & c' & t' & Hm).
      destruct (pl_file _ _ _ _ _ _ _ Hp p c' t' Hm) as [[Hc E]|[_ [k E]]]; rewrite (Hat _ _ Hm), E in Hl; [|done]. injection Hl as <- <-.
      split; [done|]. destruct (sent_r _ _ _ Hs Hm) as (n' & -> & _ & Hn). by rewrite Hn. }
    assert (Hunc : ∀ p x t k, db !! p = Some x → Merge.l_at C m' p = Some (Link t k) → ¬ covered S p).
    { intros p x t k Hx Hl. destruct (Hnd p x _ Hx Hl eq_refl) as (_ & c' & t' & Hm).
      destruct (pl_file _ _ _ _ _ _ _ Hp p c' t' Hm) as [[Hc E]|[Hc _]]; [|done]. rewrite (Hat _ _ Hm), E in Hl. done. }
    split.
    - intros p x Hx Hd. destruct (Hfl p x Hx Hd) as (x0 & H1 & H2 & _). exists x0. done.
    - intros p x c t Hx Hl. destruct (Hnd p x _ Hx Hl eq_refl) as (Hd & _). destruct (Hfl p x Hx Hd) as (x0 & _ & _ & H3 & _).
      rewrite H3 by by eapply Hcov. apply bool_decide_eq_true.
    - intros p x t k Hx Hl. destruct (Hnd p x _ Hx Hl eq_refl) as (Hd & c & t0 & Hm). destruct (Hfl p x Hx Hd) as (x0 & H1 & _ & _ & H4).
      rewrite H4 by by eapply Hunc. destruct (l_at p) as [[c' t'|l k'|t']|] eqn:El; try (split; [done|intros (? & ? & ? & _ & _ & ?); congruence]).
      destruct (ldb !! p) as [y|] eqn:Ey.
      + apply (sf_row _ _ _ _ _ Hsf _ _ _ Ey) in H1. subst y. split; [intros Hx0; by exists x0, l, k'|]. by intros (y & ? & ? & [= <-] & ? & _).
      + exfalso. destruct (cl_link_l _ _ _ _ _ _ H _ _ _ El) as [[[? ?] _]|Hst]; [congruence|]. by rewrite (merged_not_stray _ _ _ _ _ _ H) in Hm.
    - intros F G HF HG Hnn Hbl Hne.
      assert (Hkm : ∀ p, km p = Some false → is_Some (db !! p)). { intros p Hk. rewrite <-Hdb in Hk. by apply fmap_Some in Hk as (x & -> & _). }
      assert (Hfit' : S0 ≠ ∅ → ∃ F0 G0 : pset, (∀ q, q ∈ F0 ↔ km q = Some false ∧ covered S0 q) ∧ (∀ q, q ∈ G0 ↔ km q = Some false ∧ ¬ covered S0 q) ∧
        (set_sum (λ q, default 0 (c_blocks C q <$> m6 !! (R ++ q))) F0 + Z.of_nat (size G0) * c_block C
          <= c_limit C - set_sum (λ p, default 0 (c_blocks C p <$> l_at p)) X)%Z).
      { intros HS0. exists (filter (λ q, km q = Some false ∧ set_Exists (λ r, r `prefix_of` q) S0) (dom db)), (filter (λ q, km q = Some false ∧ ¬ set_Exists (λ r, r `prefix_of` q) S0) (dom db)).
        assert (∀ P : path → Prop, ∀ q, (km q = Some false ∧ P q) ∧ q ∈ dom db ↔ km q = Some false ∧ P q) as Hd.
        { intros P q. split; [tauto|]. intros [Hk HP]. split; [done|]. by apply elem_of_dom, Hkm. }
        assert (∀ q, q ∈ filter (λ q, km q = Some false ∧ set_Exists (λ r, r `prefix_of` q) S0) (dom db) ↔ km q = Some false ∧ covered S0 q) as HF0.
        { intros q. rewrite elem_of_filter. apply (Hd (λ q, set_Exists (λ r, r `prefix_of` q) S0)). }
        assert (∀ q, q ∈ filter (λ q, km q = Some false ∧ ¬ set_Exists (λ r, r `prefix_of` q) S0) (dom db) ↔ km q = Some false ∧ ¬ covered S0 q) as HG0.
        { intros q. rewrite elem_of_filter. apply (Hd (λ q, ¬ set_Exists (λ r, r `prefix_of` q) S0)). }
        split; [done|]. split; [done|]. by apply Hfit. }
      assert (S0 ≠ ∅) as (F0 & G0 & HF0 & HG0 & Hle)%Hfit'.
      { apply set_choose_L in Hne as [p Hq]. apply HF in Hq as [([x Hx] & c & t & Hl) Hna]. destruct (Hcov p x c t Hx Hl) as [(r & Hr & Hrp) _].
        apply HS in Hr as [Hr|[Hr Hk]]; [set_solver|]. destruct Hna. by exists r. }
      assert (set_sum (λ p, default 0%Z (c_blocks C p <$> Merge.l_at C m' p)) F = set_sum (λ q, default 0%Z (c_blocks C q <$> m6 !! (R ++ q))) F) as ->.
      { apply set_sum_ext. intros p [([x Hx] & c & t & Hl) _]%HF. destruct (Hcov p x c t Hx Hl) as [_ E]. by rewrite E, Hl. }
      assert (set_sum (λ q, default 0 (c_blocks C q <$> m6 !! (R ++ q))) F <= set_sum (λ q, default 0 (c_blocks C q <$> m6 !! (R ++ q))) F0)%Z as HleF.
      { apply set_sum_mono. { intros q. destruct (m6 !! (R ++ q)); cbn; [apply Hnn|lia]. }
        intros p [([x Hx] & c & t & Hl) Hna]%HF. apply HF0. split; [apply km_file; by eapply Hnd|].
        destruct (Hcov p x c t Hx Hl) as [(r & Hr & Hrp) _]. exists r. split; [|done]. apply HS in Hr as [Hr|[Hr Hk]]; [done|]. destruct Hna. by exists r. }
      assert (G ⊆ G0) as HGG.
      { intros p ([x Hx] & t & k & Hl)%HG. apply HG0. split; [apply km_file; by eapply Hnd|]. intros (r & Hr & Hrp).
        apply (Hunc p x t k Hx Hl). exists r. split; [apply HS; by left|done]. }
      assert (Z.of_nat (size G) * c_block C <= Z.of_nat (size G0) * c_block C)%Z as HleG; [|lia].
      destruct Hbl as [Hbl|Hun].
      { apply Z.mul_le_mono_nonneg_r; [done|]. apply inj_le. by apply subseteq_size. }
      assert (G = G0) as ->; [|lia]. apply set_eq. intros p. split; [apply HGG|]. intros [Hk Hc]%HG0. apply HG. split; [by apply Hkm|].
      apply km_file in Hk as (c & t & Hm). destruct (pl_file _ _ _ _ _ _ _ Hp p c t Hm) as [[Hc' _]|[_ [k E]]].
      + destruct Hc. destruct Hc' as (r & Hr & Hrp). apply HS in Hr as [Hr|[Hr Hk]]; [by exists r|by destruct (Hun r Hr)].
      + rewrite (Hat _ _ Hm). eauto.
    - intros Hnn D HD K HK Hlt p c t Hm. rewrite (Hat p _ Hm).
      assert (covered S0 p) as Hc.
      { apply (Hroom Hnn K); [|..|unfold MergeCut.km; by rewrite Hm].
        - intros q. rewrite HK. unfold MergeCut.km. by rewrite fmap_is_Some.
        - enough (set_sum (λ q, Z.max (default 0 (c_blocks C q <$> m6 !! (R ++ q))) (c_block C)) K
            <= set_sum (λ p, Z.max (match merged p with Some (File c t) => c_blocks C p (File c t) | _ => D p end) (c_block C)) K)%Z by lia.
          apply set_sum_le. intros q [n Hn]%HK. rewrite Hn. destruct (sent_r _ _ _ Hs Hn) as (n' & -> & Ed & En). cbn [fmap option_fmap option_map default from_option].
          destruct n as [c0 t0|l k|t0]; [by rewrite En|by apply (merged_no_link _ _ _ _ _ _ H) in Hn|]. destruct n' as [| |t']; [done..|]. specialize (HD q t'). unfold id; cbn beta iota in *. lia. }
      destruct (pl_file _ _ _ _ _ _ _ Hp p c t Hm) as [[_ E]|[Hn _]]; [done|]. destruct Hn. destruct Hc as (r & Hr & Hrp). exists r. split; [apply HS; by left|done].
    - destruct Hrank as (db0 & Hrank & Hpr). intros HSz p q x y c t c' t' Hmp Hmq (l & k & Hlp) Hlq Hna Hside Hx Hdx Hy Hdy Hlt.
      destruct (Hpr p x Hx Hdx) as (x0 & Hx0 & Ex). destruct (Hpr q y Hy Hdy) as (y0 & Hy0 & Ey). rewrite Ex, Ey in Hlt.
      assert (Hunc0 : ∀ p c t l k, merged p = Some (File c t) → Merge.l_at C m' p = Some (Link l k) → ¬ covered S p).
      { intros r c1 t1 l1 k1 Hr Hl. destruct (proj2 (Hrow r) ltac:(by eexists)) as [z Hz]. by eapply Hunc. }
      apply (Hrank HSz p q x0 y0 c t c' t'); [done|done| | |done|done|done].
      + intros (r & Hr & Hrp). eapply Hunc0; [exact Hmp|exact Hlp|]. exists r. split; [apply HS; by left|done].
      + destruct (Hcov q y _ _ Hy Hlq) as [(r & Hr & Hrq) _]. apply HS in Hr as [Hr|[Hr Hk]]; [|destruct Hna; by exists r].
        destruct (decide (r = q)) as [<-|Hne]; [done|]. exfalso.
        assert (r `prefix_of` removelast q) as Hrr.
        { destruct Hrq as [s ->]. destruct s as [|z s _] using rev_ind; [by rewrite app_nil_r in Hne|]. rewrite app_assoc, removelast_last. by eexists. }
        destruct Hside as [E|(u & c1 & t1 & l1 & k1 & Hu & Hul & Hpre)].
        * rewrite E in Hrr. apply prefix_nil_inv in Hrr. subst r. apply HSm in Hr as [n Hn]. by destruct (merged_ours _ _ _ _ _ _ H _ _ Hn).
        * eapply Hunc0; [exact Hu|exact Hul|]. exists r. split; [apply HS; by left|by etrans].
  Qed.

  (** ** The end *)
  (** The rows of both databases. *)
  Record rows_x (m5 : fs) (w' : world) : Prop := {
    rx_gone : ∀ p, let_go m5 p → v_ldb w' !! p = None ∧ v_rdb w' !! p = None;
    rx_ldb : ∀ p, ¬ let_go m5 p → ld_dir <$> v_ldb w' !! p = km p;
    rx_rdb : ∀ p, ¬ let_go m5 p → rd_dir <$> v_rdb w' !! p = km p;
    rx_since : since (c_now C) (λ p, new_l p ∨ edited_l p) rdb (v_rdb w')
  }.
  Lemma rm_excluded_wp (Q : res unit → world → Prop) (w' : world) (E : pset) : (∀ p, p ∈ E ↔ p ∈ X ∧ known p) → let m5 := w_fs w' in
    outcome m5 → (∀ p c t, set_aside p → merged p = Some (File c t) → Merge.l_at C m5 p = Some (File c t)) → tin m5 →
    settled_x m5 (v_ldb w') → stored w' → lkd w' → rsent w' →
    (∀ w'', parted m5 (w_fs w'') → tin (w_fs w'') → settled_x (w_fs w'') (v_ldb w'') → stored w'' → rows_x m5 w'' → Q (Ok tt) w'') →
    wp (rm_excluded_files C E) act Q w'.
  Proof.
    intros HE m5 Ho Hco Htin Hse Hst Hlk Hrk HQ. unfold rm_excluded_files. apply wp_bind, wp_eval. fold m5.
    pose proof (mo_wf _ _ (oc_mounted _ _ _ _ _ _ Ho)) as Hwf. pose proof (oc_util _ _ _ _ _ _ Ho) as Hu.
    assert (∃ D, check_excluded C m5 E = Ok D ∧ ∀ p, p ∈ D ↔ p ∈ E ∧ agreed C m5 p) as (D & -> & HD).
    { destruct (decide (E = ∅)) as [HE0|HE0].
      - exists ∅. split; [|rewrite HE0; set_solver]. unfold check_excluded. destruct (uo_dir _ _ Hu) as [t Hd].
        unfold scandir. rewrite resolve_dir by (done || by exists t). rewrite Hd. by rewrite decide_True.
      - apply check_excluded_spec; [done|apply Hu|]. intros x n Hn. apply set_choose_L in HE0 as [p [Hx Hk]%HE].
        rewrite (oc_rest _ _ _ _ _ _ Ho) in Hn; [case_decide; [naive_solver|by eapply (cl_patterns _ _ _ _ _ _ H)]|..].
        + unfold exclude_dir. rewrite <-app_assoc. by eexists.
        + intros [s E']. unfold exclude_dir, trash_dir in E'. rewrite <-!app_assoc in E'. apply app_inv_head in E'. by injection E'. }
    cbn beta iota. apply wp_bind, wp_get. unfold rm_remote_files.
    assert (HDx : ∀ p, p ∈ D ∩ dom (v_rdb w') ↔ p ∈ X ∧ known p ∧ agreed C m5 p).
    { intros p. rewrite elem_of_intersection, HD, HE. split; [tauto|]. intros (Hx & Hk & Ha). split; [done|].
      apply elem_of_dom. pose proof (proj1 Hrk p) as E'. unfold MergeCut.km in E'. destruct (aside_merged p Hx Hk) as [n Hn]. rewrite Hn in E'.
      apply fmap_Some in E' as (d & Hd & _). by eexists. }
    assert (Hlg : ∀ p, (∃ q, q ∈ c_iter C (elements (D ∩ dom (v_rdb w'))) ∧ q `prefix_of` p) ↔ let_go m5 p).
    { intros p. split.
      - intros (q & Hq & Hp). apply iter_elem, HDx in Hq as (Hx & Hk & Ha). by exists q.
      - intros (q & Hx & Hk & Ha & Hp). exists q. split; [|done]. apply iter_elem. by apply HDx. }
    assert (Hund : ∀ k, under (map (app R) (c_iter C (elements (D ∩ dom (v_rdb w'))))) k ↔ ∃ p, let_go m5 p ∧ k = R ++ p).
    { intros k. unfold under. split.
      - intros (r & Hr & Hp). apply elem_of_list_fmap in Hr as (q & -> & Hq). destruct Hp as [s ->]. exists (q ++ s). split; [|by rewrite app_assoc].
        apply Hlg. exists q. split; [done|by eexists].
      - intros (p & Hp & ->). apply Hlg in Hp as (q & Hq & [s ->]). exists (R ++ q). split; [apply elem_of_list_fmap; eauto|]. rewrite app_assoc. by eexists. }
    assert (Htk : ∀ k, util_dir C `prefix_of` k → ¬ ∃ p, let_go m5 p ∧ k = R ++ p).
    { intros k Hk (p & Hp%let_go_aside & ->). by eapply aside_not_util. }
    assert (HL : ∀ q, ¬ ∃ p, let_go m5 p ∧ L ++ q = R ++ p).
    { intros q (p & [Hp _]%let_go_aside%aside_ours & E'). eapply (apart_not_below L R q); [apply (cl_apart _ _ _ _ _ _ H)|]. rewrite E'. by apply below_app_ne. }
    apply rm_files_wp; [done|done|..].
    - intros p (Hx & Hk & _)%HDx. destruct (here_ours p Hk) as (Hp0 & Hv & Hz). split; [pose proof HR0; by destruct R|].
      destruct (aside_merged p Hx Hk) as [n Hn]. pose proof (oc_remote _ _ _ _ _ _ Ho p) as Hr. rewrite Hn, r_at_ne in Hr by done.
      assert (is_Some (m5 !! (R ++ p))) as [n' Hn']. { destruct (m5 !! (R ++ p)); [by eexists|by destruct n]. }
      destruct (Hwf _ _ Hn') as (_ & Hv' & Hd). split; [done|]. intros q Hq Hpre. right. by eapply wf_dir_anc.
    - intros m' Hc. split; [|done]. eapply removing_intact; [exact Ho|exact Hco|..].
      + intros k _ Hk. apply (cg_rest _ _ _ Hc). intros (p & Hp & ->)%Hund. by eapply Hk; [eapply let_go_aside|].
      + apply tin_tsafe. eapply tin_same; [|exact Htin]. intros k Hk. apply (cg_rest _ _ _ Hc). rewrite Hund. by apply Htk.
    - intros m' Hc. apply HQ; cbn [w_fs v_ldb v_rdb set_fs set_vldb set_vrdb].
      + assert (Hdir : ∀ d, d ≠ [] → ¬ (∃ p, let_go m5 p ∧ d = R ++ p) → dir_at m5 d → dir_at m' d).
        { intros d Hd0 Hd [t Ht]. exists t. rewrite node_at_ne in * by done. rewrite (ct_rest _ _ _ Hc); [done|]. by rewrite Hund. }
        assert (Hune : ∀ s, util_dir C ++ s ≠ []) by (intros s; unfold util_dir; pose proof HR0; by destruct R).
        split; [done|done|..].
        * intros p Hp. apply (ct_gone _ _ _ Hc), Hund. eauto.
        * intros k _ Hk. apply (ct_rest _ _ _ Hc). rewrite Hund. intros (p & Hp & ->). by eapply Hk.
        * split; [apply Hc|..|apply HL0].
          -- apply Hdir; [apply HL0| |apply (oc_mounted _ _ _ _ _ _ Ho)]. specialize (HL []). by rewrite app_nil_r in HL.
          -- apply Hdir; [apply HR0| |apply (oc_mounted _ _ _ _ _ _ Ho)]. intros (p & [Hp _]%let_go_aside%aside_ours & E').
             apply (f_equal length) in E'. rewrite app_length in E'. destruct p; [done|]. cbn in E'. lia.
        * destruct Hu as [Hd Hid Hf]. split; [|done|].
          -- apply Hdir; [apply Hune|apply Htk; by eexists|done].
          -- rewrite (ct_rest _ _ _ Hc); [done|]. rewrite Hund. apply Htk. unfold exclude_file, exclude_dir. rewrite <-app_assoc. by eexists.
        * apply Hdir; [apply Hune|apply Htk; by eexists|apply (oc_trash _ _ _ _ _ _ Ho)].
        * intros x t k. rewrite (ct_rest _ _ _ Hc); [apply (oc_trash_links _ _ _ _ _ _ Ho)|]. rewrite Hund. apply Htk, trash_util. by eexists.
      + eapply tin_same; [|exact Htin]. intros k Hk. apply (ct_rest _ _ _ Hc). rewrite Hund. by apply Htk.
      + assert (HLm : ∀ p, Merge.l_at C m' p = Merge.l_at C m5 p).
        { intros p. unfold Merge.l_at. case_decide; [done|]. apply (ct_rest _ _ _ Hc). rewrite Hund. apply HL. }
        eapply settled_same; [exact HLm|].
        assert (Hold : ∀ p x, sl_rm (v_ldb w') (c_iter C (elements (D ∩ dom (v_rdb w')))) !! p = Some x → ld_dir x = false → v_ldb w' !! p = Some x).
        { intros p x Hx Hd. eapply sl_rm_file; [|exact Hx]. intros (r & Hr & Hb). apply iter_elem, HDx in Hr as (Hrx & Hrk' & _).
          apply (km_over p r); [|done|].
          - unfold MergeCut.km. destruct (aside_merged r Hrx Hrk') as [n ->]. by eexists.
          - rewrite <-Hlk. pose proof (sl_rm_kind (v_ldb w') (c_iter C (elements (D ∩ dom (v_rdb w')))) p) as E'. rewrite Hx in E'.
            destruct (decide _); [done|]. rewrite <-E'. cbn. by rewrite Hd. }
        assert (Hrow : ∀ p, ¬ let_go m5 p → is_Some (sl_rm (v_ldb w') (c_iter C (elements (D ∩ dom (v_rdb w')))) !! p) ↔ is_Some (v_ldb w' !! p)).
        { intros p Hp. pose proof (sl_rm_kind (v_ldb w') (c_iter C (elements (D ∩ dom (v_rdb w')))) p) as E'. rewrite decide_False in E'.
          - destruct (sl_rm _ _ !! p), (v_ldb w' !! p); try done; split; intros [? ?]; by eexists.
          - rewrite Exists_exists. intros (q & Hq & Hqp). apply Hp, Hlg. eauto. }
        assert (Hkind : ∀ p x n, sl_rm (v_ldb w') (c_iter C (elements (D ∩ dom (v_rdb w')))) !! p = Some x → Merge.l_at C m5 p = Some n → is_Dir n = false → ld_dir x = false).
        { intros p x n Hx Hn Hd. pose proof (sl_rm_kind (v_ldb w') (c_iter C (elements (D ∩ dom (v_rdb w')))) p) as E'. rewrite Hx in E'.
          destruct (decide _); [done|]. rewrite Hlk in E'. unfold MergeCut.km in E'. cbn in E'. symmetry in E'. apply fmap_Some in E' as (nz & Hn0 & Ed). rewrite Ed.
          pose proof (oc_local _ _ _ _ _ _ Ho p) as Hs. unfold shows in Hs. rewrite Hn0 in Hs. destruct nz; [done|done|]. destruct Hs as [t' Hs]. rewrite Hn in Hs. by injection Hs as ->. }
        destruct Hse as [S1 S2 S3 S4 S5 S6]. split.
        * intros p x Hx Hd. eapply S1; [by eapply Hold|done].
        * intros p x c t Hx Hl. eapply S2; [|exact Hl]. eapply Hold; [done|]. by eapply Hkind.
        * intros p x t k Hx Hl. eapply S3; [|exact Hl]. eapply Hold; [done|]. by eapply Hkind.
        * intros F G HF HG. apply S4.
          -- intros p. rewrite HF. destruct (set_aside_dec p) as [Ha|Ha]; [tauto|]. rewrite Hrow; [done|]. by intros ?%let_go_aside.
          -- intros p. rewrite HG. split.
             ++ intros [[x Hx] (t & k & Hl)]. split; [|eauto]. eexists. eapply Hold; [done|]. by eapply Hkind.
             ++ intros [Hx (t & k & Hl)]. split; [|eauto]. apply Hrow; [|done]. intros Hg%let_go_aside.
                destruct Hx as [x Hx]. pose proof (Hlk p) as E'. rewrite Hx in E'. unfold MergeCut.km in E'. cbn in E'. symmetry in E'. apply fmap_Some in E' as (nz & Hn0 & Ed).
                destruct nz as [c0 t0|t0 k0|t0]; [by rewrite (Hco p c0 t0 Hg Hn0) in Hl|by apply (merged_no_link _ _ _ _ _ _ H) in Hn0|].
                pose proof (oc_local _ _ _ _ _ _ Ho p) as Hs. unfold shows in Hs. rewrite Hn0 in Hs. destruct Hs as [t' Hs]. rewrite Hl in Hs. done.
        * exact S5.
        * intros HS p q x y c t c' t' Hp Hq Hl Hf Hna Hs Hx Hdx Hy Hdy. eapply (S6 HS p q x y c t c' t'); try done; by eapply Hold.
      + done.
      + split; cbn [v_ldb v_rdb set_fs set_vldb set_vrdb].
        * intros p Hp. apply Hlg in Hp. rewrite <-Exists_exists in Hp. split.
          -- pose proof (sl_rm_kind (v_ldb w') (c_iter C (elements (D ∩ dom (v_rdb w')))) p) as E'. rewrite decide_True in E' by done. by destruct (sl_rm _ _ !! p).
          -- pose proof (s_rm_kind rd_dir (v_rdb w') (c_iter C (elements (D ∩ dom (v_rdb w')))) p) as E'. rewrite decide_True in E' by done. unfold sr_rm. by destruct (s_rm _ _ !! p).
        * intros p Hp. rewrite sl_rm_kind, decide_False; [apply Hlk|]. rewrite Exists_exists. by rewrite Hlg.
        * intros p Hp. unfold sr_rm. rewrite s_rm_kind, decide_False; [apply Hrk|]. rewrite Exists_exists. by rewrite Hlg.
        * apply since_rm, Hrk.
  Qed.
  (** At a crash: nothing of value is lost, and the stored data are as before
      or all files are in place. *)
  Definition safe (w' : world) : Prop := intact (w_fs w') ∧ (stored w' ∨ outcome (w_fs w')).
  Definition safe_x (w' : world) : Prop := intact (w_fs w') ∧ (stored w' ∨ ∃ m5, parted m5 (w_fs w')).
  Lemma act_safe w' : act w' → safe_x w'.
  Proof using Type. intros [? ?]. split; auto. Qed.
  Local Notation trash_holds := (trash_holds C m ldb).
  Lemma tin_holds m' : tin m' → (∀ d, c_cleanup C = Some d → d = 0%Z) → wf_fs m' → trash_holds m'.
  Proof.
    intros [Hn Ho] Hd Hwf.
    assert (Hov : ∀ n, ¬ overdue C n).
    { intros n. unfold overdue. destruct (c_cleanup C) as [z|] eqn:Ez; [|tauto]. intros [Hz _]. by apply Hz, Hd. }
    split.
    - intros _ p x Hp Hx. by apply Hn.
    - intros x n s Hx. rewrite decide_False by done. apply Ho. intros p Hp Hpx. rewrite (cl_free _ _ _ _ _ _ H p x Hp Hpx) in Hx. done.
    - intros x s Hx Hp. rewrite Ho by done. apply (wf_missing_below m (trash_dir C ++ [x])).
      + apply (cl_mounted _ _ _ _ _ _ H).
      + by destruct (trash_dir C).
      + done.
      + rewrite (app_assoc _ [x] s : trash_dir C ++ x :: s = _). by apply prefix_app_r.
  Qed.
  Lemma spared_holds m' m'' z : tin m' → c_cleanup C = Some z → z ≠ 0%Z → wf_fs m'' → let P := expired C m' (c_now C - z) in
    (∀ x s, P x → m'' !! (trash_dir C ++ x :: s) = None) → spared (trash_dir C) P m' m'' → trash_holds m''.
  Proof.
    intros Ht Ez Hz Hwf P Hgone Hsp. pose proof Ht as [Hn Ho].
    assert (Hsame : ∀ x s, ¬ P x → m'' !! (trash_dir C ++ x :: s) = m' !! (trash_dir C ++ x :: s)).
    { intros x s Hx. apply Hsp. intros y Hy [r Er]. rewrite <-app_assoc in Er. apply app_inv_head in Er. by injection Er as -> _. }
    split.
    - intros Hd p x Hp Hx. assert (¬ P x) as Hnx by (eapply trashed_fresh; eauto).
      rewrite Hsame by done. split; [by apply Hn|]. intros s Hs. rewrite Hsame by done. by apply Hn.
    - intros x n s Hx.
      assert (Hnt : ∀ p, trashed p → list.last p ≠ Some x) by (intros p Hp Hpx; rewrite (cl_free _ _ _ _ _ _ H p x Hp Hpx) in Hx; done).
      case_decide as Hov.
      + apply Hgone. exists n. rewrite Ho by done. split; [done|]. unfold overdue in Hov. rewrite Ez in Hov. apply Hov.
      + rewrite Hsame; [by apply Ho|]. intros (n' & Hn' & Hm). rewrite Ho, Hx in Hn' by done. injection Hn' as <-. apply Hov. unfold overdue. by rewrite Ez.
    - intros x s Hx Hp. assert (m' !! (trash_dir C ++ [x]) = None) as Ex by by rewrite Ho.
      rewrite Hsame by (intros (n & Hn' & _); congruence). rewrite Ho by done. apply (wf_missing_below m (trash_dir C ++ [x])).
      + apply (cl_mounted _ _ _ _ _ _ H).
      + by destruct (trash_dir C).
      + done.
      + rewrite (app_assoc _ [x] s : trash_dir C ++ x :: s = _). by apply prefix_app_r.
  Qed.
  Lemma cleanup_wp (Q : res unit → world → Prop) m5 w' : parted m5 (w_fs w') → tin (w_fs w') → settled_x (w_fs w') (v_ldb w') → stored w' → rows_x m5 w' →
    (∀ w'', parted m5 (w_fs w'') → trash_holds (w_fs w'') → tsafe (w_fs w'') → settled_x (w_fs w'') (v_ldb w'') → stored w'' → rows_x m5 w'' → Q (Ok tt) w'') →
    wp (sync_cleanup C) act Q w'.
  Proof.
    intros Ho Ht Hse Hst Hrx HQ. pose proof (tin_tsafe _ Ht) as Hts. pose proof (mo_wf _ _ (pa_mounted _ _ _ _ _ _ _ Ho)) as Hwf0.
    unfold sync_cleanup. destruct (c_cleanup C) as [z|] eqn:Ez.
    2: { apply wp_ret, HQ; [done|apply tin_holds; [done|congruence|done]|done..]. }
    destruct (z =? 0)%Z eqn:Ez0.
    { apply Z.eqb_eq in Ez0 as ->. apply wp_ret, HQ; [done|apply tin_holds; [done|congruence|done]|done..]. }
    apply Z.eqb_neq in Ez0. apply cleanup_trash_wp.
    - done.
    - apply (pa_trash _ _ _ _ _ _ _ Ho).
    - intros x n Hn. destruct n as [|t k|]; [done| |done]. by apply (pa_trash_links _ _ _ _ _ _ _ Ho) in Hn.
    - intros m' Hsp. split; [|done]. eapply spared_intact; [|by eapply spared_tsafe|exact Hsp]. by eapply parted_intact.
    - intros m' Hwf Hg Hsp. apply HQ; [|by eapply spared_holds|by eapply spared_tsafe| |done|].
      3: { by destruct Hrx. }
      2: { eapply settled_same; [|exact Hse]. intros p. unfold Merge.l_at. case_decide; [done|]. cbn [w_fs set_fs]. apply Hsp. intros x _ Hx. eapply (util_not_L p).
           etrans; [|exact Hx]. unfold trash_dir. rewrite <-app_assoc. by eexists. }
      eapply parted_spared; [|exact Ho|exact Hwf|exact Hsp|exact Hg].
      intros x. unfold expired. destruct (w_fs w' !! (trash_dir C ++ [x])) as [n|]; [|right; intros (? & ? & _); done].
      destruct (decide (mtime n <= c_now C - z)%Z); [left; eauto|right]. intros (? & [= <-] & ?). done.
  Qed.
  (** The databases and the time of the last sync. *)
  Record recorded_x (m5 : fs) (w' : world) : Prop := {
    ry_gone : ∀ p, let_go m5 p → w_ldb w' !! p = None ∧ w_rdb w' !! p = None;
    ry_ldb : ∀ p, ¬ let_go m5 p → ld_dir <$> w_ldb w' !! p = is_Dir <$> merged p;
    ry_rdb : ∀ p, ¬ let_go m5 p → rd_dir <$> w_rdb w' !! p = is_Dir <$> merged p;
    ry_since : since (c_now C) (λ p, new_l p ∨ edited_l p) rdb (w_rdb w');
    ry_last : w_last w' = Some (c_end C)
  }.
  Record recorded (w' : world) : Prop := {
    re_ldb : ∀ p, ld_dir <$> w_ldb w' !! p = is_Dir <$> merged p;
    re_rdb : ∀ p, rd_dir <$> w_rdb w' !! p = is_Dir <$> merged p;
    re_since : since (c_now C) (λ p, new_l p ∨ edited_l p) rdb (w_rdb w');
    re_last : w_last w' = Some (c_end C)
  }.
  Lemma recorded_strict m5 w' : (∀ p, p ∈ X → ¬ known p) → recorded_x m5 w' → recorded w'.
  Proof using Type.
    intros Hun [_ H1 H2 H3 H4]. assert (∀ p, ¬ let_go m5 p) as Hn by (intros p (q & Hq & Hk & _); by apply (Hun q)).
    split; [intros p; by apply H1|intros p; by apply H2|done|done].
  Qed.
  Definition done_x (r : res unit) (w' : world) : Prop :=
    r = Ok tt ∧ ∃ m5, parted m5 (w_fs w') ∧ trash_holds (w_fs w') ∧ recorded_x m5 w' ∧ settled_x (w_fs w') (w_ldb w').
  Lemma finish_wp m5 w' : parted m5 (w_fs w') → trash_holds (w_fs w') → tsafe (w_fs w') → settled_x (w_fs w') (v_ldb w') → stored w' → rows_x m5 w' →
    wp (sync_finish C) safe_x done_x w'.
  Proof.
    intros Ho Hth Hts Hse Hst [Hg Hlk Hrk Hsi]. pose proof (parted_intact _ _ Ho Hts) as Hi. unfold sync_finish, safe_x.
    apply wp_bind, wp_put; [by split; eauto|]. apply wp_bind, wp_put; [by split; eauto|]. apply wp_bind, wp_put; [by split; eauto|].
    apply wp_put; [by split; eauto|]. split; [done|]. exists m5. split; [done|]. split; [done|]. split; [by split|done].
  Qed.
  (** The rest of the command once conflicts are out of the way: sync.py 99-141. *)
  Definition rest (up : pset) : M world unit :=
    update_remote C up ;!
    ex ←! excluded C;
    rs ←! remote_scan C true;
    let remote_excluded := ex ∩ dom rs in
    esize ←! excluded_size C;
    sel ←! prioritize C (c_limit C - esize);
    update_local C (sel.1 ∪ sel.2 ∪ remote_excluded) ;!
    rm_excluded_files C remote_excluded ;!
    sync_cleanup C ;!
    sync_finish C.
  Lemma rest_wp_x w' up : (∀ p, p ∈ up ↔ new_l p ∨ edited_l p) → less gone_r gone_l (w_fs w') → tin (w_fs w') → stored w' → seen w' → lkind km w' → rready w' →
    wp (rest up) safe_x done_x w'.
  Proof.
    assert (Hlift : ∀ A (x : M world A) Q w', wp x act Q w' → wp x safe_x Q w').
    { intros A x Q w'' Hx. eapply wp_trace_mono; [exact Hx|]. apply act_safe. }
    intros Hup Hls Htin Hst Hse Hlk Hrk. unfold rest. apply wp_bind, Hlift, update_remote_wp; [done..|].
    clear dependent w'. intros w2 Hs Hst Hse Hlk Hrk. cbn beta iota.
    apply wp_bind. eapply wp_run; [by apply excluded_seen|done|]. cbn beta iota.
    apply wp_bind. eapply wp_run; [by apply remote_scan_seen|done|]. cbn beta iota.
    pose proof excluded_remote as HE. set (E := X ∩ dom (hide_util (tree (with_excl C (c_patterns C) (w_fs w0)) R))) in *. clearbody E.
    apply wp_bind, Hlift, excluded_size_wp; [done|done|]. cbn beta iota.
    apply wp_bind, Hlift, prioritize_wp; [done..|]. intros w3 s1 s2 Efs Hst3 Hse3 Hlk3 Hrk3 Hsel Hfit Edb Hroom Hrank. cbn beta iota. cbn [fst snd].
    rewrite <-Efs in Hs, Hfit, Hroom. rewrite <-Edb in Hrank. clear dependent w2.
    assert (HSx : ∀ p, p ∈ s1 ∪ s2 ∪ E ↔ p ∈ s1 ∪ s2 ∨ (p ∈ X ∧ known p)) by (intros p; by rewrite (elem_of_union _ E), HE).
    assert (HS1 : ∀ p, p ∈ s1 ∪ s2 ∪ E → is_Some (merged p)).
    { intros p [Hp|[Hp Hk]]%HSx; [by apply Hsel|by apply aside_merged]. }
    assert (HS2 : ∀ p, p ∈ X → known p → p ∈ s1 ∪ s2 ∪ E) by (intros p Hp Hk; apply HSx; by right).
    set (row3 := λ p x, row p x ∧ v_ldb w3 !! p = Some x).
    assert (Hsf3 : stands_for C w X w0 row3). { destruct Hsf as [F1 F2 F3 F4]. split; [done..|]. intros p x x0 E0 [Hr _]. by eapply F4. }
    apply wp_bind, Hlift, (MergeDown.update_local_wp C w last X H Hit Hrows Hvl Hvr Hfresh Hlast w0 row3 Hsf3); [done..| |done|].
    { destruct Hlk3 as [F1 F2]. split; [done|]. intros p x Hx Hd. split; [by apply F2|done]. }
    intros w2 Hpl Hst Hlk Hfl3 Hrk.
    assert (Hfl : flagged (s1 ∪ s2 ∪ E) (v_ldb w2)).
    { intros p x Hx Hd. destruct (Hfl3 p x Hx Hd) as (x0 & [Hr _] & F). by exists x0. }
    assert (Hbest : ∃ db0 : lmap, ranked (s1 ∪ s2) db0 ∧ (∀ p x, v_ldb w2 !! p = Some x → ld_dir x = false → ∃ x0, db0 !! p = Some x0 ∧ ld_prio x = ld_prio x0)).
    { exists (v_ldb w3). split; [done|]. intros p x Hx Hd. destruct (Hfl3 p x Hx Hd) as (x0 & [_ Hr] & F & _). by exists x0. } cbn beta iota. pose proof (placed_outcome _ _ _ Hs Hpl) as Ho. pose proof (placed_tin _ _ _ Hs Hpl) as Ht.
    pose proof (placed_settled _ _ _ _ _ Hsel HSx Hs Hpl Hlk Hfl Hfit Hroom Hbest) as Hset. pose proof (placed_copied _ _ _ HS2 Hpl) as Hco. clear dependent w3.
    apply wp_bind, Hlift, rm_excluded_wp; [done..|]. generalize (w_fs w2). intros m5. clear dependent w2. intros w3 Hpa Ht Hset Hst3 Hrx. cbn beta iota.
    apply wp_bind, Hlift, (cleanup_wp _ m5); [done..|]. clear dependent w3. intros w2 Hpa Hth Hts Hset Hst Hrx. cbn beta iota.
    by eapply finish_wp.
  Qed.
  Lemma safe_strict w' : (∀ p, p ∈ X → ¬ known p) → safe_x w' → safe w'.
  Proof. intros Hun [Hi [Hst|[m5 Hp]]]; (split; [done|]); [by left|right]. by eapply parted_outcome. Qed.
  Lemma done_strict r w' : (∀ p, p ∈ X → ¬ known p) → done_x r w' →
    r = Ok tt ∧ outcome (w_fs w') ∧ trash_holds (w_fs w') ∧ recorded w' ∧ settled (w_fs w') (w_ldb w').
  Proof.
    intros Hun (-> & m5 & Hp & Ht & Hre & Hse). split; [done|]. pose proof (parted_outcome _ _ Hun Hp) as Ho. split; [done|]. split; [done|].
    pose proof (recorded_strict _ _ Hun Hre) as Hr. split; [done|]. apply settled_strict; [done|done|apply (re_ldb _ Hr)|done].
  Qed.
  Lemma rest_wp w' up : (∀ p, p ∈ X → ¬ known p) → (∀ p, p ∈ up ↔ new_l p ∨ edited_l p) → less gone_r gone_l (w_fs w') → tin (w_fs w') → stored w' → seen w' → lkind km w' → rready w' →
    wp (rest up) safe (λ r w'', r = Ok tt ∧ outcome (w_fs w'') ∧ trash_holds (w_fs w'') ∧ recorded w'' ∧ settled (w_fs w'') (w_ldb w'')) w'.
  Proof.
    intros Hun Hup Hls Ht Hst Hse Hlk Hrk. eapply wp_trace_mono; [eapply wp_mono; [by apply rest_wp_x|]|].
    - intros r w'' Hd. by apply done_strict.
    - intros w''. by apply safe_strict.
  Qed.
End sync.

(** The whole command, in a state without conflicts. *)
Lemma stands_self C w last X : clean_x C (w_fs w) (w_ldb w) (w_rdb w) last X → stands_for C w X w (lrow C w X).
Proof.
  intros H. pose proof (cl_mounted _ _ _ _ _ _ H) as Hm. pose proof (cl_util _ _ _ _ _ _ H) as Hu. split.
  - intros E. assert (Hd : dir_at (with_excl C (c_patterns C) (w_fs w)) (util_dir C)).
    { eapply wf_dir_anc; [by apply with_excl_mounted|apply (uo_dir C), with_excl_util; [apply (mo_wf _ _ Hm)|done]|by eexists]. }
    apply dir_at_lookup in Hd as [t Hd]; [|unfold util_dir; by destruct (c_R C)].
    assert (tree (with_excl C (c_patterns C) (w_fs w)) (c_R C) !! zielen_dir = Some (Dir t)) as E' by (by apply tree_lookup). by rewrite E in E'.
  - done.
  - intros p Hp. destruct (cl_excluded_x _ _ _ _ _ _ H p Hp) as [Hl Hk]. split; [|done]. intros [n Hn]. destruct (w_ldb w !! p) as [x|] eqn:Ex; [by eexists|].
    rewrite (cl_stray _ _ _ _ _ _ H p) in Hn; [done|]. split; [done|]. split; [by intros [? ?]; congruence|by left].
  - intros p x x0 E Hx. unfold lrow in Hx. by rewrite E in Hx.
Qed.
Theorem sync_wp_x (C : conf) (w : world) (last : Z) (X : pset) :
  clean_x C (w_fs w) (w_ldb w) (w_rdb w) last X → (∀ l, c_iter C l ≡ₚ l) → (∀ l, c_rows C l ≡ₚ l) →
  v_ldb w = w_ldb w → v_rdb w = w_rdb w → FMProofs.fresh w → w_last w = Some last → globbed C w X →
  wp (sync_main C (ret tt)) (safe_x C w last X w) (done_x C w last X (lrow C w X)) w.
Proof.
  intros H Hit Hrows Hvl Hvr Hfresh Hlast HX. pose proof (stands_self C w last X H) as Hsf.
  assert (Hlift : ∀ A (x : M world A) Q w', wp x (MergeSync.act C w) Q w' → wp x (safe_x C w last X w) Q w').
  { intros A x Q w' Hx. eapply wp_trace_mono; [exact Hx|]. intros w'' [[Hc Ht] Hst]. split; [|by left].
    by apply (lessing_intact C w last X H Hit Hrows Hvl Hvr Hfresh Hlast). }
  unfold sync_main. apply wp_bind, Hlift, (detect_wp C w last X H Hit Hrows Hvl Hvr Hfresh Hlast _ HX). intros w2 a b dl dr tr a' b' [Ha Hb Hdl Htr Hdr Ha' Hb'] Hfs Hst Hse Hlk Hrk. cbn beta iota.
  apply wp_bind, wp_fsm, wp_ret. rewrite set_fs_id. cbn beta iota. cbn [fst snd].
  apply wp_bind, Hlift, (rm_local_wp C w last X H Hit Hrows Hvl Hvr Hfresh Hlast); [done..|]. clear dependent w2. intros w2 Hls Hts Hst Hse Hlk Hrk. cbn beta iota.
  apply wp_bind, Hlift, (rm_remote_wp C w last X H Hit Hrows Hvl Hvr Hfresh Hlast); [by intros p ?%Hdr|done..|]. clear dependent w2. intros w2 Hls Hts Hst Hse Hlk Hrk. cbn beta iota.
  apply wp_bind, Hlift, (trash_wp C w last X H Hit Hrows Hvl Hvr Hfresh Hlast _ w2 dr tr); [|by intros p [_ ?]%Htr|by intros p [_ ?]%Hdr|done..|].
  { intros p. rewrite Hdr, Htr. split; [tauto|]. intros Ht. 
    assert ((c_trash C = true ∧ ∃ d, w_ldb w !! p = Some d ∧ ld_local d = false) ∨ ¬ (c_trash C = true ∧ ∃ d, w_ldb w !! p = Some d ∧ ld_local d = false)) as [Hd|Hd]; [|by right|by left].
    destruct (c_trash C); [|right; by intros [? _]]. destruct (w_ldb w !! p) as [d|]; [|right; intros (_ & ? & ? & _); done].
    destruct (ld_local d) eqn:Ed; [right; intros (_ & ? & [= <-] & ?); congruence|left; eauto]. }
  clear dependent w2. intros w2 Hls Htin Hst Hse Hlk Hrk. cbn beta iota.
  apply wp_bind, Hlift, (less_conflict_wp C w last X H Hit Hrows Hvl Hvr Hfresh Hlast); [done..|]. cbn beta iota. cbn [fst snd].
  apply wp_bind, Hlift, (add_again_wp C w last X H Hit Hrows Hvl Hvr Hfresh Hlast); [done..|]. intros w3 Efs Hst3 Hse3 Hlk3 Hrk3. rewrite <-Efs in Hls, Htin. clear dependent w2. cbn beta iota.
  apply (rest_wp_x C w last X H Hit Hrows Hvl Hvr Hfresh Hlast w (lrow C w X) Hsf); [|done..|].
  { intros p. rewrite elem_of_union, Ha, Ha'. tauto. }
  destruct Hrk3 as [Hrk3 Hsi3]. split; [done|]. intros p d Hd _. by destruct (Hsi3 p d Hd) as [[[] _]|[_ ?]].
Qed.
Theorem sync_wp (C : conf) (w : world) (last : Z) (X : pset) :
  clean C (w_fs w) (w_ldb w) (w_rdb w) last X → (∀ l, c_iter C l ≡ₚ l) → (∀ l, c_rows C l ≡ₚ l) →
  v_ldb w = w_ldb w → v_rdb w = w_rdb w → FMProofs.fresh w → w_last w = Some last → globbed C w X →
  wp (sync_main C (ret tt)) (safe C w last X w)
    (λ r w', r = Ok tt ∧ outcome C (w_fs w) (w_ldb w) last X (w_fs w') ∧ trash_holds C (w_fs w) (w_ldb w) (w_fs w') ∧ recorded C w last X w'
       ∧ settled C w last X (lrow C w X) (w_fs w') (w_ldb w')) w.
Proof.
  intros H Hit Hrows Hvl Hvr Hfresh Hlast HX. pose proof (stands_self C w last X H) as Hsf. pose proof (cl_clean_unknown _ _ _ _ _ _ H) as Hun.
  eapply wp_trace_mono; [eapply wp_mono; [exact (sync_wp_x C w last X H Hit Hrows Hvl Hvr Hfresh Hlast HX)|]|].
  - intros r w'' Hd. by apply (done_strict C w last X H Hit Hrows Hvl Hvr Hfresh Hlast w (lrow C w X) Hsf).
  - intros w''. by apply (safe_strict C w last X H Hit Hrows Hvl Hvr Hfresh Hlast w (lrow C w X) Hsf).
Qed.
