(** A sync with conflicts in which the local version is the newer one. *)
From Coq Require Import QArith Qcanon.
From Verif Require Export MergeClash.
From Verif Require Import MergeAgain.
From stdpp Require Import options.

(** ** What is to be shown *)
Section spec.
  Context (C : conf) (m : fs) (ldb : lmap) (rdb : rmap) (last : Z) (X : pset).
  Local Notation L := (c_L C).
  Local Notation R := (c_R C).
  Local Notation clash := (clash C m ldb rdb last).
  Local Notation cn := (conflict_name C).
  (** The result: of a file in conflict, the local version has its name and the
      remote one the conflict name; the rest is merged. *)
  Record resolved (m' : fs) : Prop := {
    rs_newer_r : ∀ p, clash p → r_at C m' p = l_at C m p;
    rs_newer_l : ∀ p, clash p → l_at C m' p = l_at C m p ∨ ∃ k, l_at C m' p = Some (Link (abs_path (R ++ p)) k);
    rs_older_r : ∀ p, clash p → r_at C m' (cn p) = r_at C m p;
    rs_older_l : ∀ p, clash p → l_at C m' (cn p) = r_at C m p ∨ ∃ k, l_at C m' (cn p) = Some (Link (abs_path (R ++ cn p)) k);
    rs_rest_r : ∀ p, ¬ clash p → (∀ q, clash q → p ≠ cn q) → like (r_at C m' p) (merged C m ldb last X p);
    rs_rest_l : ∀ p, ¬ clash p → (∀ q, clash q → p ≠ cn q) → shows C m ldb last X p (l_at C m' p);
    rs_out : ∀ k, ¬ below k L → ¬ below k R → m' !! k = m !! k
  }.
  (** Nothing of value is lost. *)
  Record unhurt (m' : fs) : Prop := {
    uh_out : ∀ k, ¬ below k L → ¬ below k R → m' !! k = m !! k;
    uh_stray : ∀ p, stray C m ldb X p → m' !! (L ++ p) = l_at C m p;
    uh_kept : ∀ p c t, ¬ clash p → merged C m ldb last X p = Some (File c t) → m' !! (R ++ p) = Some (File c t) ∨ m' !! (L ++ p) = Some (File c t);
    uh_newer : ∀ p, clash p → m' !! (R ++ p) = l_at C m p ∨ m' !! (L ++ p) = l_at C m p;
    uh_older : ∀ p, clash p → m' !! (R ++ p) = r_at C m p ∨ m' !! (R ++ cn p) = r_at C m p ∨ m' !! (L ++ cn p) = r_at C m p;
    uh_trash : (∀ d, c_cleanup C = Some d → (0 <= d)%Z) → ∀ p x s c t, trashed C m ldb p → list.last p = Some x → r_at C m (p ++ s) = Some (File c t) →
      m' !! (R ++ p ++ s) = Some (File c t) ∨ ∃ t', m' !! (trash_dir C ++ x :: s) = Some (File c t')
  }.
End spec.

Section run.
  Set Default Proof Using "Type*".
  Context (C : conf) (w : world) (last : Z) (X : pset).
  Local Notation m := (w_fs w).
  Local Notation ldb := (w_ldb w).
  Local Notation rdb := (w_rdb w).
  Context (H : calm C m ldb rdb last X).
  Context (Hit : ∀ l, c_iter C l ≡ₚ l) (Hrows : ∀ l, c_rows C l ≡ₚ l).
  Context (Hvl : v_ldb w = ldb) (Hvr : v_rdb w = rdb) (Hfresh : FMProofs.fresh w) (Hlast : w_last w = Some last).
  Context (Hn : newer_here C m ldb rdb last).
  Local Notation L := (c_L C).
  Local Notation R := (c_R C).
  Local Notation l_at := (l_at C m).
  Local Notation r_at := (r_at C m).
  Local Notation known := (known ldb).
  Local Notation stray := (stray C m ldb X).
  Local Notation merged := (merged C m ldb last X).
  Local Notation new_l := (new_l C m ldb X).
  Local Notation gone_l := (gone_l C m ldb).
  Local Notation gone_r := (gone_r C m ldb).
  Local Notation edited_l := (edited_l C m ldb last).
  Local Notation edited_r := (edited_r C m ldb rdb last).
  Local Notation trashed := (trashed C m ldb).
  Local Notation clash := (clash C m ldb rdb last).
  Local Notation named := (named C m ldb rdb last).
  Local Notation CL := (CL C m ldb rdb last).
  Local Notation cn := (conflict_name C).
  Local Notation m1 := (with_excl C (c_patterns C) m).
  Local Notation tsafe := (tsafe C w).
  Local Notation tin := (tin C w).
  Local Notation stored := (stored w).
  Local Notation seen := (seen C w X).
  Local Notation less := (less C w).
  Local Notation act := (MergeSync.act C w).
  Local Notation lkind := (MergeSync.lkind C w X).
  Local Notation rexact := (rexact C w).
  Local Notation km := (km C w last X).
  Local Notation mv := (mv C m ldb rdb last).
  Local Notation lv := (lv C m ldb rdb last).
  Local Notation rv := (rv C m ldb rdb last).
  Local Notation resolved := (resolved C m ldb rdb last X).
  Local Notation unhurt := (unhurt C m ldb rdb last X).
  Local Notation clash_at := (clash_at C m ldb rdb last X H Hn).
  Local Notation named_at := (named_at C m ldb rdb last X H Hn).
  Local Notation cn_ours := (cn_ours C m ldb rdb last X H Hn).
  Local Notation clash_ours := (clash_ours C m ldb rdb last X H Hn).
  Local Notation clean_v := (clean_v C m ldb rdb last X H Hn).
  Local Notation lessing_intact := (lessing_intact C w last X H Hit Hrows Hvl Hvr Hfresh Hlast).
  Local Notation less_lessing := (less_lessing C w last X H Hit Hrows Hvl Hvr Hfresh Hlast).
  Local Notation iter_elem := (iter_elem C w last X H Hit Hrows Hvl Hvr Hfresh Hlast).

  (** The state without conflicts, as the start of a command. *)
  Definition wv : world := World mv lv rv (w_last w) lv rv ∅ ∅ None.
  Local Notation kmv := (MergeCut.km C wv last X).

  Lemma tin_tsafe m' : tin m' → tsafe m'.
  Proof.
    intros [Hnw _] _ p x s c t Hp Hx E. right. destruct (Hnw p x Hp Hx) as [H0 Hs]. destruct s as [|y s].
    - rewrite app_nil_r in E. rewrite H0, E. by eexists.
    - rewrite Hs, E by done. eauto.
  Qed.
  Lemma clash_not_gone p : clash p → ¬ gone_l p ∧ ¬ gone_r p.
  Proof. intros Hc. destruct (clash_at p Hc) as (_ & _ & c & t & c' & t' & El & Er). split; intros [_ E]; congruence. Qed.
  Lemma act_unhurt w' : act w' → unhurt (w_fs w').
  Proof.
    intros [[Hls Hts] _]. pose proof (lessing_intact _ Hls Hts) as Hi. destruct Hls as [Ho Hl Hr]. split.
    - done.
    - apply (it_stray _ _ _ _ _ Hi).
    - intros p c t _. apply (it_kept _ _ _ _ _ Hi).
    - intros p Hc. right. apply Hl; [apply (clash_ours p Hc)|by apply clash_not_gone].
    - intros p Hc. left. destruct (clash_ours p Hc) as (? & _ & ?). apply Hr; [done..|by apply clash_not_gone].
    - done.
  Qed.

  (** ** Moving the older versions away *)
  Section moving.
    Context (m5 : fs) (Hls : less gone_r gone_l m5) (Htin : tin m5).
    Lemma m5_clash p : clash p → m5 !! (L ++ p) = l_at p ∧ m5 !! (R ++ p) = r_at p.
    Proof.
      intros Hc. destruct (clash_ours p Hc) as (Hp & _ & Hz). destruct (clash_not_gone p Hc).
      split; [by apply (ls_l _ _ _ _ _ Hls p Hp)|by apply (ls_r _ _ _ _ _ Hls p Hp Hz)].
    Qed.
    Context (l : list path) (m6 : fs) (Hl : ∀ p, p ∈ l → clash p) (Hsh : shifted C R m5 l m6).
    Lemma m6_other k : (∀ p, clash p → k ≠ R ++ p ∧ k ≠ R ++ cn p) → m6 !! k = m5 !! k.
    Proof. intros Hk. apply (sh_rest _ _ _ _ _ Hsh). intros p Hp. by apply Hk, Hl. Qed.
    Lemma m6_l q : m6 !! (L ++ q) = m5 !! (L ++ q).
    Proof. apply m6_other. intros p _. split; eapply apart_ne, (cl_apart _ _ _ _ _ _ H). Qed.
    Lemma m6_out k : ¬ below k R → m6 !! k = m5 !! k.
    Proof.
      intros Hk. apply m6_other. intros p Hp. split; intros ->; apply Hk, below_app_ne; [apply (clash_ours p Hp)|apply (cn_ours p Hp)].
    Qed.
    Lemma m6_util k : util_dir C `prefix_of` k → m6 !! k = m5 !! k.
    Proof.
      intros Hk. apply m6_other. intros p Hp. split; intros ->; unfold util_dir in Hk; apply prefix_app_inv in Hk; [by apply (clash_ours p Hp)|by apply (cn_ours p Hp)].
    Qed.
    Lemma m6_trash s : m6 !! (trash_dir C ++ s) = m5 !! (trash_dir C ++ s).
    Proof. apply m6_util. unfold trash_dir. rewrite <-app_assoc. by eexists. Qed.
    Lemma m6_r p : ¬ clash p → ¬ named p → m6 !! (R ++ p) = m5 !! (R ++ p).
    Proof. intros Hc Hnn. apply m6_other. intros q Hq. split; intros E%app_inv_head; [by subst q|]. apply Hnn. by exists q. Qed.
    Lemma m6_tin : tin m6.
    Proof.
      destruct Htin as [Hnw Ho]. split.
      - intros p x Hp Hx. rewrite m6_trash. destruct (Hnw p x Hp Hx) as [E1 E2]. split; [done|]. intros s Hs. rewrite m6_trash. by apply E2.
      - intros x s Hx. rewrite m6_trash. by apply Ho.
    Qed.
    Lemma m6_unhurt : unhurt m6.
    Proof.
      pose proof (lessing_intact _ (less_lessing _ _ gone_r gone_l _ Hls (λ q Hq, Hq) (λ q Hq, Hq)) (tin_tsafe _ Htin)) as Hi. split.
      - intros k Hk Hk'. rewrite m6_out by done. by apply (it_out _ _ _ _ _ Hi).
      - intros p Hs. rewrite m6_l. by apply (it_stray _ _ _ _ _ Hi).
      - intros p c t Hc Hm. rewrite m6_l, m6_r; [by apply (it_kept _ _ _ _ _ Hi)|done|].
        intros Hx. destruct (named_at p Hx) as (_ & _ & _ & _ & _ & _ & E). congruence.
      - intros p Hc. right. rewrite m6_l. by apply m5_clash.
      - intros p Hc. destruct (m5_clash p Hc) as [_ E]. destruct (decide (p ∈ l)) as [Hp|Hp].
        + right; left. by rewrite (sh_new _ _ _ _ _ Hsh p Hp).
        + left. rewrite <-E. apply (sh_rest _ _ _ _ _ Hsh). intros q Hq. split; intros E'%app_inv_head; [by subst q|].
          destruct (named_at p) as (_ & _ & _ & Hnc & _); [exists q; split; [by apply Hl|done]|]. done.
      - exact (tin_tsafe _ m6_tin).
    Qed.
    Context (Hall : ∀ p, clash p → p ∈ l).
    Lemma m6_less : MergeSync.less C wv (Merge.gone_r C mv lv) (Merge.gone_l C mv lv) m6.
    Proof.
      split.
      - apply (sh_wf _ _ _ _ _ Hsh).
      - intros k Hk Hk'. rewrite m6_out by done. cbn [w_fs wv]. rewrite (mv_out C m ldb rdb last X H Hn) by done. by apply (ls_out _ _ _ _ _ Hls).
      - intros q Hq. cbn [w_fs wv]. rewrite (gone_r_v C m ldb rdb last X H Hn), (l_v C m ldb rdb last X H Hn), m6_l. by apply (ls_l _ _ _ _ _ Hls).
      - intros q Hq Hz. cbn [w_fs wv]. rewrite (gone_l_v C m ldb rdb last X H Hn). destruct (decide (clash q)) as [Hc|Hc]; [|destruct (decide (named q)) as [Hnn|Hnn]].
        + split; [intros Hg; by destruct (clash_not_gone q Hc)|]. intros _. rewrite (r_v_clash C m ldb rdb last X H Hn) by done. apply (sh_old _ _ _ _ _ Hsh). by apply Hall.
        + destruct (named_at q Hnn) as (_ & _ & Hk & _). split; [by intros [? _]|]. intros _. destruct Hnn as (p & Hp & ->).
          rewrite (r_v_cn C m ldb rdb last X H Hn) by done. rewrite (sh_new _ _ _ _ _ Hsh p) by by apply Hall. by apply m5_clash.
        + rewrite (r_v C m ldb rdb last X H Hn), m6_r by done. by apply (ls_r _ _ _ _ _ Hls).
      - destruct (ls_util _ _ _ _ _ Hls) as [[Hd Hid Hf] Htr Hlk Hrs].
        assert (He : util_dir C `prefix_of` exclude_dir C) by by eexists.
        assert (Hf' : util_dir C `prefix_of` exclude_file C) by (unfold exclude_file; etrans; [exact He|by eexists]).
        assert (Hdir : ∀ d, util_dir C `prefix_of` d → dir_at m5 d → dir_at m6 d).
        { intros d Hp [t Hd']. exists t. destruct (decide (d = [])) as [->|Hd0]; [done|]. rewrite node_at_ne in * by done. by rewrite m6_util. }
        split; [split|..].
        + by apply Hdir.
        + done.
        + by rewrite m6_util.
        + apply Hdir; [by eexists|done].
        + intros x t k. rewrite m6_trash. apply Hlk.
        + intros k Hk Hk'. rewrite m6_util, Hrs by done. cbn [w_fs wv]. unfold with_excl.
          destruct (decide (k = exclude_file C)) as [->|Hne]; [by rewrite !lookup_insert|]. rewrite !lookup_insert_ne by done. by rewrite (mv_util C m ldb rdb last X H Hn).
    Qed.
    Lemma r_trashed p s : trashed p → Merge.r_at C mv (p ++ s) = r_at (p ++ s).
    Proof.
      intros (_ & Hg & _). destruct (gone_l_apart C m ldb rdb last X H Hn p (p ++ s) Hg) as [? ?]; [by apply prefix_app_r|].
      by apply (r_v C m ldb rdb last X H Hn).
    Qed.
    Lemma m6_tin_v : MergeCut.tin C wv m6.
    Proof.
      destruct m6_tin as [Hnw Ho]. split.
      - intros p x Hp Hx. apply (trashed_v C m ldb rdb last X H Hn) in Hp. cbn [w_fs wv]. destruct (Hnw p x Hp Hx) as [E1 E2].
        pose proof (r_trashed p [] Hp) as E. rewrite app_nil_r in E. rewrite E. split; [done|]. intros s Hs. rewrite r_trashed by done. by apply E2.
      - intros x s Hx. cbn [w_fs wv]. rewrite (mv_util C m ldb rdb last X H Hn) by (unfold trash_dir; rewrite <-app_assoc; by eexists).
        apply Ho. intros p Hp. apply Hx. by apply (trashed_v C m ldb rdb last X H Hn).
    Qed.
  End moving.

  (** ** The databases *)
  Lemma kmv_clash p : clash p → kmv p = Some false ∧ km p = Some false.
  Proof.
    intros Hc. destruct (clash_at p Hc) as (_ & Hns & c & t & c' & t' & El & Er). unfold MergeCut.km. cbn [w_fs w_ldb wv].
    rewrite (merged_v_clash C m ldb rdb last X H Hn), El by done. split; [done|].
    destruct (changed_merged C m ldb rdb last X H p) as [n En].
    { destruct (clash_changed C m ldb rdb last X H Hn p Hc); tauto. }
    rewrite En. cbn. f_equal. by rewrite (merged_kind_at _ _ _ _ _ _ H p _ _ En Er).
  Qed.
  Lemma kmv_named p : named p → kmv p = Some false ∧ km p = None.
  Proof.
    intros Hx. destruct (named_at p Hx) as (_ & _ & _ & _ & _ & _ & E). unfold MergeCut.km. rewrite E. split; [|done]. cbn [w_fs w_ldb wv].
    destruct Hx as (q & Hq & ->). rewrite (merged_v_cn C m ldb rdb last X H Hn) by done. by destruct (clash_at q Hq) as (_ & _ & ? & ? & ? & ? & _ & ->).
  Qed.
  Lemma kmv_other p : ¬ clash p → ¬ named p → kmv p = km p.
  Proof. intros Hc Hnn. unfold MergeCut.km. cbn [w_fs w_ldb wv]. by rewrite (merged_v C m ldb rdb last X H Hn). Qed.
  (** The rows of files: the row of a file in conflict is a new one. *)
  Definition crow (p : path) (x : ldata) : Prop :=
    if decide (clash p) then ld_local x = true ∧ (c_inflate C = false → ld_prio x = 0%Qc)
    else if decide (named p) then x = LData false 0%Qc true
    else MergeSync.lrow C w X p x.
  Record moved_db (w' : world) : Prop := {
    md_l : ∀ p, ld_dir <$> v_ldb w' !! p = if decide (clash p) then None else kmv p;
    md_row : ∀ p x, v_ldb w' !! p = Some x → ld_dir x = false → crow p x;
    md_r : ∀ p, rd_dir <$> v_rdb w' !! p = kmv p;
    md_since : ∀ p d, v_rdb w' !! p = Some d → rd_last d = stamp (c_now C) rdb p
  }.
  Lemma moved_none w' : (∀ p, ¬ clash p) → lkind km w' → rexact km w' → moved_db w'.
  Proof.
    intros Hc [Hlk Hro] [Hrk Hsi]. assert (Hnn : ∀ p, ¬ named p) by (intros p (q & Hq & _); by apply (Hc q)). split.
    - intros p. by rewrite decide_False, kmv_other.
    - intros p x Hx Hd. unfold crow. rewrite !decide_False by done. by apply Hro.
    - intros p. by rewrite kmv_other.
    - intros p d Hd. by destruct (Hsi p d Hd) as [[[] _]|[_ ?]].
  Qed.
  Lemma moved_some w' l : (∀ p, p ∈ l ↔ clash p) → lkind km w' → rexact km w' → let new := map cn l in ∀ m',
    moved_db (set_vrdb (sr_add (v_rdb w') new [] (c_now C)) (set_vldb (sl_add (s_rm (v_ldb w') l) new [] 0%Qc true) (set_fs m' w'))).
  Proof.
    intros Hl [Hlk Hro] [Hrk Hsi] new m'. pose proof clean_v as Hv.
    assert (Hnew : ∀ p, p ∈ new ↔ named p).
    { intros p. unfold new. rewrite elem_of_list_fmap. split.
      - intros (q & -> & Hq%Hl). by exists q.
      - intros (q & Hq & ->). exists q. split; [done|]. by apply Hl. }
    assert (Hnew' : ∀ p, p ∈ new ++ [] ↔ named p) by (intros p; rewrite app_nil_r; apply Hnew).
    assert (Hrm : ∀ p, is_Some (km p) → Forall (λ q, ¬ q `prefix_of` p) l ↔ ¬ clash p).
    { intros p Hp. rewrite Forall_forall. split; [intros Hf Hc; by apply (Hf p); [apply Hl|]|]. intros Hc q Hq%Hl Hqp.
      destruct (decide (q = p)) as [->|Hne]; [done|]. destruct (clash_below C m ldb rdb last X H Hn p q Hq Hqp Hne) as (El & Er & Hnn).
      unfold MergeCut.km in Hp. apply fmap_is_Some in Hp as [n Hp]. apply (merged_inv _ _ _ _ _ _ H) in Hp as [(_ & _ & E)|[(_ & _ & E)|(_ & _ & E)]]; congruence. }
    assert (Hup : ∀ p, named p → parent p = [] ∨ kmv (parent p) = Some true).
    { intros p Hp. destruct (kmv_named p Hp) as [Ek _]. unfold MergeCut.km in Ek. apply fmap_Some in Ek as (n & En & _).
      destruct (merged_parent _ _ _ _ _ _ Hv _ _ En) as [?|[t Ht]]; [by left|right]. unfold MergeCut.km. cbn [w_fs w_ldb wv] in *. by rewrite Ht. }
    assert (Hleaf : ∀ p, kmv p = Some false → ¬ ∃ r, r ∈ new ++ [] ∧ below r p).
    { intros p Hp (r & Hr%Hnew' & Hb). destruct (kmv_named r Hr) as [Ek _]. unfold MergeCut.km in Ek, Hp. apply fmap_Some in Ek as (n & En & _).
      apply fmap_Some in Hp as (n' & En' & Hd). apply below_prefix in Hb as [Hpr Hne]. cbn [w_fs w_ldb wv] in *.
      destruct (merged_anc _ _ _ _ _ _ Hv r p n En Hpr) as [t Ht]; [done|apply (merged_ours _ _ _ _ _ _ Hv _ _ En')|]. rewrite Ht in En'. by injection En' as <-. }
    assert (Hsrm : ∀ p d, s_rm (v_ldb w') l !! p = Some d ↔ v_ldb w' !! p = Some d ∧ ¬ clash p).
    { intros p d. rewrite s_rm_lookup. split; intros [E Hf]; (split; [done|]); eapply Hrm; try done; rewrite <-Hlk, E; by eexists. }
    assert (Hkl : ∀ p, ld_dir <$> sl_add (s_rm (v_ldb w') l) new [] 0%Qc true !! p = if decide (clash p) then None else kmv p).
    { intros p. rewrite (sl_add_kind _ _ _ _ _ kmv).
      - destruct (decide (clash p)) as [Hc|Hc].
        + rewrite decide_False; [done|]. intros [Hp|[d [_ Hp]%Hsrm]]; [|done]. apply Hnew' in Hp. by destruct (named_at p Hp) as (_ & _ & _ & ? & _).
        + case_decide as Hp; [done|]. destruct (decide (named p)) as [Hnn|Hnn]; [destruct Hp; left; by apply Hnew'|]. rewrite kmv_other by done.
          pose proof (Hlk p) as E. destruct (v_ldb w' !! p) as [d|] eqn:Ed; [|done]. destruct Hp. right. exists d. by apply Hsrm.
      - intros q b Hq. apply fmap_Some in Hq as (d & [Hd Hc]%Hsrm & ->). pose proof (Hlk q) as E. rewrite Hd in E. cbn in E. rewrite E.
        apply kmv_other; [done|]. intros Hnn. destruct (kmv_named q Hnn) as [_ E']. rewrite E' in E. done.
      - intros q Hq%Hnew' _. rewrite bool_decide_false by apply not_elem_of_nil. by apply kmv_named.
      - intros q Hq%Hnew'. by apply Hup. }
    assert (Hkr : ∀ p, rd_dir <$> sr_add (v_rdb w') new [] (c_now C) !! p = kmv p).
    { intros p. rewrite (sr_add_kind _ _ _ _ kmv).
      - case_decide as Hp; [done|]. destruct (decide (named p)) as [Hnn|Hnn]; [destruct Hp; left; by apply Hnew'|].
        assert (v_rdb w' !! p = None) as Ep. { destruct (v_rdb w' !! p) eqn:E; [|done]. destruct Hp. right. by eexists. }
        pose proof (Hrk p) as E. rewrite Ep in E. cbn in E. destruct (decide (clash p)) as [Hc|Hc]; [destruct (kmv_clash p Hc) as [_ E']; congruence|].
        by rewrite kmv_other.
      - intros q b Hq. rewrite Hrk in Hq. destruct (decide (clash q)) as [Hc|Hc]; [destruct (kmv_clash q Hc); congruence|].
        destruct (decide (named q)) as [Hnn|Hnn]; [destruct (kmv_named q Hnn); congruence|]. by rewrite kmv_other.
      - intros q Hq%Hnew' _. rewrite bool_decide_false by apply not_elem_of_nil. by apply kmv_named.
      - intros q Hq%Hnew'. by apply Hup. }
    split; cbn [v_ldb v_rdb set_vldb set_vrdb set_fs].
    - done.
    - intros p x Hx Hd. pose proof (Hkl p) as Ek. rewrite Hx in Ek. cbn in Ek. unfold crow. destruct (decide (clash p)) as [Hc|Hc]; [done|].
      rewrite Hd in Ek. destruct (sl_add_file _ _ _ _ _ _ _ (Hleaf p (eq_sym Ek)) Hx) as [[Hx' _]%Hsrm|(_ & Hp%Hnew' & ->)].
      + rewrite decide_False; [by apply Hro|]. intros Hnn. pose proof (Hlk p) as E. rewrite Hx' in E. destruct (kmv_named p Hnn) as [_ E']. rewrite E' in E. done.
      + rewrite decide_True by done. by rewrite bool_decide_false by apply not_elem_of_nil.
    - done.
    - intros p d Hd. destruct (since_add (c_now C) (v_rdb w') new [] p d Hd) as [[[] _]|[_ ->]]. unfold stamp at 1.
      destruct (v_rdb w' !! p) as [d0|] eqn:E; [by destruct (Hsi p d0 E) as [[[] _]|[_ ?]]|]. unfold stamp.
      destruct (rdb !! p) as [d1|] eqn:Er; [|done]. exfalso.
      pose proof (Hrk p) as E'. rewrite E in E'. cbn in E'. pose proof (Hkr p) as E''. rewrite Hd in E''. cbn in E''.
      destruct (decide (named p)) as [Hnn|Hnn]; [destruct (named_at p Hnn) as (_ & _ & _ & _ & _ & ? & _); congruence|].
      destruct (decide (clash p)) as [Hc|Hc]; [destruct (kmv_clash p Hc); congruence|]. rewrite kmv_other in E'' by done. congruence.
  Qed.

  (** ** The conflicts *)
  Lemma both_clash p : new_l p ∨ edited_l p → (¬ known p ∧ is_Some (r_at p)) ∨ edited_r p → (∃ t, merged p = Some (Dir t)) ∨ clash p ∨ ∃ n, l_at p = Some n ∧ r_at p = Some n.
  Proof.
    intros Ha Hb. destruct (changed_merged C m ldb rdb last X H p) as [n En]; [tauto|].
    destruct n as [c t|t k|t]; [right|by apply (merged_no_link _ _ _ _ _ _ H) in En|left; by exists t].
    assert (Hnew : new_l p → is_Some (r_at p) → clash p ∨ ∃ n, l_at p = Some n ∧ r_at p = Some n).
    { intros ([nl Hnl] & Hk & _) [nr Hnr]. destruct (clash_new _ _ _ _ _ _ H p nl nr) as [(? & ? & -> & ->)|?]; [done..| |right; eauto|by left]. right.
      by rewrite <-(merged_kind_at _ _ _ _ _ _ H p _ _ En Hnr). }
    destruct Ha as [Ha|Ha].
    - apply Hnew; [done|]. destruct Hb as [[_ Hb]|Hb]; [done|]. destruct Ha as (Hl & Hk & _). destruct Hb as [[? _]|(d & Hd & _)]; [done|].
      destruct (cl_unlisted _ _ _ _ _ _ H p) as [?|Hr]; [by eexists|done|done].
    - destruct Hb as [[Hk Hb]|Hb]; [by destruct Ha|]. destruct (clash_edited _ _ _ _ _ _ H p Ha Hb) as [(? & ? & ? & ?)|?]; [right; eauto|by left].
  Qed.
  Lemma clash_both p : clash p → (new_l p ∨ edited_l p) ∧ ((¬ known p ∧ is_Some (r_at p)) ∨ edited_r p).
  Proof.
    intros Hc. split; [by apply (clash_changed C m ldb rdb last X H Hn)|]. destruct Hc as (c & t & c' & t' & El & Er & _ & [[_ He]|Hk]); [by right|left].
    split; [done|by eexists].
  Qed.
  Lemma local_scan_v w' : seen w' → less gone_r gone_l (w_fs w') → local_scan C true w' = ([], w', Ok (tree m L)).
  Proof.
    intros (El & _ & _) Hls. unfold local_scan, bind, get, eval, mut, ret. rewrite El.
    destruct (true && _) eqn:E; [done|]. apply andb_false_iff in E as [E|E]; [done|]. apply negb_false_iff, bool_decide_eq_true in E.
    assert (tree (w_fs w') L = ∅) as E'.
    { apply map_empty. intros q. destruct (tree (w_fs w') L !! q) as [n|] eqn:En; [|done]. apply tree_lookup in En as [Hq En].
      assert (l_at q = None) as El0 by by rewrite l_at_tree, E. destruct (ls_l _ _ _ _ _ Hls q Hq) as [E1 E2].
      destruct (decide (gone_r q)); [rewrite E1 in En by done; done|]. rewrite E2 in En by done. congruence. }
    rewrite scan_dir_tree, E', E; [|apply (ls_wf _ _ _ _ _ Hls)|]. { rewrite E in El. rewrite <-El. by destruct w'. }
    eapply (out_dir C w last X H Hit Hrows Hvl Hvr Hfresh Hlast); [apply (ls_out _ _ _ _ _ Hls)|by left].
  Qed.
  Lemma m1_scan : tree m1 R ≠ ∅.
  Proof.
    pose proof (cl_mounted _ _ _ _ _ _ H) as Hm. pose proof (cl_util _ _ _ _ _ _ H) as Hu. intros E.
    assert (Hd : dir_at m1 (util_dir C)).
    { eapply wf_dir_anc; [by apply with_excl_mounted|apply (uo_dir C), with_excl_util; [apply (mo_wf _ _ Hm)|done]|by eexists]. }
    apply dir_at_lookup in Hd as [t Hd]; [|unfold util_dir; by destruct (c_R C)].
    assert (tree m1 (c_R C) !! zielen_dir = Some (Dir t)) as E' by (by apply tree_lookup). by rewrite E in E'.
  Qed.
  Lemma remote_scan_v w' : seen w' → remote_scan C true w' = ([], w', Ok (hide_util (tree m1 R))).
  Proof.
    intros (_ & Er & _). unfold remote_scan, bind, get, eval, mut, ret. rewrite Er.
    destruct (true && _) eqn:E; [done|]. apply andb_false_iff in E as [E|E]; [done|]. apply negb_false_iff, bool_decide_eq_true in E. by destruct m1_scan.
  Qed.
  Lemma renamed_empty S : renamed C ∅ S = S.
  Proof.
    unfold renamed. apply set_eq. intros p. rewrite elem_of_map. split.
    - intros (q & -> & Hq). by rewrite bool_decide_false by set_solver.
    - intros Hp. exists p. by rewrite bool_decide_false by set_solver.
  Qed.
  Lemma clash_conflict_wp (I : world → Prop) (Q : res _ → world → Prop) w' a b a' b' :
    (∀ p, p ∈ a ↔ new_l p) → (∀ p, p ∈ b ↔ ¬ known p ∧ is_Some (r_at p)) → (∀ p, p ∈ a' ↔ edited_l p) → (∀ p, p ∈ b' ↔ edited_r p) →
    less gone_r gone_l (w_fs w') → tin (w_fs w') → stored w' → seen w' → lkind km w' → rexact km w' →
    (∀ w'', unhurt (w_fs w'') → stored w'' → I w'') →
    (∀ w'' down, (∀ p, p ∈ down ↔ ((p ∈ b' ∪ b) ∧ ¬ clash p) ∨ named p) →
       MergeSync.less C wv (Merge.gone_r C mv lv) (Merge.gone_l C mv lv) (w_fs w'') → MergeCut.tin C wv (w_fs w'') → stored w'' → seen w'' → moved_db w'' →
       Q (Ok (a' ∪ a, down)) w'') →
    wp (handle_conflicts C (a' ∪ a) (b' ∪ b)) I Q w'.
  Proof.
    intros Ha Hb Ha' Hb' Hls Htin Hst Hse Hlk Hrk HI HQ. unfold handle_conflicts.
    apply wp_bind. eapply wp_run; [by apply local_scan_v|constructor|]. cbn beta iota.
    apply wp_bind. eapply wp_run; [by apply remote_scan_v|constructor|]. cbn beta iota. apply wp_bind, wp_eval.
    assert (Hlp : ∀ p, p ∈ a' ∪ a ↔ new_l p ∨ edited_l p) by (intros p; rewrite elem_of_union, Ha, Ha'; tauto).
    assert (Hrp : ∀ p, p ∈ b' ∪ b ↔ (¬ known p ∧ is_Some (r_at p)) ∨ edited_r p) by (intros p; rewrite elem_of_union, Hb, Hb'; tauto).
    assert (Hcl : ∀ p, p ∈ c_iter C (elements ((a' ∪ a) ∩ (b' ∪ b))) ∧ ¬ db_dir (v_ldb w') p → clash p ∨ ∃ n, l_at p = Some n ∧ r_at p = Some n).
    { intros p. rewrite iter_elem, elem_of_intersection, Hlp, Hrp.
      intros [[Hx Hy] Hd]. destruct (both_clash p Hx Hy) as [[t Ht]|?]; [|done]. destruct Hd. pose proof (proj1 Hlk p) as E. unfold MergeCut.km in E. rewrite Ht in E.
      apply fmap_Some in E as (d & Ed & Hd). by exists d. }
    assert (Hcl' : ∀ p, clash p → p ∈ c_iter C (elements ((a' ∪ a) ∩ (b' ∪ b))) ∧ ¬ db_dir (v_ldb w') p).
    { intros p. rewrite iter_elem, elem_of_intersection, Hlp, Hrp. intros Hc. split; [by apply clash_both|]. intros (d & Ed & Hd). pose proof (proj1 Hlk p) as E. destruct (kmv_clash p Hc) as [_ E']. rewrite Ed in E. cbn in E. congruence. }
    destruct (conflicts_spec (v_ldb w') (tree m L) (hide_util (tree m1 R)) (c_iter C (elements ((a' ∪ a) ∩ (b' ∪ b))))) as (rl & rr & Ec & Hrl & Hrr).
    { intros p Hp Hd. rewrite <-l_at_tree, (rtree_m1 C w last X H Hit Hrows Hvl Hvr Hfresh Hlast).
      destruct (Hcl p (conj Hp Hd)) as [Hc|(n & -> & ->)]; [|split; by eexists].
      destruct (clash_at p Hc) as (_ & _ & c & t & c' & t' & El & Er). rewrite El, Er. split; by eexists. }
    rewrite Ec. cbn beta iota. cbn [fst snd].
    assert (rl = ∅) as ->.
    { apply set_eq. intros p. split; [|set_solver]. intros (Hp & Hd & nl & nr & Hnl & Hnr & Ho)%Hrl. exfalso.
      rewrite <-l_at_tree in Hnl. rewrite (rtree_m1 C w last X H Hit Hrows Hvl Hvr Hfresh Hlast) in Hnr.
      destruct (Hcl p (conj Hp Hd)) as [Hc|(n & ? & ?)]; [|assert (nl = nr) as -> by congruence; unfold older in Ho; lia].
      destruct (clash_at p Hc) as (_ & _ & c & t & c' & t' & El & Er). pose proof (nh_newer _ _ _ _ _ Hn p c t c' t' Hc El Er). rewrite El in Hnl. rewrite Er in Hnr.
      injection Hnl as <-. injection Hnr as <-. unfold older in Ho. cbn in Ho. lia. }
    assert (Hrr' : ∀ p, p ∈ rr ↔ clash p).
    { intros p. rewrite Hrr. rewrite <-l_at_tree, (rtree_m1 C w last X H Hit Hrows Hvl Hvr Hfresh Hlast). split.
      - intros (Hp & Hd & nl & nr & Hnl & Hnr & Ho). destruct (Hcl p (conj Hp Hd)) as [Hc|(n & ? & ?)]; [done|].
        assert (nl = nr) as -> by congruence. unfold older in Ho. lia.
      - intros Hc. destruct (Hcl' p Hc) as [Hp Hd]. split; [done|]. split; [done|].
        destruct (clash_at p Hc) as (_ & _ & c & t & c' & t' & El & Er). exists (File c t), (File c' t'). split; [done|]. split; [done|].
        exact (nh_newer _ _ _ _ _ Hn p c t c' t' Hc El Er). }
    assert (Hdown : ∀ p, p ∈ renamed C rr (b' ∪ b) ↔ ((p ∈ b' ∪ b) ∧ ¬ clash p) ∨ named p).
    { intros p. unfold renamed. rewrite elem_of_map. split.
      - intros (q & -> & Hq). case_bool_decide as Hc; rewrite Hrr' in Hc; [right; by exists q|by left].
      - intros [[Hp Hc]|(q & Hq & ->)].
        + exists p. rewrite bool_decide_false by by rewrite Hrr'. done.
        + exists q. rewrite bool_decide_true by by rewrite Hrr'. split; [done|]. apply Hrp. by apply clash_both. }
    rewrite decide_True by done. apply wp_bind, wp_ret. apply wp_bind. rewrite renamed_empty.
    destruct (decide (rr = ∅)) as [E0|Hne].
    { apply wp_ret, wp_ret. assert (∀ p, ¬ clash p) as Hnc by (intros p; rewrite <-Hrr', E0; set_solver).
      assert (shifted C R (w_fs w') [] (w_fs w')) as Hsh by (apply shifted_nil, (ls_wf _ _ _ _ _ Hls)).
      apply HQ; [done|..|done|done|by apply moved_none].
      - apply (m6_less (w_fs w') Hls Htin [] (w_fs w')); [by intros p ?%elem_of_nil|done|]. intros p Hp. by destruct (Hnc p).
      - apply (m6_tin_v (w_fs w') Hls Htin [] (w_fs w')); [by intros p ?%elem_of_nil|done|]. intros p Hp. by destruct (Hnc p). }
    assert (Hel : ∀ p, p ∈ c_iter C (elements rr) ↔ clash p) by (intros p; by rewrite iter_elem).
    unfold remote_guard. apply wp_catch. apply rename_files_db_wp.
    - apply (ls_wf _ _ _ _ _ Hls).
    - rewrite Hit. apply NoDup_elements.
    - intros p Hp%Hel. split; [apply (clash_ours p Hp)|]. destruct (m5_clash (w_fs w') Hls Htin p Hp) as [_ ->].
      destruct (clash_at p Hp) as (_ & _ & c & t & c' & t' & El & Er). rewrite Er. by exists (File c' t').
    - intros p Hp%Hel. assert (named (cn p)) as Hx by by exists p. destruct (named_at _ Hx) as (_ & Er & Hk & _ & (? & _ & ?) & _).
      destruct (ls_r _ _ _ _ _ Hls (cn p)) as [_ E]; [done..|]. rewrite E; [done|]. by intros [? _].
    - intros p Hp%Hel. by apply Hcl'.
    - intros pre m' Hpre Hsh. apply HI; [|done]. cbn [w_fs set_fs]. apply (m6_unhurt (w_fs w') Hls Htin pre m'); [|done].
      intros p Hp. apply Hel. destruct Hpre as [s ->]. set_solver.
    - intros m' Hsh. cbn zeta. cbn beta iota. apply wp_ret. apply HQ; [done|..|done|done|by apply moved_some].
      + apply (m6_less (w_fs w') Hls Htin (c_iter C (elements rr)) m'); [by intros p ?%Hel|done|by intros p ?%Hel].
      + apply (m6_tin_v (w_fs w') Hls Htin (c_iter C (elements rr)) m'); [by intros p ?%Hel|done|by intros p ?%Hel].
  Qed.

  (** ** Recording the names *)
  Local Notation lkind_v := (MergeUp.lkind crow kmv).
  Local Notation rready_v := (MergeUp.rready C wv last X).
  Lemma add_moved_wp (I : world → Prop) (Q : res unit → world → Prop) w' up down :
    (∀ p, p ∈ up ↔ new_l p ∨ edited_l p) → (∀ p, p ∈ down ↔ (((¬ known p ∧ is_Some (r_at p)) ∨ edited_r p) ∧ ¬ clash p) ∨ named p) →
    stored w' → seen w' → moved_db w' →
    (∀ w'', w_fs w'' = w_fs w' → stored w'' → seen w'' → lkind_v w'' → rready_v w'' → Q (Ok tt) w'') →
    wp (add_both C up ∅ (up ∪ down) ∅) I Q w'.
  Proof.
    intros Hup Hdown Hst Hse [Hlk Hro Hrk Hsi] HQ. pose proof clean_v as Hv.
    assert (Hm : ∀ p, p ∈ up ∪ down ∪ ∅ → is_Some (kmv p)).
    { intros p Hp. unfold MergeCut.km. rewrite fmap_is_Some. cbn [w_fs w_ldb wv]. apply (changed_merged _ _ _ _ _ _ Hv).
      assert (p ∈ up ∨ p ∈ down) as [Hp'|Hp'] by set_solver.
      - apply Hup, (up_v C m ldb rdb last X H Hn) in Hp'. tauto.
      - apply Hdown in Hp' as [[[[Hk Hr]|He] Hc]|(q & Hq & ->)].
        + right; left. rewrite (known_v C m ldb rdb last). split; [tauto|]. rewrite (r_v C m ldb rdb last X H Hn); [done..|].
          intros Hx. destruct (named_at p Hx) as (_ & E & _). rewrite E in Hr. by destruct Hr.
        + do 3 right. by apply (edited_r_v C m ldb rdb last X H Hn).
        + right; left. assert (named (cn q)) as Hx by by exists q. destruct (named_at _ Hx) as (_ & _ & Hk & _). rewrite (known_v C m ldb rdb last). split; [tauto|].
          rewrite (r_v_cn C m ldb rdb last X H Hn) by done. destruct (clash_at q Hq) as (_ & _ & ? & ? & ? & ? & _ & ->). by eexists. }
    assert (Hrow_r : ∀ p, is_Some (kmv p) → is_Some (v_rdb w' !! p)).
    { intros p [b Hb]. rewrite <-Hrk in Hb. destruct (v_rdb w' !! p); [by eexists|done]. }
    assert (Hrow_l : ∀ p, is_Some (kmv p) → ¬ clash p → is_Some (v_ldb w' !! p)).
    { intros p [b Hb] Hc. pose proof (Hlk p) as E. rewrite decide_False in E by done. rewrite Hb in E. destruct (v_ldb w' !! p); [by eexists|done]. }
    apply (add_both_wp C I _ w' _ _ _ _ kmv); [done|..].
    - intros Hi He. assert (∃ p0, p0 ∈ up) as [p0 Hp0] by (apply set_choose_L; set_solver).
      apply Hup, (up_v C m ldb rdb last X H Hn) in Hp0 as [Hp0|Hp0].
      + destruct (cl_inflate _ _ _ _ _ _ Hv Hi) as (p & Hp' & Hl & Hr); [by exists p0|]. exists p. destruct (MergeClash.lv _ _ _ _ _ !! p) as [d|] eqn:E; [|done]. injection Hp' as Hp'.
        destruct (proj1 (known_v C m ldb rdb last p) ltac:(by eexists)) as [_ Hc]. rewrite Hlk, decide_False by done.
        destruct (proj2 (merged_known _ _ _ _ _ _ Hv p ltac:(by eexists)) (conj Hl Hr)) as [n En]. unfold MergeCut.km. cbn [w_fs w_ldb wv]. rewrite En. cbn. f_equal.
        by rewrite (merged_kind_known _ _ _ _ _ _ Hv _ _ _ E En).
      + exists p0. rewrite Hlk, decide_False by by apply (edited_l_v C m ldb rdb last X H Hn) in Hp0 as [_ ?]. unfold MergeCut.km. cbn [w_fs w_ldb wv].
        rewrite (merged_edit _ _ _ _ _ _ Hv) by done. by destruct Hp0 as (_ & c & t & -> & _).
    - set_solver.
    - set_solver.
    - set_solver.
    - intros p k [Hk|Hk]; [|by rewrite Hrk in Hk]. rewrite Hlk in Hk. by case_decide.
    - intros p Hp%Hm Hx. destruct (Hrow_r p Hp) as [d Hd]. destruct Hx as [Hx|Hx]; [|congruence].
      destruct (decide (clash p)) as [Hc|Hc]; [destruct (kmv_clash p Hc) as [-> _]; by rewrite bool_decide_false by set_solver|].
      destruct (Hrow_l p Hp Hc). congruence.
    - intros p [b Hp]%Hm. unfold MergeCut.km in Hp. apply fmap_Some in Hp as (n & En & _).
      destruct (merged_parent _ _ _ _ _ _ Hv _ _ En) as [?|[t Ht]]; [by left|right]. unfold MergeCut.km. cbn [w_fs w_ldb wv] in *. by rewrite Ht.
    - intros p r [b Hr]%Hm Hb Hp. unfold MergeCut.km in Hr, Hp. apply fmap_Some in Hr as (n & En & _).
      apply fmap_Some in Hp as (n' & En' & Hd). apply below_prefix in Hb as [Hpr Hne]. cbn [w_fs w_ldb wv] in *.
      destruct (merged_anc _ _ _ _ _ _ Hv r p n En Hpr) as [t Ht]; [done|apply (merged_ours _ _ _ _ _ _ Hv _ _ En')|]. rewrite Ht in En'. by injection En' as <-.
    - intros l r Hl Hr Hnew Hs. apply HQ; [done|done|done|..].
      + split.
        * intros p. cbn [v_ldb set_vldb]. rewrite Hl. case_decide as Hd; [done|]. destruct (kmv p) as [b|] eqn:En; [|done].
          destruct Hd. destruct (decide (clash p)) as [Hc|Hc]; [left|right; apply Hrow_l; [by rewrite En|done]].
          apply elem_of_union_l, elem_of_union_l, Hup. by apply (clash_changed C m ldb rdb last X H Hn).
        * intros p x Hx Hxd. cbn [v_ldb set_vldb set_vrdb] in Hx. destruct (Hnew p x Hx Hxd) as [Hx'|(Hx' & Hloc & _ & Hp0)]; [by eapply Hro|].
          destruct (decide (clash p)) as [Hc|Hc].
          { unfold crow. rewrite decide_True by done. split; [done|]. intros Hi. apply Hp0. intros [? _]. congruence. }
          exfalso. specialize (Hl p). rewrite Hx in Hl. case_decide as Hd; [|done]. destruct (Hrow_l p) as [? ?]; [by rewrite <-Hl|done|congruence].
      + assert (Hsome : ∀ p, is_Some (r !! p) → is_Some (v_rdb w' !! p)).
        { intros p [d Hd]. specialize (Hr p). rewrite Hd in Hr. case_decide as Hdec; [|done]. apply Hrow_r. by rewrite <-Hr. }
        split; cbn [v_rdb set_vldb set_vrdb].
        * intros p. rewrite Hr. case_decide as Hd; [done|]. destruct (kmv p) as [b|] eqn:En; [|done]. destruct Hd. right. apply Hrow_r. by rewrite En.
        * intros p d Hd Hnu. destruct (Hs p d Hd) as [[[] _]|[_ ->]]. destruct (Hsome p ltac:(by eexists)) as [d0 Hd0]. unfold stamp at 1. rewrite Hd0.
          rewrite (Hsi p d0 Hd0). unfold stamp. cbn [w_rdb wv]. rewrite (rv_lookup C m ldb rdb last). case_decide as Hc; [|done].
          destruct Hnu. cbn [w_fs w_ldb wv]. apply (up_v C m ldb rdb last X H Hn). by apply (clash_changed C m ldb rdb last X H Hn).
  Qed.

  (** ** The whole command *)
  Lemma stands_v : stands_for C wv X w crow.
  Proof.
    split.
    - apply m1_scan.
    - cbn [w_fs wv]. apply map_eq. intros p. by rewrite <-!l_at_tree, (l_v C m ldb rdb last X H Hn).
    - intros p Hp. destruct (cl_excluded _ _ _ _ _ _ H p Hp) as [Hl Hk]. cbn [w_ldb wv]. rewrite (known_v C m ldb rdb last). split; [|tauto].
      intros [n Hn']. rewrite (cl_stray _ _ _ _ _ _ H p) in Hn'; [done|]. split; [done|]. split; [done|]. by left.
    - intros p x x0. cbn [w_ldb wv]. rewrite (lv_lookup C m ldb rdb last). unfold crow. case_decide as Hc; [done|]. intros E. rewrite decide_False.
      + unfold MergeSync.lrow. by rewrite E.
      + intros Hx. destruct (named_at p Hx) as (_ & _ & Hk & _). apply Hk. by eexists.
  Qed.
  Lemma intact_unhurt m' : MergeSync.intact C wv last X m' → unhurt m'.
  Proof.
    intros [Ho Hs Hk Ht]. cbn [w_fs w_ldb wv] in *. split.
    - intros k Hk1 Hk2. rewrite Ho by done. by apply (mv_out C m ldb rdb last X H Hn).
    - intros p Hp. rewrite Hs by by apply (stray_v C m ldb rdb last X H Hn). apply (l_v C m ldb rdb last X H Hn).
    - intros p c t Hc Hm. apply Hk. rewrite (merged_v C m ldb rdb last X H Hn); [done..|].
      intros Hx. destruct (named_at p Hx) as (_ & _ & _ & _ & _ & _ & E). congruence.
    - intros p Hc. destruct (clash_at p Hc) as (_ & _ & c & t & c' & t' & El & Er). rewrite El. apply Hk. by rewrite (merged_v_clash C m ldb rdb last X H Hn).
    - intros p Hc. destruct (clash_at p Hc) as (_ & _ & c & t & c' & t' & El & Er). rewrite Er. right. apply Hk. by rewrite (merged_v_cn C m ldb rdb last X H Hn).
    - intros Hd p x s c t Hp Hx E. apply (Ht Hd p x s c t); [by apply (trashed_v C m ldb rdb last X H Hn)|done|].
      cbn [w_fs wv]. destruct Hp as (_ & Hg & _). destruct (gone_l_apart C m ldb rdb last X H Hn p (p ++ s) Hg) as [? ?]; [by apply prefix_app_r|].
      by rewrite (r_v C m ldb rdb last X H Hn).
  Qed.
  Lemma outcome_resolved m' : outcome C mv lv last X m' → resolved m'.
  Proof.
    intros [Hr Hl Ho _ _ _ _ _]. split.
    - intros p Hc. destruct (clash_at p Hc) as (_ & _ & c & t & c' & t' & El & Er). specialize (Hr p). rewrite (merged_v_clash C m ldb rdb last X H Hn), El in Hr by done.
      rewrite El. unfold like in Hr. by destruct (Merge.r_at C m' p) as [[]|].
    - intros p Hc. destruct (clash_at p Hc) as (_ & _ & c & t & c' & t' & El & Er). specialize (Hl p). unfold shows in Hl.
      rewrite (merged_v_clash C m ldb rdb last X H Hn), El in Hl by done. by rewrite El.
    - intros p Hc. destruct (clash_at p Hc) as (_ & _ & c & t & c' & t' & El & Er). specialize (Hr (cn p)). rewrite (merged_v_cn C m ldb rdb last X H Hn), Er in Hr by done.
      rewrite Er. unfold like in Hr. by destruct (Merge.r_at C m' (cn p)) as [[]|].
    - intros p Hc. destruct (clash_at p Hc) as (_ & _ & c & t & c' & t' & El & Er). specialize (Hl (cn p)). unfold shows in Hl.
      rewrite (merged_v_cn C m ldb rdb last X H Hn), Er in Hl by done. by rewrite Er.
    - intros p Hc Hnn. rewrite <-(merged_v C m ldb rdb last X H Hn); [apply Hr|done|]. intros (q & Hq & E). by apply (Hnn q).
    - intros p Hc Hnn. specialize (Hl p). unfold shows in *. rewrite (merged_v C m ldb rdb last X H Hn) in Hl; [|done|intros (q & Hq & E); by apply (Hnn q)].
      destruct (merged p) as [[]|]; [done..|]. rewrite Hl. rewrite (l_v C m ldb rdb last X H Hn).
      destruct (decide (Merge.stray C mv lv X p)) as [Hs|Hs]; rewrite (stray_v C m ldb rdb last X H Hn) in Hs; [by rewrite decide_True|by rewrite decide_False].
    - intros k Hk1 Hk2. rewrite Ho by done. by apply (mv_out C m ldb rdb last X H Hn).
  Qed.
  Lemma trash_holds_v m' : trash_holds C mv lv m' → trash_holds C m ldb m'.
  Proof.
    intros [Hnw Ho Hno].
    assert (E : ∀ s, mv !! (trash_dir C ++ s) = m !! (trash_dir C ++ s)).
    { intros s. apply (mv_util C m ldb rdb last X H Hn). unfold trash_dir. rewrite <-app_assoc. by eexists. }
    split.
    - intros Hd p x Hp Hx. destruct (Hnw Hd p x) as [E1 E2]; [by apply (trashed_v C m ldb rdb last X H Hn)|done|].
      destruct Hp as (_ & Hg & _). split.
      + destruct (gone_l_apart C m ldb rdb last X H Hn p p Hg) as [? ?]; [done|]. by rewrite E1, (r_v C m ldb rdb last X H Hn).
      + intros s Hs. destruct (gone_l_apart C m ldb rdb last X H Hn p (p ++ s) Hg) as [? ?]; [by apply prefix_app_r|]. by rewrite E2, (r_v C m ldb rdb last X H Hn).
    - intros x n s Hx. rewrite <-E in Hx. rewrite (Ho x n s Hx). by rewrite E.
    - intros x s Hx Hp. apply Hno; [by rewrite E|]. intros p Hp'%(trashed_v C m ldb rdb last X H Hn). by apply Hp.
  Qed.

  Definition csafe (w' : world) : Prop := unhurt (w_fs w') ∧ (stored w' ∨ resolved (w_fs w')).
  Theorem clash_sync_wp : globbed C w X →
    wp (sync_main C (ret tt)) csafe
      (λ r w', r = Ok tt ∧ outcome C mv lv last X (w_fs w') ∧ trash_holds C mv lv (w_fs w') ∧ recorded C wv last X w' ∧ settled C wv last X crow (w_fs w') (w_ldb w')) w.
  Proof.
    intros HX.
    assert (Hlift : ∀ A (x : M world A) Q w', wp x act Q w' → wp x csafe Q w').
    { intros A x Q w' Hx. eapply wp_trace_mono; [exact Hx|]. intros w'' Ha. split; [by apply act_unhurt|]. left. apply Ha. }
    unfold sync_main. apply wp_bind, Hlift, (detect_wp C w last X H Hit Hrows Hvl Hvr Hfresh Hlast _ HX). intros w2 a b dl dr tr a' b' [Ha Hb Hdl Htr Hdr Ha' Hb'] Hfs Hst Hse Hlk Hrk. cbn beta iota.
    apply wp_bind, wp_fsm, wp_ret. rewrite set_fs_id. cbn beta iota. cbn [fst snd].
    apply wp_bind, Hlift, (rm_local_wp C w last X H Hit Hrows Hvl Hvr Hfresh Hlast); [done..|]. clear dependent w2. intros w2 Hls Hts Hst Hse Hlk Hrk. cbn beta iota.
    apply wp_bind, Hlift, (rm_remote_wp C w last X H Hit Hrows Hvl Hvr Hfresh Hlast); [by intros p ?%Hdr|done..|]. clear dependent w2. intros w2 Hls Hts Hst Hse Hlk Hrk. cbn beta iota.
    apply wp_bind, Hlift, (trash_wp C w last X H Hit Hrows Hvl Hvr Hfresh Hlast _ w2 dr tr); [|by intros p [_ ?]%Htr|by intros p [_ ?]%Hdr|done..|].
    { intros p. rewrite Hdr, Htr. split; [tauto|]. intros Ht. 
      assert ((c_trash C = true ∧ ∃ d, w_ldb w !! p = Some d ∧ ld_local d = false) ∨ ¬ (c_trash C = true ∧ ∃ d, w_ldb w !! p = Some d ∧ ld_local d = false)) as [Hd|Hd]; [|by right|by left].
      destruct (c_trash C); [|right; by intros [? _]]. destruct (w_ldb w !! p) as [d|]; [|right; intros (_ & ? & ? & _); done].
      destruct (ld_local d) eqn:Ed; [right; intros (_ & ? & [= <-] & ?); congruence|left; eauto]. }
    clear dependent w2. intros w2 Hls Htin Hst Hse Hlk Hrk. cbn beta iota.
    apply wp_bind, clash_conflict_wp; [done..| |].
    { intros w'' Hu Hs. split; [done|by left]. }
    clear dependent w2. intros w2 down Hdown Hls Htin Hst Hse Hmd. cbn beta iota. cbn [fst snd].
    apply wp_bind, add_moved_wp; [|intros p; rewrite Hdown, elem_of_union, Hb, Hb'; tauto|done..|].
    { intros p. rewrite elem_of_union, Ha, Ha'. tauto. }
    intros w3 Efs Hst3 Hse3 Hlk3 Hrk3. rewrite <-Efs in Hls, Htin. clear dependent w2. cbn beta iota.
    eapply wp_trace_mono.
    - apply (rest_wp C wv last X clean_v Hit Hrows eq_refl eq_refl (conj eq_refl (conj eq_refl eq_refl)) Hlast w crow stands_v); [exact (cl_clean_unknown _ _ _ _ _ _ clean_v)| |done..].
      intros p. cbn [w_fs w_ldb wv]. rewrite (up_v C m ldb rdb last X H Hn), elem_of_union, Ha, Ha'. tauto.
    - intros w'' [Hi Ho]. split; [by apply intact_unhurt|]. destruct Ho as [Ho|Ho]; [by left|right]. by apply outcome_resolved.
  Qed.
End run.
