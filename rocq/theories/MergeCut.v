(** A sync of a clean state: what was deleted on one side is deleted on the
    other. *)
From Coq Require Import QArith Qcanon.
From Verif Require Export MergeSync.
From stdpp Require Import options.

Section sync.
  Set Default Proof Using "Type*".
  Context (C : conf) (w : world) (last : Z) (X : pset).
  Local Notation m := (w_fs w).
  Local Notation ldb := (w_ldb w).
  Local Notation rdb := (w_rdb w).
  Context (H : calm_x C m ldb rdb last X).
  Context (Hit : ∀ l, c_iter C l ≡ₚ l) (Hrows : ∀ l, c_rows C l ≡ₚ l).
  Context (Hvl : v_ldb w = ldb) (Hvr : v_rdb w = rdb) (Hfresh : FMProofs.fresh w) (Hlast : w_last w = Some last).
  Local Notation L := (c_L C).
  Local Notation R := (c_R C).
  Local Notation l_at := (l_at C m).
  Local Notation r_at := (r_at C m).
  Local Notation known := (known ldb).
  Local Notation stray := (stray C m ldb X).
  Local Notation merged := (merged C m ldb last X).
  Local Notation new_l := (new_l C m ldb X).
  Local Notation gone_l := (gone_l C m ldb).
  Local Notation gone_r := (gone_r C m ldb).
  Local Notation edited_l := (edited_l C m ldb last).
  Local Notation edited_r := (edited_r C m ldb rdb last).
  Local Notation trashed := (trashed C m ldb).
  Local Notation m1 := (with_excl C (c_patterns C) m).
  Local Notation intact := (intact C w last X).
  Local Notation tsafe := (tsafe C w).
  Local Notation tsafe_r := (tsafe_r C w last X H Hit Hrows Hvl Hvr Hfresh Hlast).
  Local Notation stored := (stored w).
  Local Notation seen := (seen C w X).
  Local Notation utl := (utl C w).
  Local Notation less := (less C w).
  Local Notation lessing := (lessing C w).
  Local Notation rkind := (rkind C w).
  Local Notation act := (act C w).
  Local Notation found := (found C w last X).
  Local Notation kind := (kind C w last X).
  Local Notation HR0 := (HR0 C w last X H Hit Hrows Hvl Hvr Hfresh Hlast).
  Local Notation HL0 := (HL0 C w last X H Hit Hrows Hvl Hvr Hfresh Hlast).
  Local Notation LR_ne := (LR_ne C w last X H Hit Hrows Hvl Hvr Hfresh Hlast).
  Local Notation util_not_L := (util_not_L C w last X H Hit Hrows Hvl Hvr Hfresh Hlast).
  Local Notation util_not_R := (util_not_R C w last X H Hit Hrows Hvl Hvr Hfresh Hlast).
  Local Notation util_out := (util_out C w last X H Hit Hrows Hvl Hvr Hfresh Hlast).
  Local Notation m1_less := (m1_less C w last X H Hit Hrows Hvl Hvr Hfresh Hlast).
  Local Notation m1_other := (m1_other C w last X H Hit Hrows Hvl Hvr Hfresh Hlast).
  Local Notation lessing_intact := (lessing_intact C w last X H Hit Hrows Hvl Hvr Hfresh Hlast).
  Local Notation less_lessing := (less_lessing C w last X H Hit Hrows Hvl Hvr Hfresh Hlast).
  Local Notation lkind := (lkind C w X).
  Local Notation lrows_rm := (lrows_rm C w last X H Hit Hrows Hvl Hvr Hfresh Hlast).
  Local Notation kind_ldb := (kind_ldb C w last X H Hit Hrows Hvl Hvr Hfresh Hlast).
  Local Notation kind_merged := (kind_merged C w last X H Hit Hrows Hvl Hvr Hfresh Hlast).

  (** The program's own directory is as the command left it at the start. *)
  Definition tsame (m' : fs) : Prop := ∀ k, util_dir C `prefix_of` k → m' !! k = m1 !! k.
  Lemma tsame_utl m' : tsame m' → utl m'.
  Proof.
    intros Ht. destruct (ls_util _ _ _ _ _ m1_less) as [[Hd Hid Hf] Htr Hl _].
    assert (He : util_dir C `prefix_of` exclude_dir C) by by eexists.
    assert (Hf' : util_dir C `prefix_of` exclude_file C) by (unfold exclude_file; etrans; [exact He|by eexists]).
    assert (HT : util_dir C `prefix_of` trash_dir C) by by eexists.
    assert (Hdir : ∀ d, util_dir C `prefix_of` d → dir_at m1 d → dir_at m' d).
    { intros d Hp [t Hd']. exists t. rewrite node_at_ne in *; [by rewrite Ht|..]; intros ->; destruct Hp as [s E]; unfold util_dir in E; by destruct R. }
    split; [split|..].
    - by apply Hdir.
    - done.
    - by rewrite Ht.
    - by apply Hdir.
    - intros x t k. rewrite Ht by (etrans; [exact HT|by eexists]). apply Hl.
    - intros k Hk _. by apply Ht.
  Qed.
  Lemma L_out : ¬ below L L ∧ ¬ below L R.
  Proof.
    split; [apply not_below_self|]. intros (x & l & E). destruct (cl_apart _ _ _ _ _ _ H) as [_ Ha]. apply Ha. rewrite E. by eexists.
  Qed.
  Lemma R_out : ¬ below R L ∧ ¬ below R R.
  Proof.
    split; [|apply not_below_self]. intros (x & l & E). destruct (cl_apart _ _ _ _ _ _ H) as [Ha _]. apply Ha. rewrite E. by eexists.
  Qed.
  Lemma out_dir m' d : (∀ k, ¬ below k L → ¬ below k R → m' !! k = m !! k) → d = L ∨ d = R → dir_at m' d.
  Proof.
    intros Ho Hd. assert (d ≠ [] ∧ m' !! d = m !! d ∧ dir_at m d) as (Hne & E & Hdir).
    { destruct Hd as [-> | ->].
      - split; [apply HL0|]. destruct L_out. split; [by apply Ho|]. apply (mo_L _ _ (cl_mounted _ _ _ _ _ _ H)).
      - split; [apply HR0|]. destruct R_out. split; [by apply Ho|]. apply (mo_R _ _ (cl_mounted _ _ _ _ _ _ H)). }
    rewrite dir_at_lookup in * by done. by rewrite E.
  Qed.
  Lemma less_dirs_l GL GR m' p : (∀ q, GL q ∨ ¬ GL q) → less GL GR m' → known p → dirs_ok m' (L ++ parent p).
  Proof.
    intros Hdec Hl Hk k Hk0 Hkp. pose proof (out_dir m' L (ls_out _ _ _ _ _ Hl) (or_introl eq_refl)) as HL.
    assert (L `prefix_of` L ++ parent p) as HLp by by eexists.
    destruct (prefix_weak_total k L _ Hkp HLp) as [Hp|[q ->]].
    { right. eapply wf_dir_anc; [apply (ls_wf _ _ _ _ _ Hl)|exact HL|done]. }
    destruct (decide (q = [])) as [-> |Hq]; [rewrite app_nil_r; by right|].
    apply prefix_app_inv in Hkp. destruct (known_ours _ _ _ _ _ _ H _ Hk) as [Hp0 _].
    assert (ld_dir <$> ldb !! q = Some true) as Hq'.
    { eapply (known_up _ _ _ _ _ _ H p); [done|by etrans; [|apply parent_prefix]| |done].
      intros ->. apply prefix_length in Hkp. pose proof (parent_len _ Hp0). lia. }
    destruct (ls_l _ _ _ _ _ Hl q Hq) as [E1 E2]. destruct (Hdec q) as [Hg|Hg]; [left; by apply E1|].
    rewrite E2 by done. destruct (l_at q) as [n|] eqn:En; [right|by left].
    apply dir_at_lookup; [pose proof HL0; by destruct L|]. rewrite E2 by done.
    pose proof (cl_kind_l _ _ _ _ _ _ H q true n Hq' En). destruct n; try done. by eexists.
  Qed.
  Lemma less_dirs_r GL GR m' p : (∀ q, GR q ∨ ¬ GR q) → less GL GR m' → known p → dirs_ok m' (R ++ parent p).
  Proof.
    intros Hdec Hl Hk k Hk0 Hkp. pose proof (out_dir m' R (ls_out _ _ _ _ _ Hl) (or_intror eq_refl)) as HR.
    assert (R `prefix_of` R ++ parent p) as HRp by by eexists.
    destruct (prefix_weak_total k R _ Hkp HRp) as [Hp|[q ->]].
    { right. eapply wf_dir_anc; [apply (ls_wf _ _ _ _ _ Hl)|exact HR|done]. }
    destruct (decide (q = [])) as [-> |Hq]; [rewrite app_nil_r; by right|].
    apply prefix_app_inv in Hkp. destruct (known_ours _ _ _ _ _ _ H _ Hk) as (Hp0 & _ & _).
    assert (ld_dir <$> ldb !! q = Some true) as Hq'.
    { eapply (known_up _ _ _ _ _ _ H p); [done|by etrans; [|apply parent_prefix]| |done].
      intros ->. apply prefix_length in Hkp. pose proof (parent_len _ Hp0). lia. }
    assert (known q) as Hkq by (unfold Merge.known; destruct (ldb !! q); [by eexists|done]).
    destruct (known_ours _ _ _ _ _ _ H _ Hkq) as (_ & _ & Hz).
    destruct (ls_r _ _ _ _ _ Hl q Hq Hz) as [E1 E2]. destruct (Hdec q) as [Hg|Hg]; [left; by apply E1|].
    rewrite E2 by done. destruct (r_at q) as [n|] eqn:En; [right|by left].
    apply dir_at_lookup; [pose proof HL0; by destruct L|]. rewrite E2 by done.
    pose proof (cl_kind_r _ _ _ _ _ _ H q true n (or_introl Hq') En). destruct n; try done. by eexists.
  Qed.

  (** ** The topmost deleted paths *)
  Lemma top_exists (P : path → Prop) p : (∀ p, P p ∨ ¬ P p) → (∀ p, P p → known p) →
    (∀ p q, P q → known p → q `prefix_of` p → P p) → P p → ∃ q, top P q ∧ q `prefix_of` p.
  Proof.
    intros Hdec Hk Hdown. induction p as [|p Hp IH] using path_ind_up; intros HP.
    { by destruct (known_ours _ _ _ _ _ _ H _ (Hk _ HP)). }
    destruct (Hdec (parent p)) as [HP'|HP'].
    - destruct (IH HP') as (q & Hq & Hqp). exists q. split; [done|]. etrans; [done|apply parent_prefix].
    - exists p. split; [|done]. split; [done|]. intros q Hq [Hqp Hne]%MergeFacts.below_prefix. apply HP'.
      assert (q `prefix_of` parent p) as Hq' by (apply prefix_strict_parent; congruence).
      apply (Hdown _ q); [done| |done]. eapply (known_up' _ _ _ _ _ _ H p); [by apply Hk|apply parent_prefix|].
      intros E. rewrite E in Hq'. apply prefix_nil_inv in Hq' as ->. by destruct (known_ours _ _ _ _ _ _ H _ (Hk _ Hq)).
  Qed.
  Lemma top_gone_r p : gone_r p → ∃ q, top gone_r q ∧ q `prefix_of` p.
  Proof.
    apply top_exists; [intros q; destruct (decide (gone_r q)); auto|by intros q [? _]|].
    intros q q' Hq Hk Hp. by eapply (gone_r_down _ _ _ _ _ _ H).
  Qed.
  Lemma top_gone_l p : gone_l p → ∃ q, top gone_l q ∧ q `prefix_of` p.
  Proof.
    apply top_exists; [intros q; destruct (decide (gone_l q)); auto|by intros q [? _]|].
    intros q q' Hq Hk Hp. by eapply (gone_l_down _ _ _ _ _ _ H).
  Qed.

  (** ** The databases *)
  Definition rexact (K : path → option bool) (w' : world) : Prop :=
    (∀ p, rd_dir <$> v_rdb w' !! p = K p) ∧ since (c_now C) (λ _, False) rdb (v_rdb w').
  Definition K2 (p : path) : option bool := if decide (gone_r p) then None else kind p.
  Definition Kcut (S : pset) (K : path → option bool) (p : path) : option bool :=
    if decide (set_Exists (λ q, q `prefix_of` p) S) then None else K p.
  Lemma K2_kind p b : K2 p = Some b → kind p = Some b.
  Proof. unfold K2. by case_decide. Qed.
  Lemma known_kind p : known p → is_Some (kind p).
  Proof. intros [d Hd]. exists (ld_dir d). apply kind_ldb. by rewrite Hd. Qed.
  Definition km (p : path) : option bool := is_Dir <$> merged p.
  Lemma Exists_iter (S : pset) p (l : list path) : (∀ q, q ∈ l ↔ q ∈ S) →
    Exists (λ q, q `prefix_of` p) l ↔ set_Exists (λ q, q `prefix_of` p) S.
  Proof. intros Hl. rewrite Exists_exists. unfold set_Exists. by setoid_rewrite Hl. Qed.
  Lemma iter_elem (S : pset) q : q ∈ c_iter C (elements S) ↔ q ∈ S.
  Proof. by rewrite Hit, elem_of_elements. Qed.
  Lemma kind_gone_r p q : gone_r q → q `prefix_of` p → kind p = None ∨ gone_r p.
  Proof.
    intros Hg Hp. destruct (decide (known p)) as [Hk|Hk]; [right; by eapply (gone_r_down _ _ _ _ _ _ H)|left].
    unfold MergeSync.kind. destruct (ldb !! p) eqn:E; [destruct Hk; by eexists|]. destruct (merged p) as [n|] eqn:En; [exfalso|done].
    destruct (known_ours _ _ _ _ _ _ H q (proj1 Hg)) as [Hq0 _].
    destruct (proj1 (merged_unknown _ _ _ _ _ _ H _ Hk)) as [(Hl & _)|Hr]; [by eexists|..].
    - apply Hk. by eapply (cl_gone_r _ _ _ _ _ _ H).
    - destruct Hg as [_ Hg]. rewrite (r_at_down _ _ _ _ _ _ H _ _ Hg Hq0 Hp) in Hr. by destruct Hr.
  Qed.
  Lemma K2_cut dl p : (∀ p, p ∈ dl ↔ top gone_r p) → Kcut dl kind p = K2 p.
  Proof.
    intros Hd. unfold Kcut, K2. destruct (decide (set_Exists _ dl)) as [(q & Hq & Hqp)|Hn]; cbn in *.
    - apply Hd in Hq as [Hq _]. destruct (decide (gone_r p)) as [|Hg]; [done|]. destruct (kind_gone_r p q Hq Hqp); [done|contradiction].
    - destruct (decide (gone_r p)) as [Hg|Hg]; [|done]. destruct Hn. apply top_gone_r in Hg as (q & Hq & Hqp). exists q. split; [by apply Hd|done].
  Qed.
  Lemma Kcut_gone (S : pset) K p : (∀ p, p ∈ S ↔ top gone_r p) → gone_r p → Kcut S K p = None.
  Proof.
    intros Hd Hg. unfold Kcut. rewrite decide_True; [done|]. apply top_gone_r in Hg as (q & Hq & Hqp). exists q. split; [by apply Hd|done].
  Qed.
  Lemma K4_cut dr tr p : (∀ p, p ∈ dr ∨ p ∈ tr ↔ top gone_l p) → Kcut tr (Kcut dr K2) p = km p.
  Proof.
    intros Hd. unfold Kcut, km.
    assert (Hout : ∀ q, gone_l q → q `prefix_of` p → merged p = None).
    { intros q Hg Hqp. destruct (merged p) as [n|] eqn:En; [exfalso|done].
      destruct (known_ours _ _ _ _ _ _ H q (proj1 Hg)) as [Hq0 _].
      destruct (decide (known p)) as [Hk|Hk].
      - rewrite (merged_gone _ _ _ _ _ _ H) in En; [done|]. left. by eapply (gone_l_down _ _ _ _ _ _ H).
      - destruct (proj1 (merged_unknown _ _ _ _ _ _ H _ Hk)) as [(Hl & _)|Hr]; [by eexists|..].
        + rewrite (l_at_down _ _ _ _ _ _ H _ _ (proj2 Hg) Hq0 Hqp) in Hl. by destruct Hl.
        + apply Hk. by eapply (cl_gone_l _ _ _ _ _ _ H). }
    destruct (decide (set_Exists _ tr)) as [(q & Hq & Hqp)|Hn1].
    { destruct (proj1 (Hd q) (or_intror Hq)) as [Hg _]. by rewrite (Hout q). }
    destruct (decide (set_Exists _ dr)) as [(q & Hq & Hqp)|Hn2].
    { destruct (proj1 (Hd q) (or_introl Hq)) as [Hg _]. by rewrite (Hout q). }
    assert (Hgl : ¬ gone_l p).
    { intros (q & Hq & Hqp)%top_gone_l. apply Hd in Hq as [Hq|Hq]; [apply Hn2|apply Hn1]; by exists q. }
    unfold K2. destruct (decide (gone_r p)) as [Hg|Hg]; [by rewrite (merged_gone _ _ _ _ _ _ H) by by right|].
    unfold MergeSync.kind. destruct (ldb !! p) as [d|] eqn:E; [|done].
    assert (known p) as Hk by by eexists. destruct (l_at p) eqn:El; [|by destruct Hgl]. destruct (r_at p) eqn:Er; [|by destruct Hg].
    destruct (proj2 (merged_known _ _ _ _ _ _ H _ Hk)) as [nm Hn]; [rewrite El, Er; split; by eexists|].
    rewrite Hn. cbn. by rewrite (merged_kind_known _ _ _ _ _ _ H _ _ _ E Hn).
  Qed.

  (** ** Removing files *)
  Lemma under_map (D : path) l q : under (map (app D) l) (D ++ q) ↔ ∃ p, p ∈ l ∧ p `prefix_of` q.
  Proof.
    unfold under. split.
    - intros (k & (p & -> & Hp)%elem_of_list_fmap & Hk). apply prefix_app_inv in Hk. by exists p.
    - intros (p & Hp & Hq). exists (D ++ p). split; [apply elem_of_list_fmap; by exists p|by apply prefix_app].
  Qed.
  Lemma under_below (D : path) l k : (∀ p, p ∈ l → p ≠ []) → under (map (app D) l) k → below k D.
  Proof.
    intros Hl (q & (p & -> & Hp)%elem_of_list_fmap & [s ->]). apply Hl in Hp. rewrite <-app_assoc. apply below_app_ne. by destruct p.
  Qed.
  Lemma below_not_both k : below k L → ¬ below k R.
  Proof. intros (x & l & ->) (y & l' & E). by apply LR_ne in E. Qed.
  Lemma util_below k : util_dir C `prefix_of` k → below k R.
  Proof. intros [s ->]. unfold util_dir. rewrite <-app_assoc. by apply below_app_ne. Qed.

  Lemma excluded_seen w' : seen w' → excluded C w' = ([], w', Ok X).
  Proof. intros (_ & _ & E). unfold excluded, bind, get, ret. by rewrite E. Qed.
  Lemma rm_local_wp (Q : res unit → world → Prop) w' dl :
    (∀ p, p ∈ dl ↔ top gone_r p) → w_fs w' = m1 → stored w' → seen w' → lkind kind w' → rkind kind w' →
    (∀ w'', less gone_r (λ _, False) (w_fs w'') → tsame (w_fs w'') → stored w'' → seen w'' → lkind K2 w'' → rexact K2 w'' → Q (Ok tt) w'') →
    wp (rm_local_files C dl) act Q w'.
  Proof.
    intros Hd Hfs Hst Hse Hlk Hrk HQ. unfold rm_local_files.
    apply wp_bind. eapply wp_run; [apply excluded_seen, Hse|done|]. cbn beta iota.
    assert (Hdk : ∀ p, p ∈ dl → known p) by (intros p Hp%Hd; apply Hp).
    assert (dl ∖ X = dl) as ->.
    { apply set_eq. intros p. rewrite elem_of_difference. split; [naive_solver|]. intros Hp. split; [done|]. intros Hx.
      pose proof (proj1 (Hd p) Hp) as [[_ Hg] _]. apply (cl_excluded_x _ _ _ _ _ _ H) in Hx as [_ Hx]. destruct (Hx (Hdk p Hp)). congruence. }
    assert (Hd0 : ∀ p, p ∈ c_iter C (elements dl) → p ≠ []).
    { intros p Hp%iter_elem. apply (known_ours _ _ _ _ _ _ H), Hdk, Hp. }
    apply rm_files_wp; [rewrite Hfs; apply (ls_wf _ _ _ _ _ m1_less)|done|..].
    - intros p Hp. pose proof (known_ours _ _ _ _ _ _ H _ (Hdk _ Hp)) as (Hp0 & Hv & _). split; [|split].
      + pose proof HL0. by destruct L.
      + apply valid_app. split; [|done]. eapply wf_dir_valid; [apply (ls_wf _ _ _ _ _ m1_less)|].
        eapply out_dir; [apply (ls_out _ _ _ _ _ m1_less)|by left].
      + rewrite parent_app by done. rewrite Hfs. eapply less_dirs_l; [|apply m1_less|by apply Hdk]. auto.
    - intros m' [Hwf Hpart Hrest]. split; [cbn|done]. destruct m1_less as [_ Ho Hl Hr _]. rewrite Hfs in *.
      assert (Hr' : ∀ q, q ≠ [] → ¬ zielen_dir `prefix_of` q → m' !! (R ++ q) = r_at q).
      { intros q Hq Hz. specialize (Hr q Hq Hz) as [_ Hr]. rewrite <-Hr by auto. apply Hrest. intros (k & (p & -> & _)%elem_of_list_fmap & [s E]).
        rewrite <-app_assoc in E. by apply eq_sym, LR_ne in E. }
      split; [split|].
      + intros k Hk Hk'. rewrite Hrest; [by apply Ho|]. intros Hu. by apply (under_below L) in Hu.
      + intros q Hq Hg. specialize (Hl q Hq) as [_ Hl]. rewrite <-Hl by auto.
        destruct (decide (under (map (app L) (c_iter C (elements dl))) (L ++ q))) as [Hu|Hu]; [|by apply Hrest].
        apply under_map in Hu as (p & Hp%iter_elem%Hd & Hpq). destruct Hp as [Hp _].
        assert (m1 !! (L ++ q) = None) as E.
        { rewrite Hl by auto. destruct (l_at q) eqn:E; [|done]. destruct Hg. eapply (gone_r_l _ _ _ _ _ _ H); [done|done|by rewrite E]. }
        destruct (Hpart (L ++ q)); congruence.
      + intros q Hq Hz _. by apply Hr'.
      + apply tsafe_r. intros p s n _ Hp Hz <-. by apply Hr'.
    - intros m' [Hwf Hgone Hrest]. rewrite Hfs in *. destruct m1_less as [_ Ho Hl Hr _].
      assert (HnR : ∀ k, below k R → ¬ under (map (app L) (c_iter C (elements dl))) k).
      { intros k Hk Hu%under_below; [|done]. by apply (below_not_both k). }
      assert (tsame m') as Hts.
      { intros k Hk. apply Hrest. by apply HnR, util_below. }
      apply HQ; [|done|done|done|..]; cbn [w_fs set_fs set_vldb set_vrdb].
      + split; [done|..|by apply tsame_utl].
        * intros k Hk Hk'. rewrite Hrest; [by apply Ho|]. intros Hu. by apply (under_below L) in Hu.
        * intros q Hq. destruct (Hl q Hq) as [_ E]. split.
          -- intros (p & Hp & Hpq)%top_gone_r. apply Hgone, under_map. exists p. split; [by apply iter_elem, Hd|done].
          -- intros Hg. destruct (decide (under (map (app L) (c_iter C (elements dl))) (L ++ q))) as [Hu|Hu].
             ++ rewrite Hgone by done. apply under_map in Hu as (p & Hp%iter_elem%Hd & Hpq). destruct Hp as [Hp _].
                destruct (l_at q) eqn:E'; [|done]. destruct Hg. eapply (gone_r_l _ _ _ _ _ _ H); [done|done|by rewrite E'].
             ++ rewrite Hrest by done. apply E. intros [].
        * intros q Hq Hz. split; [done|]. intros _. rewrite Hrest by (by apply HnR, below_app_ne). apply Hr; [done..|intros []].
      + destruct Hlk as [Hlk Hro]. split.
        * intros p. cbn [v_ldb set_vldb set_vrdb]. rewrite sl_rm_kind, Hlk, <-(K2_cut dl) by done. apply decide_ext.
          apply Exists_iter, iter_elem.
        * eapply lrows_rm; [exact Hlk|done| |done]. intros z Hz%iter_elem%Hd. by apply known_kind, Hz.
      + split; [|apply since_rm, Hrk]. intros p. cbn [v_rdb set_vldb set_vrdb]. unfold sr_rm. rewrite s_rm_kind, <-(K2_cut dl) by done.
        unfold Kcut. destruct (decide (Exists _ _)) as [He|He]; rewrite (Exists_iter dl) in He by apply iter_elem.
        * by rewrite decide_True.
        * rewrite decide_False by done. destruct Hrk as [Hrk _]. destruct (Hrk p) as [?|[_ Hg]]; [done|].
          destruct He. apply top_gone_r in Hg as (q & Hq & Hqp). exists q. split; [by apply Hd|done].
  Qed.

  Definition at_or_below (S : pset) (q : path) : Prop := set_Exists (λ p, p `prefix_of` q) S.
  Global Instance at_or_below_dec S q : Decision (at_or_below S q).
  Proof using Type. unfold at_or_below. apply _. Defined.
  Lemma not_under_util (l : list path) k : (∀ p, p ∈ l → ours p) → util_dir C `prefix_of` k → ¬ under (map (app R) l) k.
  Proof.
    intros Hl [s ->] (q & (p & -> & Hp)%elem_of_list_fmap & Hq). destruct (Hl _ Hp) as (Hp0 & _ & Hz).
    unfold util_dir in Hq. rewrite <-app_assoc in Hq. apply prefix_app_inv in Hq. by apply not_util_prefix in Hq.
  Qed.
  (** What goes to the trash is not deleted. *)
  Definition to_trash (p : path) : Prop := c_trash C = true ∧ ∃ d, ldb !! p = Some d ∧ ld_local d = false.
  Lemma trashed_top p : trashed p → top gone_l p ∧ to_trash p.
  Proof.
    intros (Ht1 & Hg & Hgp & Ht2). split; [|done]. split; [done|]. intros q Hq Hb. apply Hgp. apply MergeFacts.below_prefix in Hb as [Hqp Hne].
    assert (Hp0 : p ≠ []) by (apply (known_ours _ _ _ _ _ _ H), Hg).
    assert (q `prefix_of` parent p) as Hqp' by (apply prefix_strict_parent; [done|congruence]).
    apply (gone_l_down _ _ _ _ _ _ H _ _ Hq); [|done]. destruct Hg as [[d Hdp] _].
    destruct (cl_rows_l _ _ _ _ _ _ H p (ld_dir d)) as [_ [E|E]]; [by rewrite Hdp|..].
    - rewrite E in Hqp'. apply prefix_nil_inv in Hqp'. destruct (known_ours _ _ _ _ _ _ H q (proj1 Hq)) as [? _]. done.
    - unfold Merge.known. by destruct (ldb !! parent p).
  Qed.
  Lemma top_apart p q r : top gone_l p → top gone_l q → p `prefix_of` r → q `prefix_of` r → p = q.
  Proof.
    intros [Hp Hpn] [Hq Hqn] Hpr Hqr. destruct (decide (p = q)) as [|Hne]; [done|exfalso]. destruct (prefix_weak_total p q r Hpr Hqr) as [Hpp|Hpp].
    - apply (Hqn p Hp). by apply MergeFacts.below_prefix.
    - apply (Hpn q Hq). apply MergeFacts.below_prefix. split; [done|congruence].
  Qed.
  Lemma trashed_apart (dr : pset) p s : (∀ q, q ∈ dr → top gone_l q ∧ ¬ to_trash q) → trashed p → ¬ at_or_below dr (p ++ s).
  Proof.
    intros Hd [Hp Ht]%trashed_top (q & Hq & Hqp). destruct (Hd q Hq) as [Hq' Hn]. apply Hn. rewrite <-(top_apart p q (p ++ s)); [done..|by eexists|done].
  Qed.
  Lemma rm_remote_wp (Q : res unit → world → Prop) w' dr :
    (∀ p, p ∈ dr → top gone_l p ∧ ¬ to_trash p) → less gone_r (λ _, False) (w_fs w') → tsame (w_fs w') → stored w' → seen w' → lkind K2 w' → rexact K2 w' →
    (∀ w'', less gone_r (at_or_below dr) (w_fs w'') → tsame (w_fs w'') → stored w'' → seen w'' →
       lkind (Kcut dr K2) w'' → rexact (Kcut dr K2) w'' → Q (Ok tt) w'') →
    wp (rm_remote_files C dr) act Q w'.
  Proof.
    intros Hd Hls Hts Hst Hse Hlk Hrk HQ. unfold rm_remote_files.
    assert (Hdk : ∀ p, p ∈ dr → known p) by (intros p [Hp _]%Hd; apply Hp).
    assert (Hd0 : ∀ p, p ∈ c_iter C (elements dr) → ours p).
    { intros p Hp%iter_elem. apply (known_ours _ _ _ _ _ _ H), Hdk, Hp. }
    assert (Hd0' : ∀ p, p ∈ c_iter C (elements dr) → p ≠ []) by (intros p Hp; by apply Hd0).
    apply rm_files_wp; [apply (ls_wf _ _ _ _ _ Hls)|done|..].
    - intros p Hp. pose proof (known_ours _ _ _ _ _ _ H _ (Hdk _ Hp)) as (Hp0 & Hv & _). split; [|split].
      + pose proof HR0. by destruct R.
      + apply valid_app. split; [|done]. eapply wf_dir_valid; [apply (ls_wf _ _ _ _ _ Hls)|].
        eapply out_dir; [apply (ls_out _ _ _ _ _ Hls)|by right].
      + rewrite parent_app by done. eapply less_dirs_r; [|exact Hls|by apply Hdk]. auto.
    - intros m' [Hwf Hpart Hrest]. split; [cbn|done]. destruct Hls as [_ Ho Hl Hr _]. split; [split|].
      + intros k Hk Hk'. rewrite Hrest; [by apply Ho|]. intros Hu. by apply (under_below R) in Hu.
      + intros q Hq Hg. rewrite <-(proj2 (Hl q Hq)) by done. apply Hrest. intros Hu%under_below; [|done].
        apply (below_not_both (L ++ q)); [by apply below_app_ne|done].
      + intros q Hq Hz Hg. specialize (Hr q Hq Hz) as [_ Hr]. rewrite <-Hr by auto.
        destruct (decide (under (map (app R) (c_iter C (elements dr))) (R ++ q))) as [Hu|Hu]; [|by apply Hrest].
        apply under_map in Hu as (p & Hp%iter_elem%Hd & Hpq). destruct Hp as [[Hp _] _].
        assert (w_fs w' !! (R ++ q) = None) as E.
        { rewrite Hr by auto. destruct (r_at q) eqn:E; [|done]. destruct Hg. eapply (gone_l_r _ _ _ _ _ _ H); [done|done|by rewrite E]. }
        destruct (Hpart (R ++ q)); congruence.
      + apply tsafe_r. intros p s n Hp Hps Hz <-. rewrite Hrest; [apply (proj2 (Hr _ Hps Hz)); auto|]. intros Hu.
        apply under_map in Hu as (q & Hq%iter_elem & Hqp). apply (trashed_apart dr p s Hd Hp). by exists q.
    - intros m' [Hwf Hgone Hrest]. destruct Hls as [_ Ho Hl Hr _].
      assert (Hund : ∀ q, under (map (app R) (c_iter C (elements dr))) (R ++ q) ↔ at_or_below dr q).
      { intros q. rewrite under_map. unfold at_or_below, set_Exists. by setoid_rewrite iter_elem. }
      assert (tsame m') as Hts'.
      { intros k Hk. rewrite Hrest; [by apply Hts|]. by apply not_under_util. }
      apply HQ; [|done|done|done|..]; cbn [w_fs set_fs set_vldb set_vrdb].
      + split; [done|..|by apply tsame_utl].
        * intros k Hk Hk'. rewrite Hrest; [by apply Ho|]. intros Hu. by apply (under_below R) in Hu.
        * intros q Hq. rewrite Hrest; [by apply Hl|]. intros Hu%under_below; [|done].
          apply (below_not_both (L ++ q)); [by apply below_app_ne|done].
        * intros q Hq Hz. split.
          -- intros Hu. by apply Hgone, Hund.
          -- intros Hu. rewrite Hrest by by rewrite Hund. apply Hr; [done..|intros []].
      + destruct Hlk as [Hlk Hro]. split.
        * intros p. cbn [v_ldb set_vldb set_vrdb]. rewrite sl_rm_kind, Hlk. apply decide_ext, Exists_iter, iter_elem.
        * eapply lrows_rm; [exact Hlk|apply K2_kind| |done]. intros z Hz%iter_elem%Hd. by apply known_kind, Hz.
      + split; [|apply since_rm, Hrk]. intros p. cbn [v_rdb set_vldb set_vrdb]. unfold sr_rm.
        rewrite s_rm_kind. destruct Hrk as [Hrk _]. rewrite Hrk. apply decide_ext, Exists_iter, iter_elem.
  Qed.

  (** What was moved to the trash, and what was there before. *)
  Record tin (m' : fs) : Prop := {
    ti_new : ∀ p x, trashed p → list.last p = Some x →
      m' !! (trash_dir C ++ [x]) = set_mtime (c_now C) <$> r_at p ∧ ∀ s, s ≠ [] → m' !! (trash_dir C ++ x :: s) = r_at (p ++ s);
    ti_old : ∀ x s, (∀ p, trashed p → list.last p ≠ Some x) → m' !! (trash_dir C ++ x :: s) = m !! (trash_dir C ++ x :: s)
  }.
  Lemma trash_wp (Q : res unit → world → Prop) w' dr tr :
    (∀ p, p ∈ dr ∨ p ∈ tr ↔ top gone_l p) →
    (∀ p, p ∈ tr → to_trash p) → (∀ p, p ∈ dr → ¬ to_trash p) →
    less gone_r (at_or_below dr) (w_fs w') → tsame (w_fs w') → stored w' → seen w' →
    lkind (Kcut dr K2) w' → rexact (Kcut dr K2) w' →
    (∀ w'', less gone_r gone_l (w_fs w'') → tin (w_fs w'') → stored w'' → seen w'' → lkind km w'' → rexact km w'' → Q (Ok tt) w'') →
    wp (trash_files C tr) act Q w'.
  Proof.
    intros Hd Htr Hdr Hls Hts Hst Hse Hlk Hrk HQ. set (T := trash_dir C).
    assert (Hdk : ∀ p, p ∈ tr → known p) by (intros p Hp; apply (proj1 (Hd p)); by right).
    assert (Htop : ∀ p, p ∈ tr → top gone_l p) by (intros p Hp; apply Hd; by right).
    assert (Htrd : ∀ p, p ∈ tr → trashed p).
    { intros p Hp. destruct (Htr p Hp) as [Ht Hloc]. destruct (Htop p Hp) as [Hg Hno]. split; [done|]. split; [done|]. split; [|done].
      intros Hg'. apply (Hno _ Hg'). apply MergeFacts.below_prefix. split; [apply parent_prefix|].
      intros E. apply (parent_ne p); [apply (known_ours _ _ _ _ _ _ H _ (Hdk _ Hp))|done]. }
    assert (Hutl := ls_util _ _ _ _ _ Hls).
    assert (Hwf := ls_wf _ _ _ _ _ Hls).
    assert (Hours : ∀ p, p ∈ tr → ours p) by (intros p Hp; by apply (known_ours _ _ _ _ _ _ H), Hdk).
    assert (Ht : trashable C (w_fs w') tr).
    { split; [done|..].
      - eapply wf_dir_anc; [done|apply (uo_dir _ _ (ul_ok _ _ _ Hutl))|by eexists].
      - right. apply (ul_trash _ _ _ Hutl).
      - intros p Hp. destruct (Hours _ Hp) as (Hp0 & Hv & Hz). split; [done|]. split; [done|]. split; [done|].
        eapply less_dirs_r; [|exact Hls|by apply Hdk]. intros q. destruct (decide (at_or_below dr q)); auto.
      - intros p q Hp Hq Hb. destruct (Htop p Hp) as [_ Hno]. by apply (Hno q); [apply Htop|]. }
    destruct (trash_files_wp C w' tr Ht Hit) as (used & new & Hused & Hnew & l & Hl & Hnd & Hrun).
    set (mt := with_trash C (w_fs w')). fold mt in Hrun.
    pose proof (with_trash_wf C _ _ Ht) as Hwft. pose proof (with_trash_dir C _ _ Ht) as HTt. pose proof (with_trash_paths C _ _ Ht) as Hpt.
    fold mt in Hwft, HTt, Hpt. fold T in HTt, Hused.
    assert (Hmt : ∀ k, k ≠ T → mt !! k = w_fs w' !! k) by (intros k Hk; by apply with_trash_lookup).
    assert (HTk : ∀ k, ¬ util_dir C `prefix_of` k → k ≠ T) by (intros k Hk ->; apply Hk; by eexists).
    assert (HusedT : ∀ y, is_Some (mt !! (T ++ [y])) → y ∈ used).
    { intros y Hy. apply Hused. rewrite <-Hmt; [done|]. intros E. apply (f_equal length) in E. rewrite app_length in E. cbn in E. lia. }
    set (l' := map (λ p, (p, new p)) l) in *.
    assert (Hl' : ∀ p x, (p, x) ∈ l' ↔ p ∈ tr ∧ x = new p).
    { intros p x. unfold l'. rewrite elem_of_list_fmap. setoid_rewrite Hl. split.
      - intros (y & E & Hy). by injection E as -> ->.
      - intros [Hp ->]. by exists p. }
    assert (Hlast' : ∀ p, p ∈ tr → list.last p = Some (new p)).
    { intros p Hp. destruct (Hours p Hp) as (Hp0 & _ & _). destruct (list.last p) as [b|] eqn:E; [|by apply last_None in E].
      f_equal. symmetry. destruct (Hnew p Hp) as (_ & _ & Hb). apply Hb; [done|]. rewrite Hused. intros [n Hn].
      rewrite Hts in Hn by (unfold T, trash_dir; rewrite <-app_assoc; by eexists).
      unfold with_excl in Hn. rewrite lookup_insert_ne in Hn.
      - pose proof (cl_free _ _ _ _ _ _ H p b (Htrd _ Hp) E) as E0. fold T in E0. congruence.
      - unfold exclude_file, exclude_dir, T, trash_dir. rewrite <-!app_assoc. intros E'. apply app_inv_head in E'. by injection E'. }
    assert (Hnolink : ∀ p n, p ∈ tr → mt !! (R ++ p) = Some n → is_Link n = false).
    { intros p n Hp Hn. destruct (Hours p Hp) as (Hp0 & _ & Hz). rewrite Hmt in Hn by (by apply HTk, util_not_R).
      destruct (ls_r _ _ _ _ _ Hls p Hp0 Hz) as [E1 E2]. destruct (decide (at_or_below dr p)) as [Hab|Hab].
      - by rewrite E1 in Hn.
      - rewrite E2 in Hn by done. destruct n as [| t k|]; try done. by apply (cl_link_r _ _ _ _ _ _ H) in Hn. }
    assert (Hsame : ∀ pre m' k, (∀ p x, (p, x) ∈ pre → p ∈ tr) → TrashProofs.moved C mt tr used pre m' → ¬ util_dir C `prefix_of` k →
      (∀ p, p ∈ tr → ¬ R ++ p `prefix_of` k) → m' !! k = w_fs w' !! k).
    { intros pre m' k Hpre Hm Hk Hp. rewrite <-Hmt by by apply HTk. eapply TrashProofs.mv_exact; [done|done|]. intros p x Hpx. split; [|by eapply Hp, Hpre].
      intros Hx. apply Hk. etrans; [|done]. unfold T, trash_dir. rewrite <-app_assoc. by eexists. }
    assert (Hles : ∀ pre m', (∀ p x, (p, x) ∈ pre → p ∈ tr) → TrashProofs.moved C mt tr used pre m' → lessing gone_r gone_l m').
    { intros pre m' Hpre Hm. split.
      - intros k Hk Hk'. erewrite Hsame; [by apply (ls_out _ _ _ _ _ Hls)|done|done|by apply util_out|].
        intros p Hp [s ->]. apply Hk'. rewrite <-app_assoc. apply below_app_ne. destruct (Hours _ Hp) as [? _]. by destruct p.
      - intros q Hq Hg. erewrite Hsame; [by apply (ls_l _ _ _ _ _ Hls)|done|done|apply util_not_L|].
        intros p Hp [s E]. rewrite <-app_assoc in E. by apply LR_ne in E.
      - intros q Hq Hz Hg.
        assert (Hback : r_at q = None ∨ ∀ p, p ∈ tr → ¬ R ++ p `prefix_of` R ++ q).
        { destruct (r_at q) as [n|] eqn:En; [right|by left]. intros p Hp Hpq%prefix_app_inv. apply Hg.
          eapply (gone_l_r _ _ _ _ _ _ H); [apply (Htop p Hp)|done|by rewrite En]. }
        destruct Hback as [E|Hback].
        + rewrite E. destruct (decide (Exists (λ px : path * list N, px.1 `prefix_of` q) pre)) as [He|He].
          * apply Exists_exists in He as ([p x] & Hpx & [s ->]). cbn. eapply TrashProofs.mv_gone; [done|exact Hpx].
          * rewrite (TrashProofs.mv_exact C mt tr used pre m') with (k := R ++ q); [|done|done|].
            -- rewrite Hmt by (by apply HTk, util_not_R). destruct (ls_r _ _ _ _ _ Hls q Hq Hz) as [E1 E2].
               destruct (decide (at_or_below dr q)); [by apply E1|]. by rewrite E2.
            -- intros p x Hpx. split.
               ++ intros Hx. apply (util_not_R q Hz). etrans; [|exact Hx]. unfold T, trash_dir. rewrite <-app_assoc. by eexists.
               ++ intros Hx%prefix_app_inv. apply He, Exists_exists. by exists (p, x).
        + erewrite Hsame; [|done|done|by apply util_not_R|done].
          destruct (ls_r _ _ _ _ _ Hls q Hq Hz) as [E1 E2]. destruct (decide (at_or_below dr q)) as [Hab|Hab]; [|by apply E2].
          rewrite E1 by done. destruct Hab as (p & Hp & Hpq). destruct (r_at q) as [n|] eqn:En; [|done]. destruct Hg.
          eapply (gone_l_r _ _ _ _ _ _ H); [apply (proj1 (Hd p) (or_introl Hp))|done|by rewrite En]. }
    assert (Hl'1 : ∀ p x, (p, x) ∈ l' → p ∈ tr) by (intros p x Hpx; by apply (Hl' p x)).
    assert (Htr' : ∀ p, trashed p → p ∈ tr).
    { intros p [Htp Ht']%trashed_top. apply Hd in Htp as [Htp|Htp]; [|done]. exfalso. by apply (Hdr p Htp). }
    assert (Hsub : ∀ p s, p ∈ tr → mt !! (R ++ p ++ s) = r_at (p ++ s)).
    { intros p s Hptr. destruct (Hours _ Hptr) as (Hp0 & Hv & Hz). assert (¬ zielen_dir `prefix_of` p ++ s) as Hzs.
      { intros Hzs. apply Hz. by eapply (util_first p s []); [|rewrite app_nil_r]. }
      rewrite Hmt by (by apply HTk, util_not_R). apply (ls_r _ _ _ _ _ Hls); [by destruct p|done|].
      apply trashed_apart; [|by apply Htrd]. intros q Hq. split; [apply Hd; by left|by apply Hdr]. }
    assert (Hsafe : ∀ pre m', pre `prefix_of` l' → TrashProofs.moved C mt tr used pre m' → tsafe m').
    { intros pre m' [post Epre] Hm _ p x s c t Hp Hx E. pose proof (Htr' _ Hp) as Hptr.
      assert (new p = x) as <- by (rewrite Hlast' in Hx by done; congruence).
      pose proof (Hsub p s Hptr) as Es. destruct (decide ((p, new p) ∈ pre)) as [Hin|Hin].
      - right. pose proof (TrashProofs.mv_new _ _ _ _ _ _ Hm p (new p) s Hin) as En. rewrite Es, E in En. cbn in En.
        assert (is_Some (mt !! (R ++ p))) as Hsp.
        { pose proof (Hsub p [] Hptr) as E0. rewrite !app_nil_r in E0. rewrite E0. apply not_eq_None_Some. intros En0.
          rewrite (r_at_down _ _ _ _ _ _ H (p ++ s) p En0) in E; [done|apply (Hours _ Hptr)|by eexists]. }
        specialize (En Hsp). destruct (m' !! (trash_dir C ++ new p :: s)) as [[c' t'| |]|]; cbn in En; try done. injection En as ->. eauto.
      - left. rewrite <-E, <-Es. eapply TrashProofs.mv_exact; [done|done|]. intros q y Hq. assert ((q, y) ∈ l') as [Hq' ->]%Hl'.
        { rewrite Epre. apply elem_of_app. by left. }
        split.
        + intros Hpre'. destruct (Hours _ Hptr) as (Hp0 & _ & Hz). apply Hz. eapply (util_first p s [lit "Trash"; new q]); [done|]. unfold trash_dir, util_dir in Hpre'. rewrite <-!app_assoc in Hpre'. by apply prefix_app_inv in Hpre'.
        + intros Hpre'%prefix_app_inv. apply Hin. rewrite (top_apart p q (p ++ s)); [done|by apply Htop|by apply Htop|by eexists|done]. }
    apply Hrun; clear Hrun.
    - split; [cbn [w_fs set_fs]|done]. split; [apply (Hles [] mt)|apply (Hsafe [])].
      + intros p x Hpx. by apply elem_of_nil in Hpx.
      + by apply TrashProofs.moved_nil.
      + apply prefix_nil.
      + by apply TrashProofs.moved_nil.
    - apply (trash_loop_wp C mt tr used); try done.
      + apply (tr_flat _ _ _ Ht).
      + intros q y Hq. apply Hl' in Hq as [Hq ->]. destruct (Hnew q Hq) as (? & ? & _). done.
      + unfold l'. rewrite <-list_fmap_compose. cbn. by rewrite list_fmap_id.
      + unfold l'. rewrite <-list_fmap_compose. apply NoDup_fmap_2_strong; [|done]. cbn. intros p q Hp%Hl Hq%Hl E.
        apply (cl_names _ _ _ _ _ _ H); [by apply Htrd|by apply Htrd|]. rewrite !Hlast' by done. by rewrite E.
      + intros pre m' [post Epre] Hm. split; [cbn [w_fs set_fs]|done]. split; [|apply (Hsafe pre); [by exists post|done]]. apply (Hles pre); [|done].
        intros p x Hpx. apply (Hl'1 p x). rewrite Epre. apply elem_of_app. by left.
      + intros m' Hm Hst'. cbn beta iota. pose proof (Hles _ _ Hl'1 Hm) as [Ho Hll Hlr].
        assert (Hin : ∀ k, util_dir C `prefix_of` k → (∀ p, p ∈ tr → ¬ T ++ [new p] `prefix_of` k) → m' !! k = mt !! k).
        { intros k Hk Hn. eapply TrashProofs.mv_exact; [done|done|]. intros p x [Hp ->]%Hl'. split; [by apply Hn|].
          intros Hx. eapply (not_under_util [p]); [|exact Hk|].
          - intros p' ->%elem_of_list_singleton. by apply Hours.
          - exists (R ++ p). split; [|done]. apply elem_of_list_here. }
        apply HQ; [|split|done|done|..]; cbn [w_fs set_fs set_vldb set_vrdb].
        * split; [apply (TrashProofs.mv_wf _ _ _ _ _ _ Hm)|done|..].
          -- intros q Hq. split; [|by apply Hll]. intros Hg. erewrite Hsame; [by apply (ls_l _ _ _ _ _ Hls)|exact Hl'1|done|apply util_not_L|].
             intros p Hp [s E]. rewrite <-app_assoc in E. by apply LR_ne in E.
          -- intros q Hq Hz. split; [|by apply Hlr]. intros Hg. destruct (top_gone_l _ Hg) as (p & Hp & [s ->]).
             apply Hd in Hp as [Hp|Hp].
             ++ destruct (decide (set_Exists (λ p0, p0 `prefix_of` p ++ s) tr)) as [(p' & Hp' & [s' E])|He].
                ** cbn in E. rewrite E. eapply (TrashProofs.mv_gone _ _ _ _ _ _ Hm p'). by apply Hl'.
                ** erewrite Hsame; [|exact Hl'1|done|by apply util_not_R|].
                   --- apply (ls_r _ _ _ _ _ Hls); [done..|]. exists p. split; [done|by eexists].
                   --- intros p' Hp' Hx%prefix_app_inv. apply He. by exists p'.
             ++ eapply (TrashProofs.mv_gone _ _ _ _ _ _ Hm p). by apply Hl'.
          -- assert (HTd : dir_at m' T).
             { by eapply (TrashProofs.moved_T C mt tr used); [| |exact Hl'1|exact Hm]. }
             destruct Hutl as [[Hed Hid Hef] _ Hlk' Hrst'].
             assert (Hexn : ∀ s p, ¬ T ++ [new p] `prefix_of` exclude_dir C ++ s).
             { intros s p. unfold T, trash_dir, exclude_dir. rewrite <-!app_assoc. intros Hx%prefix_app_inv. destruct Hx as [z E]. by injection E. }
             assert (Hexu : ∀ s, util_dir C `prefix_of` exclude_dir C ++ s).
             { intros s. unfold exclude_dir. rewrite <-app_assoc. by eexists. }
             assert (HexT : ∀ s, exclude_dir C ++ s ≠ T).
             { intros s. unfold T, trash_dir, exclude_dir. rewrite <-app_assoc. intros E. apply app_inv_head in E. by injection E. }
             assert (Hex : ∀ s, m' !! (exclude_dir C ++ s) = w_fs w' !! (exclude_dir C ++ s)).
             { intros s. rewrite Hin; [by apply Hmt|done|]. intros p _. apply Hexn. }
             split; [split|..].
             ++ pose proof (Hex []) as E. rewrite app_nil_r in E. rewrite dir_at_lookup in * by (unfold exclude_dir; by destruct (util_dir C)). by rewrite E.
             ++ done.
             ++ unfold exclude_file. by rewrite Hex.
             ++ done.
             ++ intros x t k Ex. fold T in Ex. destruct (decide (set_Exists (λ p, new p = x) tr)) as [(p & Hp & <-)|Hx].
                ** destruct (mt !! (R ++ p)) as [n|] eqn:En.
                   --- pose proof (TrashProofs.mv_new _ _ _ _ _ _ Hm p (new p) []) as E. rewrite En, !app_nil_r in E.
                       change (T ++ [new p]) with (trash_dir C ++ [new p]) in Ex. rewrite Ex, En in E. cbn in E.
                       pose proof (Hnolink _ _ Hp En). specialize (E (proj2 (Hl' _ _) (conj Hp eq_refl)) ltac:(by eexists)). by destruct n.
                   --- pose proof (TrashProofs.mv_none _ _ _ _ _ _ Hm p (new p) [] (proj2 (Hl' _ _) (conj Hp eq_refl)) En). unfold T in Ex. congruence.
                ** rewrite Hin in Ex.
                   --- rewrite Hmt in Ex by (intros E; apply (f_equal length) in E; rewrite app_length in E; cbn in E; lia). by apply Hlk' in Ex.
                   --- unfold T, trash_dir. rewrite <-app_assoc. by eexists.
                   --- intros p Hp Hpx%prefix_app_inv. destruct Hpx as [z E]. injection E as E _. apply Hx. by exists p.
             ++ intros k Hk Hnk. rewrite Hin; [|done|].
                ** rewrite Hmt; [by apply Hrst'|]. intros ->. by apply Hnk.
                ** intros p _ Hx. apply Hnk. etrans; [|exact Hx]. by eexists.
        * intros p x Hp Hx.
          assert (p ∈ tr) as Hptr by by apply Htr'.
          assert (new p = x) as <- by (rewrite Hlast' in Hx by done; congruence).
          destruct (Hours _ Hptr) as (Hp0 & Hv & Hz).
          pose proof (λ s, Hsub p s Hptr) as Hsubp.
          pose proof (Hsubp []) as Hsub0. rewrite !app_nil_r in Hsub0. pose proof (proj2 (Hl' p (new p)) (conj Hptr eq_refl)) as Hin'.
          rewrite <-Hsub0. destruct (mt !! (R ++ p)) as [n|] eqn:En.
          -- split; [by eapply Hst'|]. intros s Hs. rewrite <-Hsubp. eapply TrashProofs.mv_deep; [done..|by rewrite En|done].
          -- split; [by eapply (TrashProofs.mv_none _ _ _ _ _ _ Hm)|]. intros s Hs. rewrite (TrashProofs.mv_none _ _ _ _ _ _ Hm p) by done.
             rewrite <-Hsubp. symmetry. apply (wf_missing_below mt (R ++ p)); [done|by destruct R; destruct p|done|]. rewrite app_assoc. by apply prefix_app_r.
        * intros x s Hx. fold T. rewrite Hin.
          -- rewrite Hmt by (intros E; apply (f_equal length) in E; rewrite app_length in E; cbn in E; lia).
             rewrite Hts by (unfold T, trash_dir; rewrite <-app_assoc; by eexists). unfold with_excl. apply lookup_insert_ne.
             unfold exclude_file, exclude_dir, T, trash_dir. rewrite <-!app_assoc. intros E'. apply app_inv_head in E'. by injection E'.
          -- unfold T, trash_dir. rewrite <-app_assoc. by eexists.
          -- intros p Hp Hpx%prefix_app_inv. destruct Hpx as [z E]. injection E as E _. apply (Hx p); [by apply Htrd|]. rewrite Hlast' by done. by rewrite E.
        * destruct Hlk as [Hlk Hro]. split.
          -- intros p. cbn [v_ldb set_vldb set_vrdb]. rewrite sl_rm_kind, Hlk, <-(K4_cut dr tr) by done. unfold Kcut at 2. apply decide_ext.
             by apply Exists_iter.
          -- eapply lrows_rm; [exact Hlk| | |done].
             ++ intros p b. unfold Kcut. case_decide; [done|apply K2_kind].
             ++ intros r Hr. apply known_kind. destruct (proj1 (Hd r)) as [[? _] _]; [right; set_solver|done].
        * split; [|apply since_rm, Hrk]. intros p. cbn [v_rdb set_vldb set_vrdb]. unfold sr_rm.
          rewrite s_rm_kind. destruct Hrk as [Hrk _]. rewrite Hrk, <-(K4_cut dr tr) by done. unfold Kcut at 2. apply decide_ext. by apply Exists_iter.
  Qed.
End sync.
