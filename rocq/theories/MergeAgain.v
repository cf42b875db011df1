(** After a sync of a clean state the state is clean again. *)
From Coq Require Import QArith Qcanon.
From Verif Require Export MergeEnd.
From stdpp Require Import options.

Lemma like_refl a : like a a.
Proof. by destruct a as [[]|]. Qed.
Lemma like_sym a b : like a b → like b a.
Proof. destruct a as [[]|], b as [[]|]; cbn; congruence. Qed.
Lemma like_trans a b c : like a b → like b c → like a c.
Proof. destruct a as [[]|], b as [[]|], c as [[]|]; cbn; congruence. Qed.
Lemma like_kind a b : like a b → is_Dir <$> b = is_Dir <$> a.
Proof. destruct a as [[]|], b as [[]|]; cbn; congruence. Qed.
Lemma like_some a b : like a b → is_Some a ↔ is_Some b.
Proof. destruct a as [[]|], b as [[]|]; cbn; intros E; split; intros [? ?]; simplify_eq; by eexists. Qed.

(** The same directories, with other settings, when there is nothing to do. *)
Lemma clean_x_conf C C' m ldb rdb last X :
  c_L C' = c_L C → c_R C' = c_R C → c_id C' = c_id C →
  (∀ p, ¬ new_l C m ldb X p) → (∀ p, ¬ gone_l C m ldb p) → clean_x C m ldb rdb last X → clean_x C' m ldb rdb last X.
Proof.
  intros E1 E2 E3 Hn Hg Hc. destruct C' as [L R lim acc inf tr cl id pat gl bl bls now fin dt it ro tt_]. cbn [c_L c_R c_id] in E1, E2, E3. subst L R id.
  destruct Hc as [[H1 H2 H3 H4 H5 H6 H7 H8 H9 H10 H11 H12 H13 H14 H15 H16 H17 H18 H19 H20 H21 H22 H23 H24 H25 H26 H27 H28 H29 H30] Hcl].
  split; [split; try assumption|exact Hcl].
  - destruct H1. by split.
  - destruct H3. by split.
  - intros _ [p Hp]. by destruct (Hn p).
  - intros p q (_ & Hp & _). by destruct (Hg p).
  - intros p x (_ & Hp & _). by destruct (Hg p).
Qed.
Lemma clean_conf C C' m ldb rdb last X :
  c_L C' = c_L C → c_R C' = c_R C → c_id C' = c_id C →
  (∀ p, ¬ new_l C m ldb X p) → (∀ p, ¬ gone_l C m ldb p) → clean C m ldb rdb last X → clean C' m ldb rdb last X.
Proof. intros E1 E2 E3 Hn Hg [Hc Hun]. split; [by apply (clean_x_conf C C')|exact Hun]. Qed.

(** What the user finds afterwards. *)
Lemma view_outcome C m ldb rdb last X m' : clean_x C m ldb rdb last X → outcome C m ldb last X m' →
  ∀ p, like (view C m' p) (if decide (stray C m ldb X p) then view C m p else merged C m ldb last X p).
Proof.
  intros H Ho p. pose proof (oc_local _ _ _ _ _ _ Ho p) as Hl. pose proof (oc_remote _ _ _ _ _ _ Ho p) as Hr. unfold shows in Hl.
  unfold view. destruct (decide (stray C m ldb X p)) as [Hs|Hs].
  - pose proof (merged_not_stray _ _ _ _ _ _ H p Hs) as Hm. rewrite Hm in Hl, Hr. rewrite Hl.
    destruct (l_at C m p) as [[c t|t k|t]|]; try done. case_decide; [|done]. by rewrite (cl_stray _ _ _ _ _ _ H p Hs).
  - destruct (merged C m ldb last X p) as [[c t|t k|t]|] eqn:Hm.
    + destruct Hl as [->|[k ->]]; [done|]. by rewrite decide_True.
    + by apply (merged_no_link _ _ _ _ _ _ H) in Hm.
    + by destruct Hl as [t' ->].
    + by rewrite Hl.
Qed.
(** Only the two directories matter. *)
Lemma conf_same C C' : c_L C' = c_L C → c_R C' = c_R C →
  (∀ m p, r_at C' m p = r_at C m p) ∧ (∀ m p, view C' m p = view C m p) ∧ (∀ m ldb X p, stray C' m ldb X p ↔ stray C m ldb X p)
  ∧ ∀ m ldb last X p, merged C' m ldb last X p = merged C m ldb last X p.
Proof.
  intros E1 E2. destruct C' as [L R lim acc inf tr cl id pat gl bl bls now fin dt it ro tt_]. cbn [c_L c_R] in E1, E2. subst L R. done.
Qed.

Section sync.
  Set Default Proof Using "Type*".
  Context (C : conf) (w : world) (last : Z) (X : pset).
  Local Notation m := (w_fs w).
  Local Notation ldb := (w_ldb w).
  Local Notation rdb := (w_rdb w).
  Context (H : clean_x C m ldb rdb last X).
  Context (Hit : ∀ l, c_iter C l ≡ₚ l) (Hrows : ∀ l, c_rows C l ≡ₚ l).
  Context (Hvl : v_ldb w = ldb) (Hvr : v_rdb w = rdb) (Hfresh : FMProofs.fresh w) (Hlast : w_last w = Some last).
  Local Notation L := (c_L C).
  Local Notation R := (c_R C).
  Local Notation l_at := (l_at C m).
  Local Notation r_at := (r_at C m).
  Local Notation known := (known ldb).
  Local Notation stray := (stray C m ldb X).
  Local Notation merged := (merged C m ldb last X).
  Local Notation new_l := (new_l C m ldb X).
  Local Notation gone_l := (gone_l C m ldb).
  Local Notation gone_r := (gone_r C m ldb).
  Local Notation edited_l := (edited_l C m ldb last).
  Local Notation edited_r := (edited_r C m ldb rdb last).
  Local Notation trashed := (trashed C m ldb).
  Local Notation outcome := (outcome C m ldb last X).
  Local Notation recorded := (recorded C w last X).

  Section again.
    Context (w' : world) (Ho : outcome (w_fs w')) (Hre : recorded w').
    Context (Hnow : (c_now C <= c_end C)%Z) (Hmt : ∀ p c t, merged p = Some (File c t) → (t <= c_end C)%Z)
      (Hrt : ∀ p d, rdb !! p = Some d → (rd_last d <= c_end C)%Z).
    Local Notation m' := (w_fs w').
    Local Notation ldb' := (w_ldb w').
    Local Notation rdb' := (w_rdb w').
    Local Notation l_at' := (Merge.l_at C m').
    Local Notation r_at' := (Merge.r_at C m').
    Local Notation known' := (Merge.known ldb').
    Local Notation stray' := (Merge.stray C m' ldb' X).
    Lemma known_again p : known' p ↔ is_Some (merged p).
    Proof. unfold Merge.known. pose proof (re_ldb _ _ _ _ _ Hre p) as E. destruct (ldb' !! p), (merged p); try done; split; intros [? ?]; simplify_eq; by eexists. Qed.
    Lemma listed_again p : is_Some (rdb' !! p) ↔ is_Some (merged p).
    Proof. pose proof (re_rdb _ _ _ _ _ Hre p) as E. destruct (rdb' !! p), (merged p); try done; split; intros [? ?]; simplify_eq; by eexists. Qed.
    Lemma r_again p : is_Some (r_at' p) ↔ is_Some (merged p).
    Proof. apply like_some, (oc_remote _ _ _ _ _ _ Ho). Qed.
    Lemma l_again p n : merged p = Some n →
      (is_Dir n = true ∧ ∃ t, l_at' p = Some (Dir t)) ∨ (∃ c t, n = File c t ∧ (l_at' p = Some n ∨ ∃ k, l_at' p = Some (Link (abs_path (R ++ p)) k))).
    Proof.
      intros Hm. pose proof (oc_local _ _ _ _ _ _ Ho p) as Hl. unfold shows in Hl. rewrite Hm in Hl.
      destruct n as [c t|t k|t]; [right; eauto|by apply (merged_no_link _ _ _ _ _ _ H) in Hm|left; by split].
    Qed.
    Lemma l_again_none p : merged p = None → l_at' p = if decide (stray p) then l_at p else None.
    Proof. intros Hm. pose proof (oc_local _ _ _ _ _ _ Ho p) as Hl. unfold shows in Hl. by rewrite Hm in Hl. Qed.
    Lemma l_again_some p : is_Some (merged p) → is_Some (l_at' p).
    Proof. intros [n Hn]. destruct (l_again p n Hn) as [[_ [t ->]]|(c & t & _ & [->|[k ->]])]; by eexists. Qed.
    Lemma r_again_kind p n n' : merged p = Some n → r_at' p = Some n' → is_Dir n' = is_Dir n ∧ (is_Dir n = false → n' = n).
    Proof.
      intros Hm Hr. pose proof (oc_remote _ _ _ _ _ _ Ho p) as Hl. rewrite Hm, Hr in Hl. destruct n', n; cbn in Hl; simplify_eq; done.
    Qed.
    Lemma stray_at p : stray p → l_at' p = l_at p ∧ merged p = None.
    Proof. intros Hs. pose proof (merged_not_stray _ _ _ _ _ _ H p Hs) as Hm. split; [|done]. rewrite l_again_none by done. by rewrite decide_True. Qed.
    Lemma stray_again p : stray' p ↔ stray p.
    Proof.
      split.
      - intros (Hl & Hk & _). rewrite known_again in Hk. assert (merged p = None) as Hm by (destruct (merged p); [destruct Hk; by eexists|done]).
        rewrite l_again_none in Hl by done. case_decide; [done|by destruct Hl].
      - intros Hs. destruct (stray_at p Hs) as [El Hm]. pose proof Hs as ([n Hl] & _ & Hx). split; [|split].
        + rewrite El. by eexists.
        + rewrite known_again, Hm. by intros [? ?].
        + destruct Hx as [Hx|Hx]; [by left|right]. intros Hsafe. apply Hx. unfold safe_entry in *.
          apply l_at_some in Hl as [Hp Hl]. rewrite !l_at_ne in El by done. by rewrite <- El.
    Qed.
    Lemma l_again_inv p : is_Some (l_at' p) → is_Some (merged p) ∨ stray p.
    Proof.
      intros Hl. destruct (merged p) as [n|] eqn:Hm; [left; by eexists|right]. rewrite l_again_none in Hl by done. case_decide; [done|by destruct Hl].
    Qed.
    Lemma new_again p : ¬ Merge.new_l C m' ldb' X p.
    Proof.
      intros (Hl & Hk & Hs). rewrite known_again in Hk. rewrite stray_again in Hs. by destruct (l_again_inv p Hl).
    Qed.
    Lemma gone_l_again p : ¬ Merge.gone_l C m' ldb' p.
    Proof. intros [Hk Hl]. apply known_again, l_again_some in Hk as [? ?]. congruence. Qed.
    Lemma gone_r_again p : ¬ Merge.gone_r C m' ldb' p.
    Proof. intros [Hk Hl]. apply known_again, r_again in Hk as [? ?]. congruence. Qed.
    Lemma edited_l_again p : ¬ Merge.edited_l C m' ldb' (c_end C) p.
    Proof.
      intros (Hk & c & t & El & Ht). apply known_again in Hk as [n Hn]. destruct (l_again p n Hn) as [[_ [t' E]]|(c' & t' & -> & [E|[k E]])]; [congruence| |congruence].
      rewrite El in E. injection E as <- <-. apply Hmt in Hn. lia.
    Qed.
    Lemma rtime_again p d : rdb' !! p = Some d → (rd_last d <= c_end C)%Z.
    Proof. intros Hd. destruct (re_since _ _ _ _ _ Hre p d Hd) as [[_ ->]|[_ ->]]; [done|]. unfold stamp. destruct (rdb !! p) as [d0|] eqn:Hd0; [by eapply Hrt|done]. Qed.
    Lemma edited_r_again p : ¬ Merge.edited_r C m' ldb' rdb' (c_end C) p.
    Proof.
      intros [(Hk & c & t & El & Ht)|(d & Hd & _ & Ht)].
      - apply known_again in Hk as [n Hn]. destruct (r_again_kind p n _ Hn El) as [E1 E2]. specialize (E2 (eq_sym E1)) as <-. apply Hmt in Hn. lia.
      - apply rtime_again in Hd. lia.
    Qed.
    Lemma rows_again : rows (λ p, is_Dir <$> merged p).
    Proof.
      intros p b (n & Hn & ->)%fmap_Some. split; [by apply (merged_ours _ _ _ _ _ _ H _ n)|].
      destruct (merged_parent _ _ _ _ _ _ H _ _ Hn) as [?|[t Ht]]; [by left|right]. by rewrite Ht.
    Qed.
    Lemma known_excluded p : p ∈ X → is_Some (merged p) → known p.
    Proof.
      intros Hp [n Hn]. destruct (ldb !! p) eqn:E; [by eexists|]. exfalso. assert (stray p) as Hs.
      { split; [by apply (cl_excluded_x _ _ _ _ _ _ H)|]. split; [|by left]. intros [? ?]. congruence. }
      apply stray_at in Hs as [_ Hs]. congruence.
    Qed.
    Lemma clean_x_again : clean_x C m' ldb' rdb' (c_end C) X.
    Proof.
      split; [split|].
      - apply (oc_mounted _ _ _ _ _ _ Ho).
      - apply (cl_apart _ _ _ _ _ _ H).
      - apply (oc_util _ _ _ _ _ _ Ho).
      - apply (oc_trash _ _ _ _ _ _ Ho).
      - intros p Hz. destruct (merged p) as [n|] eqn:Hm; [by destruct (merged_ours _ _ _ _ _ _ H _ _ Hm) as (_ & _ & ?)|].
        rewrite l_again_none by done. case_decide; [|done]. by apply (cl_no_util _ _ _ _ _ _ H).
      - intros p b. cbv beta. rewrite !(re_ldb _ _ _ _ _ Hre). apply rows_again.
      - intros p b. cbv beta. rewrite !(re_rdb _ _ _ _ _ Hre). apply rows_again.
      - intros p b n E El. cbv beta in E. rewrite (re_ldb _ _ _ _ _ Hre) in E. apply fmap_Some in E as (n0 & Hn0 & ->).
        destruct (l_again p n0 Hn0) as [[Hd [t E]]|(c & t & -> & [E|[k E]])]; rewrite El in E; injection E as ->; done.
      - intros p b n E Er. cbv beta in E. rewrite (re_ldb _ _ _ _ _ Hre), (re_rdb _ _ _ _ _ Hre) in E.
        assert (is_Dir <$> merged p = Some b) as (n0 & Hn0 & ->)%fmap_Some by by destruct E. by eapply r_again_kind.
      - intros p b b' E1 E2. cbv beta in E1, E2. rewrite (re_ldb _ _ _ _ _ Hre) in E1. rewrite (re_rdb _ _ _ _ _ Hre) in E2. congruence.
      - intros p Hk _. by apply listed_again, known_again.
      - intros p Hp%listed_again. left. by apply known_again.
      - intros p t k E. assert (is_Some (merged p)) as [n Hn] by (apply r_again; by eexists). destruct (r_again_kind p n _ Hn E) as [E1 E2].
        specialize (E2 (eq_sym E1)) as <-. by apply (merged_no_link _ _ _ _ _ _ H) in Hn.
      - intros p t k E. destruct (l_again_inv p) as [[n Hn]|Hs]; [by eexists| |right; by apply stray_again].
        left. split; [apply known_again; by eexists|]. destruct (l_again p n Hn) as [[_ [t' E']]|(c & t' & -> & [E'|[k' E']])]; congruence.
      - intros p Hp. rewrite known_again, r_again. split; [|done]. destruct (cl_excluded_x _ _ _ _ _ _ H p Hp) as [Hl Hr].
        destruct (ldb !! p) eqn:E.
        { apply l_again_some, (merged_known _ _ _ _ _ _ H); [by eexists|]. split; [done|]. apply Hr. by eexists. }
        destruct (stray_at p) as [-> _]; [|done]. split; [done|]. split; [|by left]. intros [? ?]. congruence.
      - intros p x n Hp Hk%known_again Hx. apply known_excluded in Hk; [|done]. rewrite (oc_rest _ _ _ _ _ _ Ho) in Hx.
        + case_decide; [injection Hx as <-; eauto|]. by eapply (cl_patterns _ _ _ _ _ _ H).
        + unfold exclude_dir. rewrite <-app_assoc. by eexists.
        + intros [s E]. unfold trash_dir, exclude_dir in E. rewrite <-!app_assoc in E. apply app_inv_head in E. by injection E.
      - intros p Hs%stray_again. destruct (stray_at p Hs) as [_ Hm]. destruct (r_at' p) eqn:E; [|done].
        assert (is_Some (merged p)) as [? ?] by (apply r_again; by eexists). congruence.
      - intros p q Hs%stray_again Hqp Hne Hq. rewrite stray_again, known_again, r_again.
        destruct (cl_stray_up _ _ _ _ _ _ H p q Hs Hqp Hne Hq) as [?|[Hk Hr]]; [by left|right].
        assert (is_Some (merged q)) as Hmq; [|done]. apply (merged_known _ _ _ _ _ _ H); [done|]. split; [|done].
        destruct Hs as ([n Hn] & _). destruct (l_at_up _ _ _ _ _ _ H p q n Hn Hqp Hne Hq) as [t ->]. by eexists.
      - intros p q Hs%stray_again Hqp Hl. apply stray_again. destruct (l_again_inv p Hl) as [[n Hn]|?]; [|done]. exfalso.
        destruct (stray_at q Hs) as [_ Hm]. destruct (decide (q = p)) as [->|Hne]; [congruence|].
        assert (q ≠ []) as Hq0. { destruct Hs as ([n' Hn'] & _). by apply l_at_some in Hn' as [? _]. }
        destruct (merged_anc _ _ _ _ _ _ H p q n Hn Hqp Hne Hq0) as [t ?]. congruence.
      - intros p x t k Hp Hx Hs%stray_again. destruct (stray_at _ Hs) as [-> _]. by apply (cl_echo _ _ _ _ _ _ H).
      - intros p n n' Hk _ E. exfalso. apply Hk, known_again, r_again. by eexists.
      - intros p _. split; [apply edited_l_again|apply edited_r_again].
      - intros p q Hg. by apply gone_l_again in Hg.
      - intros p q Hg. by apply gone_r_again in Hg.
      - intros p Hg. by apply gone_l_again in Hg.
      - intros p t Hn. by apply new_again in Hn.
      - intros _ [p Hn]. by apply new_again in Hn.
      - intros p q (_ & Hg & _). by apply gone_l_again in Hg.
      - intros p x (_ & Hg & _). by apply gone_l_again in Hg.
      - apply (oc_trash_links _ _ _ _ _ _ Ho).
      - intros p (c & t & c' & t' & _ & Er & _ & [[He _]|Hk]); [by apply edited_l_again in He|]. apply Hk, known_again, r_again. by eexists.
    Qed.
    (** The merge is what there is. *)
    Lemma merged_again p : like (Merge.merged C m' ldb' (c_end C) X p) (merged p).
    Proof.
      pose proof (known_again p) as Hk. unfold Merge.known in Hk. pose proof (r_again p) as Hr. pose proof (l_again_some p) as Hl.
      pose proof (oc_remote _ _ _ _ _ _ Ho p) as Hlr. unfold Merge.merged at 1. destruct (merged p) as [n|] eqn:Hm.
      - destruct (proj2 Hk ltac:(by eexists)) as [d ->]. destruct (proj2 Hr ltac:(by eexists)) as [n' E']. rewrite E' in *.
        destruct (l_again p n Hm) as [[_ [t ->]]|(c & t & -> & [->|[k ->]])]; [done| |done].
        apply Hmt in Hm as Ht. destruct (c_end C <? t)%Z eqn:Et; [lia|done].
      - destruct (ldb' !! p); [by destruct (proj1 Hk ltac:(by eexists))|]. destruct (r_at' p); [by destruct (proj1 Hr ltac:(by eexists))|].
        destruct (l_at' p) eqn:El; [|done]. rewrite decide_True; [done|]. apply stray_again. destruct (l_again_inv p) as [[? ?]|?]; [by eexists|congruence|done].
    Qed.
  End again.
End sync.
Lemma clean_again C w last X (H : clean C (w_fs w) (w_ldb w) (w_rdb w) last X) (Hit : ∀ l, c_iter C l ≡ₚ l) (Hrows : ∀ l, c_rows C l ≡ₚ l)
  (Hvl : v_ldb w = w_ldb w) (Hvr : v_rdb w = w_rdb w) (Hfresh : FMProofs.fresh w) (Hlast : w_last w = Some last) w' :
  outcome C (w_fs w) (w_ldb w) last X (w_fs w') → recorded C w last X w' → (c_now C <= c_end C)%Z →
  (∀ p c t, merged C (w_fs w) (w_ldb w) last X p = Some (File c t) → (t <= c_end C)%Z) →
  (∀ p d, w_rdb w !! p = Some d → (rd_last d <= c_end C)%Z) → clean C (w_fs w') (w_ldb w') (w_rdb w') (c_end C) X.
Proof.
  intros Ho Hre Hnow Hmt Hrt. split; [by apply (clean_x_again C w last X H)|]. intros p Hp Hk.
  apply (known_again C w last X H Hit Hrows Hvl Hvr Hfresh Hlast w' Ho Hre Hnow Hmt Hrt) in Hk.
  apply (known_excluded C w last X H Hit Hrows Hvl Hvr Hfresh Hlast w' Ho Hre Hnow Hmt Hrt) in Hk; [|done].
  by apply (cl_clean_unknown _ _ _ _ _ _ H p).
Qed.
