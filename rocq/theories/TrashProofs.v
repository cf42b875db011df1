(** Moving files to the trash, cleaning it up and emptying it. *)
From Coq Require Import QArith Qcanon.
From Verif Require Export FMProofs RmProofs Sync.
From stdpp Require Import options.

(** ** Programs on the files of a world *)
Lemma wp_fsm {A} (m : M fs A) (I : world → Prop) (Q : res A → world → Prop) w :
  wp m (λ s, I (set_fs s w)) (λ r s, Q r (set_fs s w)) (w_fs w) → wp (fsm m) I Q w.
Proof.
  unfold wp, fsm, lift. destruct (m (w_fs w)) as [[tr s] r]. simpl. intros [H1 H2]. split; [|done].
  apply Forall_forall. intros x Hx. apply elem_of_list_fmap in Hx as (y & -> & Hy).
  rewrite Forall_forall in H1. by apply H1.
Qed.
Lemma set_fs_id w : set_fs (w_fs w) w = w.
Proof. by destruct w. Qed.
Lemma set_fs_fs m m' w : set_fs m (set_fs m' w) = set_fs m w.
Proof. done. Qed.
Lemma fsm_for {A} (l : list A) (f : A → M fs unit) w : for_ l (λ x, fsm (f x)) w = fsm (for_ l f) w.
Proof.
  revert w. induction l as [|x l IH]; intros w; [unfold fsm, lift; simpl; by rewrite set_fs_id|].
  simpl. unfold fsm, lift, bind. destruct (f x (w_fs w)) as [[tr s] [[]|e]]; [|done].
  rewrite IH. unfold fsm, lift. cbn [w_fs set_fs].
  destruct (for_ l f s) as [[tr' s'] r]. rewrite map_app. by destruct r.
Qed.
Lemma wp_eq {S A} (m m' : M S A) (I : S → Prop) (Q : res A → S → Prop) s : m s = m' s → wp m' I Q s → wp m I Q s.
Proof. unfold wp. by intros ->. Qed.
Lemma wp_fsm_for {A} (l : list A) (f : A → M fs unit) (I : world → Prop) (Q : res unit → world → Prop) w :
  wp (for_ l f) (λ s, I (set_fs s w)) (λ r s, Q r (set_fs s w)) (w_fs w) → wp (for_ l (λ x, fsm (f x))) I Q w.
Proof. intros H. eapply wp_eq; [apply fsm_for|]. by apply wp_fsm. Qed.

(** ** Names in the trash *)
Lemma free_name_spec used name ext n : ∀ i,
  (∃ x, free_name n i name ext used = Some x ∧ x ∉ used) ∨
  (free_name n i name ext used = None ∧
   ∀ j, (j < N.of_nat n)%N → name ++ lit "(" ++ show_N (i + j) ++ lit ")" ++ ext ∈ used).
Proof.
  induction n as [|n IH]; intros i; [right; split; [done|]; intros j Hj; lia|].
  cbn [free_name]. case_bool_decide as Hx; [|left; eauto].
  destruct (IH (i + 1)%N) as [?|[E Hj]]; [by left|]. right. split; [done|]. intros j Hlt.
  destruct (decide (j = 0)%N) as [->|Hj0]; [by rewrite N.add_0_r|].
  replace (i + j)%N with (i + 1 + (j - 1))%N by lia. apply Hj. lia.
Qed.
Lemma trash_name_spec used base :
  ∃ x, trash_name used base = Some x ∧ x ∉ used ∧ (base ∉ used → x = base).
Proof.
  unfold trash_name. case_bool_decide as Hb; [|eauto]. destruct (splitext base) as [name ext].
  destruct (free_name_spec used name ext (S (length used)) 1%N) as [(x & E & Hx)|[_ Hj]]; [exists x; done|].
  exfalso. set (f := λ j : nat, name ++ lit "(" ++ show_N (1 + N.of_nat j) ++ lit ")" ++ ext).
  assert (NoDup (f <$> seq 0 (S (length used)))) as Hnd.
  { apply NoDup_fmap_2; [|apply NoDup_seq]. intros i j E. unfold f in E. apply app_inv_head in E.
    apply app_inv_head in E. rewrite !app_assoc in E. do 2 apply app_inv_tail in E. apply show_N_inj in E. lia. }
  assert (length (f <$> seq 0 (S (length used))) ≤ length used) as Hl.
  { apply submseteq_length, NoDup_submseteq; [done|]. intros y Hy. apply elem_of_list_fmap in Hy as (j & -> & Hin).
    apply elem_of_seq in Hin. apply Hj. lia. }
  rewrite fmap_length, seq_length in Hl. lia.
Qed.

(** ** The loop *)
Lemma trash_dir_app C : trash_dir C = c_R C ++ (zielen_dir ++ [lit "Trash"]).
Proof. unfold trash_dir, util_dir. by rewrite app_assoc. Qed.
Lemma not_util_prefix (p k : path) : p ≠ [] → ¬ zielen_dir `prefix_of` p → ¬ p `prefix_of` zielen_dir ++ k.
Proof.
  intros Hp Hz [s E]. destruct p as [|c p]; [done|]. simpl in E. injection E as <- _. apply Hz. by exists p.
Qed.
Lemma util_first (p s k : path) : p ≠ [] → zielen_dir ++ k `prefix_of` p ++ s → zielen_dir `prefix_of` p.
Proof.
  intros Hp [r E]. destruct p as [|c p]; [done|]. simpl in E. injection E as E _. exists p. unfold zielen_dir. by rewrite E.
Qed.
Lemma not_in_util (p s : path) : ¬ zielen_dir `prefix_of` p → ∀ k, zielen_dir ++ k ++ s ≠ p.
Proof. intros Hz k <-. apply Hz. by apply prefix_app_r. Qed.

(** What may be moved: paths of the remote directory outside the program's own
    directory, none inside another; each exists or is gone. *)
Record trashable (C : conf) (m : fs) (X : pset) : Prop := {
  tr_wf : wf_fs m;
  tr_util : dir_at m (util_dir C);
  tr_trash : m !! trash_dir C = None ∨ dir_at m (trash_dir C);
  tr_paths : ∀ p, p ∈ X → p ≠ [] ∧ valid_comps p ∧ ¬ zielen_dir `prefix_of` p ∧ dirs_ok m (c_R C ++ parent p);
  tr_flat : ∀ p q, p ∈ X → q ∈ X → ¬ below p q
}.

Section loop.
  Context (C : conf) (m1 : fs) (X : pset) (used : list (list N)).
  Local Notation T := (trash_dir C).
  Local Notation R := (c_R C).
  Context (Hwf1 : wf_fs m1) (HT : dir_at m1 T).
  Context (HX : ∀ p, p ∈ X → p ≠ [] ∧ valid_comps p ∧ ¬ zielen_dir `prefix_of` p ∧ dirs_ok m1 (R ++ parent p)).
  Context (Hflat : ∀ p q, p ∈ X → q ∈ X → ¬ below p q).
  Context (Hused : ∀ y, is_Some (m1 !! (T ++ [y])) → y ∈ used).

  Lemma T_valid : valid_comps T.
  Proof using Hwf1 HT. by eapply wf_dir_valid. Qed.
  Lemma R_valid : valid_comps R.
  Proof using Hwf1 HT. pose proof T_valid as H. rewrite trash_dir_app in H. by apply valid_app in H as [? _]. Qed.
  Lemma src_not_trash p k : p ∈ X → ¬ R ++ p `prefix_of` T ++ k.
  Proof using HX.
    intros Hp H. apply HX in Hp as (Hp & _ & Hz & _). rewrite trash_dir_app, <-app_assoc in H. apply prefix_app_inv in H.
    rewrite <-app_assoc in H. by apply not_util_prefix in H.
  Qed.
  Lemma trash_not_src p k : p ∈ X → ¬ T ++ k `prefix_of` R ++ p.
  Proof using HX.
    intros Hp H. apply HX in Hp as (_ & _ & Hz & _). rewrite trash_dir_app, <-app_assoc in H. apply prefix_app_inv in H.
    apply Hz. rewrite <-app_assoc in H. etrans; [|done]. by apply prefix_app_r.
  Qed.
  Lemma src_apart p q : p ∈ X → q ∈ X → R ++ p `prefix_of` R ++ q → p = q.
  Proof using Hflat.
    intros Hp Hq H. apply prefix_app_inv in H as [[|x s] E]; [by rewrite app_nil_r in E|].
    exfalso. apply (Hflat q p Hq Hp). by exists x, s.
  Qed.

  (** The pairs of [pre] are moved. *)
  Record moved (pre : list (path * list N)) (m : fs) : Prop := {
    mv_wf : wf_fs m;
    mv_new : ∀ p x s, (p, x) ∈ pre → is_Some (m1 !! (R ++ p)) →
      set_mtime 0 <$> m !! (T ++ x :: s) = set_mtime 0 <$> m1 !! (R ++ p ++ s);
    mv_none : ∀ p x s, (p, x) ∈ pre → m1 !! (R ++ p) = None → m !! (T ++ x :: s) = None;
    mv_gone : ∀ p x s, (p, x) ∈ pre → m !! (R ++ p ++ s) = None;
    mv_rest : ∀ k, (∀ p x, (p, x) ∈ pre → ¬ T ++ [x] `prefix_of` k ∧ ¬ R ++ p `prefix_of` k) →
      set_mtime 0 <$> m !! k = set_mtime 0 <$> m1 !! k;
    mv_free : ∀ y s, y ∉ used → y ∉ pre.*2 → m !! (T ++ y :: s) = None;
    mv_exact : (∀ p n, p ∈ X → m1 !! (R ++ p) = Some n → is_Link n = false) →
      ∀ k, (∀ p x, (p, x) ∈ pre → ¬ T ++ [x] `prefix_of` k ∧ ¬ R ++ p `prefix_of` k) → m !! k = m1 !! k;
    mv_deep : (∀ p n, p ∈ X → m1 !! (R ++ p) = Some n → is_Link n = false) →
      ∀ p x s, (p, x) ∈ pre → is_Some (m1 !! (R ++ p)) → s ≠ [] → m !! (T ++ x :: s) = m1 !! (R ++ p ++ s)
  }.
  (** ... and have the current time. *)
  Definition stamped (pre : list (path * list N)) (m : fs) : Prop :=
    (∀ p n, p ∈ X → m1 !! (R ++ p) = Some n → is_Link n = false) →
    ∀ p x n, (p, x) ∈ pre → m1 !! (R ++ p) = Some n → m !! (T ++ [x]) = Some (set_mtime (c_now C) n).
  Lemma moved_nil : moved [] m1.
  Proof using Hwf1 Hused HT.
    split; try done.
    - intros p x s H. by apply elem_of_nil in H.
    - intros p x s H. by apply elem_of_nil in H.
    - intros p x s H. by apply elem_of_nil in H.
    - intros y s Hy _. apply (wf_missing_below m1 (T ++ [y])); [done|by destruct T| |].
      + apply eq_None_not_Some. intros H. by apply Hy, Hused.
      + rewrite (app_assoc T [y] s : T ++ y :: s = _). by apply prefix_app_r.
    - intros _ p x s H. by apply elem_of_nil in H.
  Qed.
  Lemma moved_dir pre m d : moved pre m → (∀ p x, (p, x) ∈ pre → ¬ T ++ [x] `prefix_of` d ∧ ¬ R ++ p `prefix_of` d) →
    dir_at m1 d → dir_at m d.
  Proof using.
    intros Hm Hd [t Ht]. destruct (decide (d = [])) as [->|Hn]; [apply dir_at_nil|]. rewrite node_at_ne in Ht by done.
    pose proof (mv_rest _ _ Hm d Hd) as E. rewrite Ht in E. destruct (m !! d) as [k|] eqn:Ek; [|done].
    apply dir_at_lookup; [done|]. injection E as E. destruct k; try done. eauto.
  Qed.
  Lemma moved_T pre m : (∀ p x, (p, x) ∈ pre → p ∈ X) → moved pre m → dir_at m T.
  Proof using HX HT.
    intros Hpre Hm. eapply moved_dir; [done| |exact HT]. intros p x Hp. split.
    - intros [s E]. apply (f_equal length) in E. rewrite !app_length in E. simpl in E. lia.
    - rewrite <-(app_nil_r T). apply src_not_trash. by eapply Hpre.
  Qed.

  Lemma trash_one_wp (I : fs → Prop) (Q : res unit → fs → Prop) pre p x m :
    (∀ q y, (q, y) ∈ pre → q ∈ X) → p ∈ X → p ∉ pre.*1 → x ∉ used → x ∉ pre.*2 → valid_name x → moved pre m → stamped pre m →
    (∀ m', moved (pre ++ [(p, x)]) m' → I m' ∧ (stamped (pre ++ [(p, x)]) m' → Q (Ok tt) m')) → wp (trash_one C p x) I Q m.
  Proof using Hwf1 HX HT Hflat Hused.
    intros Hpre Hp Hnp Hxu Hxp Hvx Hm Hst HQ. destruct (HX p Hp) as (Hpn & Hvp & Hzp & Hokp).
    pose proof (moved_T pre m Hpre Hm) as HTm. pose proof (mv_wf _ _ Hm) as Hwf.
    assert (∀ q y, (q, y) ∈ pre → q ≠ p) as Hne.
    { intros q y Hq ->. apply Hnp. apply elem_of_list_fmap. by exists (p, y). }
    assert (∀ k, k `prefix_of` R ++ p → ∀ q y, (q, y) ∈ pre → ¬ T ++ [y] `prefix_of` k ∧ ¬ R ++ q `prefix_of` k) as Hout.
    { intros k Hk q y Hq. split; intros H.
      - apply (trash_not_src p [y] Hp). by etrans.
      - assert (R ++ q `prefix_of` R ++ p) as Hqp by by etrans. apply (src_apart q p) in Hqp; [by apply (Hne q y)|by eapply Hpre|done]. }
    assert (∀ s q y, (q, y) ∈ pre → ¬ T ++ [y] `prefix_of` R ++ p ++ s ∧ ¬ R ++ q `prefix_of` R ++ p ++ s) as Hsub.
    { intros s q y Hq. split; intros H.
      - rewrite trash_dir_app, <-app_assoc in H. apply prefix_app_inv in H. rewrite <-app_assoc in H.
        by apply util_first in H.
      - apply prefix_app_inv in H. assert (p `prefix_of` p ++ s) as H2 by by apply prefix_app_r.
        assert (q ∈ X) as HqX by (by eapply Hpre).
        destruct (prefix_weak_total p q (p ++ s) H2 H) as [[[|z r] E]|[[|z r] E]].
        + rewrite app_nil_r in E. by apply (Hne q y).
        + apply (Hflat q p HqX Hp). by exists z, r.
        + rewrite app_nil_r in E. by apply (Hne q y).
        + apply (Hflat p q Hp HqX). by exists z, r. }
    assert (∀ s, set_mtime 0 <$> m !! (R ++ p ++ s) = set_mtime 0 <$> m1 !! (R ++ p ++ s)) as Hsrc.
    { intros s. apply (mv_rest _ _ Hm). apply Hsub. }
    assert (∀ s, m !! (T ++ x :: s) = None) as Hfree by (intros s; by apply (mv_free _ _ Hm)).
    assert (valid_comps (T ++ [x])) as HvT by (apply valid_app; split; [apply T_valid|by apply valid_one]).
    assert (dir_at m (parent (T ++ [x]))) as HdT by by rewrite parent_snoc.
    assert (¬ R ++ p `prefix_of` T ++ [x]) as Hab by by apply src_not_trash.
    assert (valid_comps (R ++ p)) as Hva by (apply valid_app; split; [apply R_valid|done]).
    unfold trash_one. apply wp_catch, wp_bind.
    destruct (m !! (R ++ p)) as [n|] eqn:En.
    - set (m2 := move (R ++ p) (T ++ [x]) m).
      assert (∀ s, s ≠ [] → m !! ((T ++ [x]) ++ s) = None) as Hfree'.
      { intros s _. rewrite <-app_assoc. apply Hfree. }
      assert (m2 !! (T ++ [x]) = Some n) as En2.
      { pose proof (move_new (R ++ p) (T ++ [x]) m [] Hfree') as E. rewrite !app_nil_r in E. by rewrite <-En. }
      assert (∀ m', shape m' = shape m2 → (is_Link n = false → ∀ k, k ≠ T ++ [x] → m' !! k = m2 !! k) → moved (pre ++ [(p, x)]) m') as Hmv.
      { intros m' Es Ex.
        assert (wf_fs m2) as Hwf2.
        { apply wf_move; try done; [by destruct R; destruct p|by destruct T]. }
        assert (∀ k, set_mtime 0 <$> m' !! k = set_mtime 0 <$> m2 !! k) as Ek by (intros k; by apply shape_lookup).
        assert (∀ k, m2 !! k = None → m' !! k = None) as En' by (intros k; by apply shape_none).
        split.
        - by apply (wf_shape m2).
        - intros q y s Hin Hsome. rewrite Ek. apply elem_of_app in Hin as [Hin|Hin].
          + assert (y ≠ x) as Hyx.
            { intros ->. apply Hxp. apply elem_of_list_fmap. by exists (q, x). }
            unfold m2. rewrite move_old, decide_False.
            * by apply (mv_new _ _ Hm).
            * by apply src_not_trash.
            * intros H. apply prefix_app_inv in H. destruct H as [r E]. simpl in E. by injection E as <- _.
          + apply elem_of_list_singleton in Hin. injection Hin as -> ->. unfold m2.
            rewrite (app_assoc T [x] s : T ++ x :: s = _), move_new by done. rewrite <-app_assoc. apply Hsrc.
        - intros q y s Hin Hnone. apply En'. apply elem_of_app in Hin as [Hin|Hin].
          + assert (y ≠ x) as Hyx.
            { intros ->. apply Hxp. apply elem_of_list_fmap. by exists (q, x). }
            unfold m2. rewrite move_old, decide_False.
            * by apply (mv_none _ _ Hm q).
            * by apply src_not_trash.
            * intros H. apply prefix_app_inv in H. destruct H as [r E]. simpl in E. by injection E as <- _.
          + apply elem_of_list_singleton in Hin. injection Hin as -> ->.
            specialize (Hsrc []). rewrite app_nil_r, En, Hnone in Hsrc. done.
        - intros q y s Hin. apply En'. apply elem_of_app in Hin as [Hin|Hin].
          + unfold m2. rewrite move_old.
            * destruct (decide _); [done|]. by apply (mv_gone _ _ Hm q y).
            * intros H. rewrite trash_dir_app, <-!app_assoc in H. apply prefix_app_inv in H.
              destruct (HX q) as (Hqn & _ & Hzq & _); [by eapply Hpre|]. by apply util_first in H.
          + apply elem_of_list_singleton in Hin. injection Hin as -> ->. unfold m2. rewrite move_old.
            * rewrite decide_True; [done|]. rewrite app_assoc. by apply prefix_app_r.
            * intros H. rewrite trash_dir_app, <-!app_assoc in H. apply prefix_app_inv in H. by apply util_first in H.
        - intros k Hk. rewrite Ek. unfold m2. destruct (Hk p x) as [H1 H2]; [set_solver|].
          rewrite move_old, decide_False by done. apply (mv_rest _ _ Hm). intros q y Hq. apply Hk. set_solver.
        - intros y s Hy Hyp. apply En'. rewrite fmap_app in Hyp. unfold m2. rewrite move_old.
          + rewrite decide_False by by apply src_not_trash. apply (mv_free _ _ Hm); [done|set_solver].
          + intros H. apply prefix_app_inv in H. destruct H as [r E]. simpl in E. injection E as <- _. set_solver.
        - intros Hnl k Hk. destruct (Hk p x) as [H1 H2]; [set_solver|]. rewrite Ex.
          + unfold m2. rewrite move_old, decide_False by done. apply (mv_exact _ _ Hm); [done|]. intros q y Hq. apply Hk. set_solver.
          + assert (m !! (R ++ p) = m1 !! (R ++ p)) as E.
            { pose proof (Hsub []) as Hs. rewrite app_nil_r in Hs. by apply (mv_exact _ _ Hm). }
            rewrite En in E. by apply (Hnl p).
          + intros ->. by apply H1.
        - intros Hnl q y s Hin Hsome Hs. rewrite Ex.
          + apply elem_of_app in Hin as [Hin|Hin].
            * assert (y ≠ x) as Hyx.
              { intros ->. apply Hxp. apply elem_of_list_fmap. by exists (q, x). }
              unfold m2. rewrite move_old, decide_False.
              -- by apply (mv_deep _ _ Hm).
              -- by apply src_not_trash.
              -- intros H. apply prefix_app_inv in H. destruct H as [r E]. simpl in E. by injection E as <- _.
            * apply elem_of_list_singleton in Hin. injection Hin as -> ->. unfold m2.
              rewrite (app_assoc T [x] s : T ++ x :: s = _), move_new by done. rewrite <-app_assoc.
              apply (mv_exact _ _ Hm); [done|apply Hsub].
          + assert (m !! (R ++ p) = m1 !! (R ++ p)) as E.
            { pose proof (Hsub []) as Hs'. rewrite app_nil_r in Hs'. by apply (mv_exact _ _ Hm). }
            rewrite En in E. by apply (Hnl p).
          + intros E. apply (f_equal length) in E. rewrite !app_length in E. cbn in E. destruct s; [done|cbn in E; lia]. }
      eapply (rename_wp _ (R ++ p) (T ++ [x]) _ m n); [done|done|done|by destruct T|done|done|apply (Hfree [])| |].
      + by apply HQ, Hmv.
      + cbn. assert (wf_fs m2) as Hwf2 by (apply (mv_wf (pre ++ [(p, x)])); by apply Hmv).
        eapply update_mtime_wp; [done|exact En2|]. intros m' Es Ex. destruct (HQ m') as [HI HQ'].
        { apply Hmv; [done|]. intros Hl. by apply Ex. }
        split; [done|]. apply HQ'. intros Hnl q y n' Hin Hn'.
        assert (m1 !! (R ++ p) = Some n) as En1.
        { rewrite <-En. symmetry. pose proof (Hsub []) as Hs'. rewrite app_nil_r in Hs'. by apply (mv_exact _ _ Hm). }
        destruct (Ex (Hnl _ _ Hp En1)) as [Ex1 Ex2]. apply elem_of_app in Hin as [Hin|Hin].
        * assert (y ≠ x) as Hyx.
          { intros ->. apply Hxp. apply elem_of_list_fmap. by exists (q, x). }
          rewrite Ex2.
          -- unfold m2. rewrite move_old, decide_False; [by apply (Hst Hnl q)|by apply src_not_trash|].
             intros H. apply prefix_app_inv in H. destruct H as [r E]. simpl in E. by injection E as <- _.
          -- intros E. apply app_inv_head in E. by injection E.
        * apply elem_of_list_singleton in Hin. injection Hin as -> ->. rewrite Ex1. congruence.
    - assert (m1 !! (R ++ p) = None) as En1.
      { specialize (Hsrc []). rewrite app_nil_r, En in Hsrc. by destruct (m1 !! (R ++ p)). }
      eapply rename_gone_wp; try done.
      + by destruct R; destruct p.
      + rewrite parent_app by done. intros q Hq Hqp.
        assert (∀ p' y, (p', y) ∈ pre → ¬ T ++ [y] `prefix_of` q ∧ ¬ R ++ p' `prefix_of` q) as Hq'.
        { apply Hout. etrans; [done|]. apply prefix_app. destruct (snoc_parent p Hpn) as [z Hz]. rewrite Hz at 2. by apply prefix_app_r. }
        destruct (Hokp q Hq Hqp) as [H|H].
        * left. pose proof (mv_rest _ _ Hm q Hq') as E. rewrite H in E. by destruct (m !! q).
        * right. by eapply moved_dir.
      + apply wp_ret. apply HQ; [split|].
        * done.
        * intros q y s Hin Hsome. apply elem_of_app in Hin as [Hin|Hin]; [by apply (mv_new _ _ Hm)|].
          apply elem_of_list_singleton in Hin. injection Hin as -> ->. rewrite En1 in Hsome. by destruct Hsome.
        * intros q y s Hin Hnone. apply elem_of_app in Hin as [Hin|Hin]; [by apply (mv_none _ _ Hm q)|].
          apply elem_of_list_singleton in Hin. injection Hin as -> ->. apply Hfree.
        * intros q y s Hin. apply elem_of_app in Hin as [Hin|Hin]; [by apply (mv_gone _ _ Hm q y)|].
          apply elem_of_list_singleton in Hin. injection Hin as -> ->.
          apply (wf_missing_below m (R ++ p)); [done|by destruct R; destruct p|done|]. rewrite app_assoc. by apply prefix_app_r.
        * intros k Hk. apply (mv_rest _ _ Hm). intros q y Hq. apply Hk. set_solver.
        * intros y s Hy Hyp. rewrite fmap_app in Hyp. apply (mv_free _ _ Hm); [done|set_solver].
        * intros Hnl k Hk. apply (mv_exact _ _ Hm); [done|]. intros q y Hq. apply Hk. set_solver.
        * intros Hnl q y s Hin Hsome Hs. apply elem_of_app in Hin as [Hin|Hin]; [by apply (mv_deep _ _ Hm)|].
          apply elem_of_list_singleton in Hin. injection Hin as -> ->. rewrite En1 in Hsome. by destruct Hsome.
        * intros Hnl q y n' Hin Hn'. apply elem_of_app in Hin as [Hin|Hin]; [by apply (Hst Hnl q)|].
          apply elem_of_list_singleton in Hin. injection Hin as -> ->. congruence.
  Qed.
  Lemma trash_loop_wp (I : fs → Prop) (Q : res unit → fs → Prop) l :
    (∀ q y, (q, y) ∈ l → q ∈ X ∧ y ∉ used ∧ valid_name y) → NoDup l.*1 → NoDup l.*2 →
    (∀ pre m', pre `prefix_of` l → moved pre m' → I m') → (∀ m', moved l m' → stamped l m' → Q (Ok tt) m') →
    wp (for_ l (λ pn, trash_one C pn.1 pn.2)) I Q m1.
  Proof using Hwf1 HX HT Hflat Hused.
    intros Hl Hn1 Hn2 HI HQ. apply (wp_for_inv I l _ (λ pre m, moved pre m ∧ stamped pre m)).
    - split; [apply moved_nil|]. intros _ p x n H. by apply elem_of_nil in H.
    - intros pre [p x] rest m El [Hm Hst]. cbn [fst snd]. rewrite El in Hl, Hn1, Hn2.
      rewrite fmap_app, fmap_cons in Hn1. rewrite fmap_app, fmap_cons in Hn2.
      apply NoDup_app in Hn1 as (_ & Hn1 & _). apply NoDup_app in Hn2 as (_ & Hn2 & _).
      assert (p ∈ X ∧ x ∉ used ∧ valid_name x) as (Hp & Hx & Hvx) by (apply Hl; set_solver).
      eapply (trash_one_wp I _ pre p x m); try done.
      + intros q y Hq. apply (Hl q y). set_solver.
      + intros Hin. by apply Hn1 in Hin; set_solver.
      + intros Hin. by apply Hn2 in Hin; set_solver.
      + intros m' Hm'. split; [|done]. apply (HI (pre ++ [(p, x)])); [|done]. rewrite El. exists rest. by rewrite <-app_assoc.
    - intros m' [Hm Hst]. by apply HQ.
  Qed.
End loop.

(** A renaming either fails and changes nothing or moves the tree. *)
Lemma rename_any_wp (I : fs → Prop) (a b : path) (Q : res unit → fs → Prop) m :
  wf_fs m → a ≠ [] → valid_comps a → dirs_ok m (parent a) → valid_comps b → b ≠ [] → dir_at m (parent b) →
  ¬ a `prefix_of` b →
  (∀ e, Q (Err e) m) →
  ((∃ n, m !! a = Some n) → (∀ s, s ≠ [] → m !! (b ++ s) = None) → I (move a b m) ∧ Q (Ok tt) (move a b m)) →
  wp (rename a b) I Q m.
Proof.
  intros Hwf Ha Hva Hoa Hvb Hb Hdb Hab Herr Hok.
  destruct (m !! a) as [n|] eqn:En; [|by eapply rename_gone_wp].
  destruct (Hwf _ _ En) as (_ & _ & Hda). unfold rename.
  apply wp_bind, wp_eval. rewrite resolve_nofollow by done. apply wp_bind, wp_eval. rewrite resolve_nofollow by done.
  apply wp_bind, wp_get. rewrite (node_at_ne m a) by done. apply wp_bind, wp_get. rewrite (node_at_ne m b), En by done.
  rewrite bool_decide_false by (intros ->; by apply Hab).
  rewrite bool_decide_false by done.
  destruct (m !! b) as [nb|] eqn:Eb.
  - assert ((is_Dir nb = false ∨ entries m b = []) → ∀ s, s ≠ [] → m !! (b ++ s) = None) as Hfree.
    { intros Hc. assert (∀ x, m !! (b ++ [x]) = None) as Hx.
      { intros x. apply eq_None_not_Some. intros [k Hk]. destruct Hc as [Hc|Hc].
        - eapply wf_nondir_nochild; [done|exact Eb|done|exact Hk|]. by exists x.
        - assert ((x, k) ∈ entries m b) as Hin by by apply elem_of_entries. rewrite Hc in Hin. by apply elem_of_nil in Hin. }
      intros s Hs. destruct s as [|x s]; [done|]. apply (wf_missing_below m (b ++ [x])); [done|by destruct b|done|].
      rewrite (app_assoc b [x] s : b ++ x :: s = _). by apply prefix_app_r. }
    destruct (is_Dir n), (is_Dir nb) eqn:Enb.
    + apply wp_bind, wp_get. destruct (bool_decide (entries m b = [])) eqn:Ee; [|by apply wp_throw].
      apply bool_decide_eq_true in Ee.
      destruct Hok as [HI HQ]; [eauto|apply Hfree; by right|]. by apply wp_put.
    + by apply wp_throw.
    + destruct (bool_decide _); by apply wp_throw.
    + destruct Hok as [HI HQ]; [eauto|apply Hfree; by left|]. by apply wp_put.
  - destruct Hok as [HI HQ]; [eauto| |by apply wp_put].
    intros s Hs. apply (wf_missing_below m b); [done|done|done|]. by apply prefix_app_r.
Qed.

(** ** Whatever the names, nothing outside the moved trees and the new entries
    is touched. *)
Section any.
  Context (C : conf) (m1 : fs) (X : pset) (used : list (list N)).
  Local Notation T := (trash_dir C).
  Local Notation R := (c_R C).
  Context (Hwf1 : wf_fs m1) (HT : dir_at m1 T).
  Context (HX : ∀ p, p ∈ X → p ≠ [] ∧ valid_comps p ∧ ¬ zielen_dir `prefix_of` p ∧ dirs_ok m1 (R ++ parent p)).
  Context (Hflat : ∀ p q, p ∈ X → q ∈ X → ¬ below p q).

  Definition touched (k : path) : Prop := (∃ p, p ∈ X ∧ R ++ p `prefix_of` k) ∨ (∃ x, x ∉ used ∧ T ++ [x] `prefix_of` k).
  Record kept (m : fs) : Prop := {
    kp_wf : wf_fs m;
    kp_rest : ∀ k, ¬ touched k → set_mtime 0 <$> m !! k = set_mtime 0 <$> m1 !! k
  }.
  Lemma kept_dir m d : kept m → ¬ touched d → dir_at m1 d → dir_at m d.
  Proof using.
    intros Hm Hd [t Ht]. destruct (decide (d = [])) as [->|Hn]; [apply dir_at_nil|]. rewrite node_at_ne in Ht by done.
    pose proof (kp_rest _ Hm d Hd) as E. rewrite Ht in E. destruct (m !! d) as [k|] eqn:Ek; [|done].
    apply dir_at_lookup; [done|]. injection E as E. destruct k; try done. eauto.
  Qed.
  Lemma trash_one_any (I : fs → Prop) (Q : res unit → fs → Prop) p x m :
    p ∈ X → x ∉ used → valid_name x → kept m →
    (∀ m' r, kept m' → I m' ∧ Q r m') → wp (trash_one C p x) I Q m.
  Proof using Hwf1 HX HT Hflat.
    intros Hp Hxu Hvx Hm HQ. destruct (HX p Hp) as (Hpn & Hvp & Hzp & Hokp).
    pose proof (kp_wf _ Hm) as Hwf.
    assert (¬ touched T) as HTt.
    { intros [(q & Hq & H)|(y & Hy & H)].
      - rewrite <-(app_nil_r T) in H. by eapply src_not_trash in H.
      - destruct H as [s E]. apply (f_equal length) in E. rewrite !app_length in E. simpl in E. lia. }
    assert (dir_at m T) as HTm by by apply kept_dir.
    assert (valid_comps (T ++ [x])) as HvT by (apply valid_app; split; [by eapply T_valid|by apply valid_one]).
    assert (¬ R ++ p `prefix_of` T ++ [x]) as Hab by by eapply src_not_trash.
    assert (valid_comps (R ++ p)) as Hva by (apply valid_app; split; [by eapply R_valid|done]).
    unfold trash_one. apply wp_catch, wp_bind.
    apply rename_any_wp; [done|by destruct R; destruct p|done| |done|by destruct T|by rewrite parent_snoc|done| |].
    - rewrite parent_app by done. intros q Hq Hqp.
      assert (q `prefix_of` R ++ p) as Hq2.
      { etrans; [done|]. apply prefix_app. destruct (snoc_parent p Hpn) as [z Hz]. rewrite Hz at 2. by apply prefix_app_r. }
      assert (¬ touched q) as Hq'.
      { intros [(p' & Hp' & H)|(y & Hy & H)].
        - assert (R ++ p' `prefix_of` R ++ p) as Hpp by (etrans; done).
          eapply src_apart in Hpp; [|done..]. subst p'. assert (R ++ p `prefix_of` R ++ parent p) as [s E] by (etrans; done).
          destruct (snoc_parent p Hpn) as [z Hz]. rewrite Hz in E at 2.
          apply (f_equal length) in E. rewrite !app_length in E. simpl in E. lia.
        - eapply trash_not_src; [exact HX|exact Hp|]. etrans; [exact H|exact Hq2]. }
      destruct (Hokp q Hq Hqp) as [H|H]; [left|right; by apply kept_dir].
      pose proof (kp_rest _ Hm q Hq') as E. rewrite H in E. by destruct (m !! q).
    - intros er. destruct er; first [by apply (HQ m)|apply wp_ret; by apply (HQ m)].
    - intros [n En] Hfree. set (m2 := move (R ++ p) (T ++ [x]) m).
      assert (m2 !! (T ++ [x]) = Some n) as En2.
      { pose proof (move_new (R ++ p) (T ++ [x]) m [] Hfree) as E. rewrite !app_nil_r in E. by rewrite <-En. }
      assert (wf_fs m2) as Hwf2.
      { apply wf_move; try done; [by destruct R; destruct p|by destruct T|by rewrite parent_snoc]. }
      assert (∀ m', shape m' = shape m2 → kept m') as Hk.
      { intros m' Es. split; [by apply (wf_shape m2)|]. intros k Hk. rewrite (shape_lookup _ _ k Es). unfold m2.
        rewrite move_old, decide_False; [by apply kp_rest| |].
        - intros H. apply Hk. left. eauto.
        - intros H. apply Hk. right. eauto. }
      split; [by apply (HQ m2 (Ok tt)), Hk|].
      cbn. eapply update_mtime_wp; [done|exact En2|]. intros m' Es _. by apply HQ, Hk.
  Qed.
  Lemma trash_loop_any (I : fs → Prop) (Q : res unit → fs → Prop) l :
    (∀ q y, (q, y) ∈ l → q ∈ X ∧ y ∉ used ∧ valid_name y) →
    (∀ m' r, kept m' → I m' ∧ Q r m') →
    wp (for_ l (λ pn, trash_one C pn.1 pn.2)) I Q m1.
  Proof using Hwf1 HX HT Hflat.
    intros Hl HQ. apply (wp_for_inv I l _ (λ _, kept)).
    - split; done.
    - intros pre [p x] rest m El Hm. cbn [fst snd].
      assert (p ∈ X ∧ x ∉ used ∧ valid_name x) as (Hp & Hx & Hvx) by (apply Hl; rewrite El; set_solver).
      eapply trash_one_any; try done. intros m' r Hm'. split; [by apply (HQ m' r)|]. destruct r; [done|by apply HQ].
    - intros m' Hm'. by apply HQ.
  Qed.
End any.

(** ** New names are good names *)
Lemma free_name_shape n i name ext used x : free_name n i name ext used = Some x →
  ∃ j, x = name ++ lit "(" ++ show_N j ++ lit ")" ++ ext.
Proof.
  revert i. induction n as [|n IH]; intros i; [done|]. cbn [free_name]. case_bool_decide; [apply IH|]. intros [= <-]. eauto.
Qed.
Lemma trash_name_valid used base x : valid_name base → trash_name used base = Some x → valid_name x.
Proof.
  intros Hv. unfold trash_name. case_bool_decide as Hb; [|by intros [= <-]].
  destruct (splitext base) as [name ext] eqn:E. intros Hf. apply free_name_shape in Hf as [j ->].
  apply splitext_app in E. destruct Hv as (_ & Hs & _). rewrite E in Hs.
  assert ((40%N : N) ∈ name ++ lit "(" ++ show_N j ++ lit ")" ++ ext) as Hp.
  { apply elem_of_app. right. left. }
  unfold valid_name. split_and!.
  - intros H. rewrite H in Hp. by apply elem_of_nil in Hp.
  - intros H. apply elem_of_app in H as [H|H]; [apply Hs; set_solver|].
    apply elem_of_app in H as [H|H]; [by apply elem_of_list_singleton in H|].
    apply elem_of_app in H as [H|H].
    { pose proof (show_N_digits j) as Hd. rewrite Forall_forall in Hd. apply Hd in H. done. }
    apply elem_of_app in H as [H|H]; [by apply elem_of_list_singleton in H|]. apply Hs. set_solver.
  - intros H. rewrite H in Hp. by apply elem_of_list_singleton in Hp.
  - intros H. rewrite H in Hp. apply elem_of_cons in Hp as [Hp|Hp]; [done|]. by apply elem_of_list_singleton in Hp.
Qed.

(** ** The whole function *)
Definition with_trash (C : conf) (m : fs) : fs :=
  match m !! trash_dir C with Some _ => m | None => <[trash_dir C := Dir (c_now C)]> m end.
Lemma trash_dir_ne C : trash_dir C ≠ [].
Proof. unfold trash_dir. by destruct (util_dir C). Qed.
Lemma trash_dir_parent C : parent (trash_dir C) = util_dir C.
Proof. unfold trash_dir. by rewrite parent_snoc. Qed.
Lemma trash_dir_valid C m : wf_fs m → dir_at m (util_dir C) → valid_comps (trash_dir C).
Proof.
  intros Hwf Hd. unfold trash_dir. apply valid_app. split; [by eapply wf_dir_valid|]. apply (bool_decide_unpack _). vm_compute. exact I.
Qed.
Section with_trash.
  Context (C : conf) (m : fs) (X : pset) (Ht : trashable C m X).
  Local Notation T := (trash_dir C).
  Lemma with_trash_dir : dir_at (with_trash C m) T.
  Proof using Ht.
    unfold with_trash. destruct (m !! T) as [n|] eqn:E.
    - destruct (tr_trash _ _ _ Ht) as [H|H]; [congruence|done].
    - apply dir_at_lookup; [apply trash_dir_ne|]. rewrite lookup_insert. eauto.
  Qed.
  Lemma with_trash_wf : wf_fs (with_trash C m).
  Proof using Ht.
    unfold with_trash. destruct (m !! T) as [n|] eqn:E; [apply Ht|].
    apply wf_insert; [apply Ht|eapply trash_dir_valid; apply Ht|apply trash_dir_ne| |].
    - rewrite trash_dir_parent. apply Ht.
    - done.
  Qed.
  Lemma with_trash_lookup k : k ≠ T → with_trash C m !! k = m !! k.
  Proof using. intros Hk. unfold with_trash. destruct (m !! T); [done|]. by rewrite lookup_insert_ne. Qed.
  Lemma with_trash_some k n : m !! k = Some n → with_trash C m !! k = Some n.
  Proof using.
    intros Hk. unfold with_trash. destruct (m !! T) eqn:E; [done|]. rewrite lookup_insert_ne; [done|]. intros <-. congruence.
  Qed.
  Lemma with_trash_paths : ∀ p, p ∈ X →
    p ≠ [] ∧ valid_comps p ∧ ¬ zielen_dir `prefix_of` p ∧ dirs_ok (with_trash C m) (c_R C ++ parent p).
  Proof using Ht.
    intros p Hp. destruct (tr_paths _ _ _ Ht p Hp) as (H1 & H2 & H3 & H4). split_and!; [done..|].
    intros q Hq Hqp. assert (q ≠ T) as HqT.
    { intros ->. apply H3. rewrite trash_dir_app in Hqp. apply prefix_app_inv in Hqp.
      etrans; [by apply prefix_app_r|]. etrans; [exact Hqp|].
      destruct (snoc_parent p H1) as [z Hz]. rewrite Hz at 2. by apply prefix_app_r. }
    destruct (H4 q Hq Hqp) as [H|H]; [left; by rewrite with_trash_lookup|right].
    apply dir_at_lookup in H as [t Ht']; [|done]. apply dir_at_lookup; [done|]. exists t. by rewrite with_trash_lookup.
  Qed.
End with_trash.

Lemma trash_files_wp C w X :
  trashable C (w_fs w) X → (∀ l, c_iter C l ≡ₚ l) →
  ∃ (used : list (list N)) (new : path → list N),
    (∀ y, y ∈ used ↔ is_Some (w_fs w !! (trash_dir C ++ [y]))) ∧
    (∀ p, p ∈ X → new p ∉ used ∧ valid_name (new p) ∧ (∀ b, last p = Some b → b ∉ used → new p = b)) ∧
    ∃ l, (∀ p, p ∈ l ↔ p ∈ X) ∧ NoDup l ∧
    ∀ (I : world → Prop) (Q : res unit → world → Prop),
      I (set_fs (with_trash C (w_fs w)) w) →
      wp (for_ (map (λ p, (p, new p)) l) (λ pn, trash_one C pn.1 pn.2)) (λ m, I (set_fs m w))
         (λ r m, match r with
                 | Ok _ => Q (Ok tt) (set_vrdb (sr_rm (v_rdb w) l) (set_vldb (sl_rm (v_ldb w) l) (set_fs m w)))
                 | Err e => Q (Err e) (set_fs m w)
                 end) (with_trash C (w_fs w)) →
      wp (trash_files C X) I Q w.
Proof.
  intros Ht Hit. pose proof (with_trash_dir C _ X Ht) as HTd. pose proof (with_trash_wf C _ X Ht) as Hwf1.
  set (m1 := with_trash C (w_fs w)). set (T := trash_dir C).
  set (used := map fst (entries m1 T)).
  assert (Hused : ∀ y, y ∈ used ↔ is_Some (w_fs w !! (T ++ [y]))).
  { intros y. unfold used. rewrite elem_of_list_fmap. rewrite <-(with_trash_lookup C (w_fs w) (T ++ [y])).
    - split.
      + intros ([z n] & -> & Hz). apply elem_of_entries in Hz. eauto.
      + intros [n Hn]. exists (y, n). split; [done|]. by apply elem_of_entries.
    - intros E. apply (f_equal length) in E. rewrite app_length in E. simpl in E. unfold T in E. lia. }
  set (new := λ p : path, default [] (trash_name used (default [] (last p)))).
  exists used, new. split; [done|].
  assert (Hnew : ∀ p, trash_name used (default [] (last p)) = Some (new p)).
  { intros p. unfold new. destruct (trash_name_spec used (default [] (last p))) as (x & E & _). by rewrite E. }
  split.
  { intros p Hp. destruct (trash_name_spec used (default [] (last p))) as (x & E & Hx & Hb). rewrite Hnew in E. injection E as <-.
    split; [done|]. split.
    - eapply trash_name_valid; [|apply Hnew]. destruct (tr_paths _ _ _ Ht p Hp) as (Hpn & Hv & _).
      destruct (snoc_parent p Hpn) as [z Hz]. rewrite Hz in Hv. rewrite Hz, last_snoc. by apply valid_app in Hv as [_ Hv%valid_one].
    - intros b Hb'. rewrite Hb' in Hb. exact Hb. }
  exists (c_iter C (elements X)). split; [intros p; by rewrite Hit, elem_of_elements|].
  split; [rewrite Hit; apply NoDup_elements|]. intros I Q HI H.
  unfold trash_files. apply wp_bind. unfold remote_guard. apply wp_catch, wp_fsm, wp_catch.
  pose proof (mkdir_run (c_now C) (w_fs w) (trash_dir C)) as Hrun.
  rewrite trash_dir_parent in Hrun.
  specialize (Hrun (tr_wf _ _ _ Ht) (trash_dir_valid _ _ (tr_wf _ _ _ Ht) (tr_util _ _ _ Ht)) (trash_dir_ne C) (tr_util _ _ _ Ht)).
  assert (wp (es ←! eval (λ w, scandir (w_fs w) (trash_dir C));
    match mapM (λ p, trash_name (map fst es) (default [] (last p))) (c_iter C (elements X)) with
    | None => throw EFuel
    | Some new => for_ (zip (c_iter C (elements X)) new) (λ pn, fsm (trash_one C pn.1 pn.2)) ;!
      ldb_do (λ d, sl_rm d (c_iter C (elements X))) ;! rdb_do (λ d, sr_rm d (c_iter C (elements X)))
    end) I Q (set_fs m1 w)) as G.
  { apply wp_bind, wp_eval. cbn [w_fs set_fs]. unfold scandir. rewrite resolve_dir by done.
    destruct HTd as [t Ht']. fold m1 in Ht'. rewrite Ht'. fold T used.
    assert (∀ l : list path, mapM (λ p, trash_name used (default [] (last p))) l = Some (map new l)) as Em.
    { intros l. induction l as [|p l IH]; [done|]. simpl. rewrite Hnew. simpl. rewrite IH. done. }
    rewrite Em. assert (∀ l : list path, zip l (map new l) = map (λ p, (p, new p)) l) as Ez.
    { intros l. induction l as [|p l IH]; [done|]. simpl. by rewrite IH. }
    rewrite Ez. apply wp_bind. apply wp_fsm_for. cbn [w_fs set_fs]. eapply wp_mono; [exact H|].
    intros [[]|er] m Hr; [|exact Hr]. apply wp_bind, wp_mut, wp_mut. exact Hr. }
  destruct (w_fs w !! trash_dir C) eqn:E; (eapply wp_run; [exact Hrun| |]).
  - constructor.
  - cbn. apply wp_ret. cbn. unfold m1, with_trash in G. rewrite E in G. exact G.
  - constructor; [|constructor]. unfold m1, with_trash in HI. by rewrite E in HI.
  - cbn. unfold m1, with_trash in G. rewrite E in G. exact G.
Qed.

(** ** Deleting entries of the trash *)
Section purge.
  Context (T : path) (P : list N → Prop) (m0 : fs).
  Record purged (pre : list (list N)) (m : fs) : Prop := {
    pu_wf : wf_fs m;
    pu_gone : ∀ x s, x ∈ pre → P x → m !! (T ++ x :: s) = None;
    pu_rest : ∀ k, (∀ x, x ∈ pre → P x → ¬ T ++ [x] `prefix_of` k) → m !! k = m0 !! k
  }.
  Lemma purged_nil : wf_fs m0 → purged [] m0.
  Proof. intros H. split; [done| |done]. intros x s Hx. by apply elem_of_nil in Hx. Qed.
  Lemma purged_skip pre x m : ¬ P x → purged pre m → purged (pre ++ [x]) m.
  Proof.
    intros Hx [H1 H2 H3]. split; [done| |].
    - intros y s Hy HP. apply elem_of_app in Hy as [Hy|Hy%elem_of_list_singleton]; [by apply H2|by subst].
    - intros k Hk. apply H3. intros y Hy. apply Hk. set_solver.
  Qed.
  Lemma purged_rm pre x m : P x → purged pre m → purged (pre ++ [x]) (without (T ++ [x]) m).
  Proof.
    intros Hx [H1 H2 H3]. split; [by apply wf_without| |].
    - intros y s Hy HP. rewrite without_lookup. destruct (decide _) as [H|H]; [done|].
      apply elem_of_app in Hy as [Hy|Hy%elem_of_list_singleton]; [by apply H2|]. subst y.
      exfalso. apply H. rewrite (app_assoc T [x] s : T ++ x :: s = _). by apply prefix_app_r.
    - intros k Hk. rewrite without_lookup, decide_False by (apply Hk; [set_solver|done]).
      apply H3. intros y Hy. apply Hk. set_solver.
  Qed.
  Lemma purged_entry pre x m : x ∉ pre → purged pre m → ∀ s, m !! (T ++ x :: s) = m0 !! (T ++ x :: s).
  Proof.
    intros Hx [H1 H2 H3] s. apply H3. intros y Hy _ [r E]. rewrite <-app_assoc in E. apply app_inv_head in E. simpl in E.
    by injection E as -> _.
  Qed.
  Lemma purged_T pre m : dir_at m0 T → purged pre m → dir_at m T.
  Proof.
    intros [t Ht] Hp. destruct (decide (T = [])) as [E|E]; [rewrite E; apply dir_at_nil|].
    rewrite node_at_ne in Ht by done. apply dir_at_lookup; [done|]. exists t. rewrite (pu_rest _ _ Hp); [done|].
    intros x _ _ [s Es]. apply (f_equal length) in Es. rewrite !app_length in Es. simpl in Es. lia.
  Qed.
End purge.
Lemma without_file q m n : wf_fs m → m !! q = Some n → is_Dir n = false → delete q m = without q m.
Proof.
  intros Hwf Hq Hn. apply map_eq. intros k. rewrite without_lookup. destruct (decide _) as [H|H].
  - destruct (decide (q = k)) as [->|Hk]; [by rewrite lookup_delete|]. rewrite lookup_delete_ne by done.
    apply eq_None_not_Some. intros [n' Hn']. pose proof (wf_anc m Hwf k q n' Hn' H Hk) as [t Ht].
    destruct (Hwf _ _ Hq) as (Hne & _). rewrite node_at_ne, Hq in Ht by done. injection Ht as ->. done.
  - destruct (decide (q = k)) as [->|Hk]; [by destruct H|]. by rewrite lookup_delete_ne.
Qed.
Lemma remove_file_wp (I : fs → Prop) (q : path) (Q : res unit → fs → Prop) m n :
  wf_fs m → m !! q = Some n → is_Dir n = false → I (without q m) → Q (Ok tt) (without q m) → wp (FS.remove q) I Q m.
Proof.
  intros Hwf Hq Hn HI HQ. destruct (Hwf _ _ Hq) as (Hne & Hv & Hd). rewrite <-(without_file q m n Hwf Hq Hn) in HI, HQ.
  unfold FS.remove. apply wp_bind, wp_eval. rewrite resolve_nofollow by done. apply wp_bind, wp_get.
  rewrite node_at_ne, Hq by done. destruct n; [by apply wp_put..|done].
Qed.
Lemma rmtree_file_wp (I : fs → Prop) (q : path) (Q : res unit → fs → Prop) m c t :
  wf_fs m → m !! q = Some (File c t) → Q (Err NotADir) m → wp (rmtree q) I Q m.
Proof.
  intros Hwf Hq HQ. destruct (Hwf _ _ Hq) as (Hne & Hv & Hd).
  unfold rmtree. apply wp_bind, wp_eval. rewrite resolve_nofollow by done. apply wp_bind, wp_get.
  rewrite node_at_ne, Hq by done. by apply wp_throw.
Qed.

(** Only below the chosen entries anything changes. *)
Definition spared (T : path) (P : list N → Prop) (m0 m : fs) : Prop :=
  ∀ k, (∀ x, P x → ¬ T ++ [x] `prefix_of` k) → m !! k = m0 !! k.
Lemma purged_spared T P m0 pre m : purged T P m0 pre m → spared T P m0 m.
Proof. intros Hp k Hk. apply (pu_rest _ _ _ _ _ Hp). intros x _ HP. by apply Hk. Qed.
Lemma part_gone_spared T P m0 pre m x m' : purged T P m0 pre m → P x → part_gone (T ++ [x]) m m' → spared T P m0 m'.
Proof.
  intros Hp HP (_ & Hout & _) k Hk. rewrite Hout by by apply Hk. by eapply purged_spared.
Qed.

(** An entry of the trash is expired. *)
Definition expired (C : conf) (m : fs) (cutoff : Z) (x : list N) : Prop :=
  ∃ n, m !! (trash_dir C ++ [x]) = Some n ∧ (mtime n <= cutoff)%Z.

Lemma cleanup_one_wp C (cutoff : Z) (m0 m : fs) pre x n (I : fs → Prop) (Q : res unit → fs → Prop) :
  let T := trash_dir C in let P := expired C m0 cutoff in
  purged T P m0 pre m → x ∉ pre → m0 !! (T ++ [x]) = Some n → is_Link n = false →
  (∀ m', spared T P m0 m' → I m') →
  (∀ m', purged T P m0 (pre ++ [x]) m' → Q (Ok tt) m') → wp (cleanup_one C cutoff x) I Q m.
Proof.
  intros T P Hm Hx Hn Hl HI HQ. pose proof (pu_wf _ _ _ _ _ Hm) as Hwf.
  assert (m !! (T ++ [x]) = Some n) as Hn' by by rewrite (purged_entry T P m0 pre x m Hx Hm []).
  unfold cleanup_one. apply wp_bind, wp_eval. fold T. rewrite (stat_lookup_follow m Hwf _ n Hn' Hl).
  destruct (mtime n <=? cutoff)%Z eqn:Ec.
  - assert (P x) as HPx by (exists n; split; [done|]; lia).
    apply wp_catch. destruct n as [c t|l t|t]; [|done|].
    + eapply rmtree_file_wp; [done|exact Hn'|].
      eapply remove_file_wp; [done|exact Hn'|done| |].
      * eapply HI, purged_spared, purged_rm; done.
      * apply HQ. by apply purged_rm.
    + apply rmtree_wp; [done| |by destruct T| |].
      * apply dir_at_lookup; [by destruct T|eauto].
      * intros m' Hg. apply HI. by eapply part_gone_spared.
      * apply HQ. by apply purged_rm.
  - apply wp_ret. apply HQ. apply purged_skip; [|done]. intros (n' & E & Hc). fold T in E. rewrite Hn in E. injection E as <-. lia.
Qed.
Lemma cleanup_trash_wp C (period : Z) w (I : world → Prop) (Q : res unit → world → Prop) :
  let T := trash_dir C in let P := expired C (w_fs w) (c_now C - period) in
  wf_fs (w_fs w) → dir_at (w_fs w) T → (∀ x n, w_fs w !! (T ++ [x]) = Some n → is_Link n = false) →
  (∀ m', spared T P (w_fs w) m' → I (set_fs m' w)) →
  (∀ m', wf_fs m' → (∀ x s, P x → m' !! (T ++ x :: s) = None) → spared T P (w_fs w) m' → Q (Ok tt) (set_fs m' w)) →
  wp (cleanup_trash C period) I Q w.
Proof.
  intros T P Hwf HT Hl HI HQ. unfold cleanup_trash. apply wp_bind, wp_eval. unfold scandir. fold T.
  rewrite resolve_dir by done. destruct HT as [t ->]. apply wp_fsm_for.
  apply (wp_for_inv _ _ _ (purged T P (w_fs w))).
  - by apply purged_nil.
  - intros pre x rest m El Hm. pose proof (NoDup_entries (w_fs w) T) as Hnd. rewrite El in Hnd.
    assert (x ∈ map fst (entries (w_fs w) T)) as Hx by (rewrite El; set_solver).
    apply elem_of_list_fmap in Hx as ([x' n] & -> & Hx). apply elem_of_entries in Hx. cbn [fst] in *.
    apply NoDup_app in Hnd as (_ & Hnd & _).
    eapply cleanup_one_wp; [exact Hm| |exact Hx|by eapply Hl|done|].
    + intros H. apply Hnd in H. set_solver.
    + done.
  - intros m Hm. apply HQ; [apply (pu_wf _ _ _ _ _ Hm)| |by eapply purged_spared]. intros x s (n & Hn & Hc). apply (pu_gone _ _ _ _ _ Hm); [|by exists n].
    apply elem_of_list_fmap. exists (x, n). split; [done|]. by apply elem_of_entries.
Qed.

(** ** Emptying it *)
Lemma empty_one_wp C (m0 m : fs) pre x n (I : fs → Prop) (Q : res nat → fs → Prop) :
  let T := trash_dir C in let P := λ _ : list N, True in
  purged T P m0 pre m → x ∉ pre → m0 !! (T ++ [x]) = Some n →
  (∀ m', spared T P m0 m' → I m') →
  (∀ m', purged T P m0 (pre ++ [x]) m' → Q (Ok 1) m') → wp (empty_one C x) I Q m.
Proof.
  intros T P Hm Hx Hn HI HQ. pose proof (pu_wf _ _ _ _ _ Hm) as Hwf.
  assert (m !! (T ++ [x]) = Some n) as Hn' by by rewrite (purged_entry T P m0 pre x m Hx Hm []).
  unfold empty_one. fold T. apply wp_catch. destruct (is_Dir n) eqn:Ed.
  - apply is_Dir_true in Ed as [t ->].
    assert (dir_at m (T ++ [x])) as Hd by (apply dir_at_lookup; [by destruct T|eauto]).
    apply wp_bind, remove_dir_wp; [done|done|]. apply wp_bind, rmtree_wp; [done|done|by destruct T| |].
    + intros m' Hg. apply HI. by eapply part_gone_spared.
    + apply wp_ret, HQ. by apply purged_rm.
  - apply wp_bind. eapply remove_file_wp; [done|exact Hn'|done| |].
    + eapply HI, purged_spared, purged_rm; done.
    + apply wp_ret, HQ. by apply purged_rm.
Qed.
Lemma empty_trash_wp C m (I : fs → Prop) (Q : res nat → fs → Prop) :
  let T := trash_dir C in let P := λ _ : list N, True in
  wf_fs m → dir_at m T → (∀ m', spared T P m m' → I m') →
  (∀ m', (∀ x s, m' !! (T ++ x :: s) = None) → spared T P m m' → Q (Ok (length (entries m T))) m') →
  wp (empty_trash C) I Q m.
Proof.
  intros T P Hwf HT HI HQ. unfold empty_trash. apply wp_bind, wp_eval. unfold scandir. fold T.
  rewrite resolve_dir by done. destruct HT as [t ->].
  assert (∀ rest pre m1 (Q : res nat → fs → Prop), map fst (entries m T) = pre ++ rest → purged T P m pre m1 →
    (∀ m', purged T P m (pre ++ rest) m' → Q (Ok (length rest)) m') → wp (empty_all C rest) I Q m1) as G.
  { induction rest as [|x rest IH]; intros pre m1 Q' El Hm HQ'.
    - apply wp_ret. apply HQ'. by rewrite app_nil_r.
    - pose proof (NoDup_entries m T) as Hnd. rewrite El in Hnd.
      assert (x ∈ map fst (entries m T)) as Hx by (rewrite El; set_solver).
      apply elem_of_list_fmap in Hx as ([x' n] & -> & Hx). apply elem_of_entries in Hx. cbn [fst] in *.
      apply NoDup_app in Hnd as (_ & Hnd & _). cbn [empty_all]. apply wp_bind.
      eapply empty_one_wp; [exact Hm| |exact Hx|done|].
      + intros H. apply Hnd in H. set_solver.
      + intros m2 Hm2. apply wp_bind. apply (IH (pre ++ [x'])).
        * by rewrite <-app_assoc.
        * done.
        * intros m' Hm'. apply wp_ret. rewrite <-app_assoc in Hm'. by apply HQ'. }
  apply (G _ []); [done|by apply purged_nil|]. intros m' Hm'. rewrite map_length. apply HQ; [|by eapply purged_spared].
  intros x s. destruct (m !! (T ++ [x])) as [n|] eqn:E.
  - apply (pu_gone _ _ _ _ _ Hm'); [|done]. apply elem_of_list_fmap. exists (x, n). split; [done|]. by apply elem_of_entries.
  - rewrite (pu_rest _ _ _ _ _ Hm').
    + apply (wf_missing_below m (T ++ [x])); [done|by destruct T|done|].
      rewrite (app_assoc T [x] s : T ++ x :: s = _). by apply prefix_app_r.
    + intros y Hy _ [r Er]. rewrite <-app_assoc in Er. apply app_inv_head in Er. simpl in Er. injection Er as <- _.
      simpl in Hy. apply elem_of_list_fmap in Hy as ([y n] & -> & Hy). apply elem_of_entries in Hy. simpl in E. congruence.
Qed.
