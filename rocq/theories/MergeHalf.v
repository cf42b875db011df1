(** A sync that was interrupted between two files: what is there is free of
    clashes, and has the same merge. *)
From Coq Require Import QArith Qcanon.
From Verif Require Export MergeAgain.
From stdpp Require Import options.

(** Some entries are as they were before the sync ([m]) and the others as they
    will be when it is done; none is half copied or missing.  Nothing has been
    moved to the trash yet, and nothing that was deleted in the remote directory
    has been removed from the local one. *)
Record between_files (C : conf) (m : fs) (ldb : lmap) (last_sync : Z) (X : pset) (m' : fs) : Prop := {
  bf_mounted : mounted C m';
  bf_util : util_ok C m';
  bf_trash : ∀ k, trash_dir C `prefix_of` k → m' !! k = m !! k;
  bf_patterns : ∀ x n, m' !! (exclude_dir C ++ [x]) = Some n → m !! (exclude_dir C ++ [x]) = Some n ∨ ∃ c t, n = File c t;
  bf_remote : ∀ p, like (r_at C m' p) (r_at C m p) ∨ like (r_at C m' p) (merged C m ldb last_sync X p);
  (** A known file of the local directory may have been replaced by the one that
      the remote directory has, or by a link to that. *)
  bf_local : ∀ p, like (l_at C m' p) (l_at C m p)
    ∨ (known ldb p ∧ ∃ c t, merged C m ldb last_sync X p = Some (File c t) ∧ r_at C m' p = Some (File c t)
       ∧ (l_at C m' p = Some (File c t) ∨ ∃ k, l_at C m' p = Some (Link (abs_path (c_R C ++ p)) k)))
}.

Lemma like_inv a b : like a b → a = b ∨ ∃ t t', a = Some (Dir t) ∧ b = Some (Dir t').
Proof. destruct a as [[]|], b as [[]|]; simpl; eauto. Qed.

Section half.
  Set Default Proof Using "Type*".
  Context (C : conf) (m : fs) (ldb : lmap) (rdb : rmap) (last : Z) (X : pset) (m' : fs).
  Context (H : clean_x C m ldb rdb last X) (B : between_files C m ldb last X m').
  Local Notation known := (known ldb).
  Local Notation merged := (merged C m ldb last X).
  Local Notation gone_l := (gone_l C m ldb).
  Local Notation gone_r := (gone_r C m ldb).
  Local Notation edited_l := (edited_l C m ldb last).
  Local Notation edited_r := (edited_r C m ldb rdb last).
  Local Notation stray := (stray C m ldb X).
  Local Notation new_l := (new_l C m ldb X).
  Let Hc : calm_x C m ldb rdb last X := H.

  Lemma l_cases p : l_at C m' p = l_at C m p ∨ (∃ t t', l_at C m' p = Some (Dir t) ∧ l_at C m p = Some (Dir t'))
    ∨ (known p ∧ is_Some (l_at C m p) ∧ ∃ c t, merged p = Some (File c t) ∧ r_at C m' p = Some (File c t)
       ∧ (l_at C m' p = Some (File c t) ∨ ∃ k, l_at C m' p = Some (Link (abs_path (c_R C ++ p)) k))).
  Proof.
    destruct (bf_local _ _ _ _ _ _ B p) as [[?|?]%like_inv|(Hk & c & t & Hm & Hr & Hl)]; [by auto|by auto|].
    right; right. split; [done|]. split; [|eauto]. apply (merged_known _ _ _ _ _ _ Hc p Hk). by eexists.
  Qed.
  Lemma r_cases p : r_at C m' p = r_at C m p ∨ r_at C m' p = merged p
    ∨ (∃ t t', r_at C m' p = Some (Dir t) ∧ (r_at C m p = Some (Dir t') ∨ merged p = Some (Dir t'))).
  Proof.
    destruct (bf_remote _ _ _ _ _ _ B p) as [[?|(t & t' & E & E')]%like_inv|[?|(t & t' & E & E')]%like_inv]; eauto 10.
  Qed.
  Lemma l_some p : is_Some (l_at C m' p) ↔ is_Some (l_at C m p).
  Proof.
    destruct (l_cases p) as [->|[(t & t' & -> & ->)|(_ & Hs & c & t & _ & _ & [->|[k ->]])]]; [done|by split; eauto|by split; eauto..].
  Qed.
  Lemma l_none p : l_at C m' p = None ↔ l_at C m p = None.
  Proof. rewrite !eq_None_not_Some, l_some. done. Qed.
  Lemma l_kind p n n' : l_at C m' p = Some n → l_at C m p = Some n' → is_Dir n = is_Dir n'.
  Proof.
    intros E E'. destruct (l_cases p) as [E1|[(t & t' & E1 & E2)|(_ & Hs & c & t & Hm & _ & Hl)]]; [congruence|by simplify_eq|].
    pose proof (merged_kind_l _ _ _ _ _ _ Hc p _ _ Hm E') as <-. destruct Hl as [Hl|[k Hl]]; by simplify_eq.
  Qed.
  Lemma l_link p t k : l_at C m' p = Some (Link t k) → l_at C m p = Some (Link t k) ∨ (known p ∧ t = abs_path (c_R C ++ p)).
  Proof.
    intros E. destruct (l_cases p) as [E1|[(? & ? & E1 & E2)|(Hk & _ & c & t' & Hm & _ & [Hl|[k' Hl]])]]; [left; congruence|congruence|congruence|].
    right. split; [done|congruence].
  Qed.
  Lemma stray' p : Merge.stray C m' ldb X p ↔ stray p.
  Proof.
    unfold Merge.stray. rewrite l_some. split; intros (Hs & Hn & Hx); (split; [done|]); (split; [done|]); (destruct Hx as [Hx|Hx]; [by left|right]).
    - intros Hsa. apply Hx. intros t k E. destruct (l_cases p) as [E1|[(? & ? & E1 & E2)|(Hk & _)]]; [|..].
      + assert (p ≠ []) as Hp by (intros ->; by apply is_Some_None in Hs). rewrite !(l_at_ne _ _ p) in E1 by done. rewrite E1 in E. by eapply Hsa.
      + apply l_at_some in E1 as [_ E1]. congruence.
      + done.
    - intros Hsa. apply Hx. intros t k E. destruct (l_cases p) as [E1|[(? & ? & E1 & E2)|(Hk & _)]]; [|..].
      + assert (p ≠ []) as Hp by (intros ->; by apply is_Some_None in Hs). rewrite !(l_at_ne _ _ p) in E1 by done. rewrite <- E1 in E. by eapply Hsa.
      + apply l_at_some in E2 as [_ E2]. congruence.
      + done.
  Qed.
  Lemma new_l' p : Merge.new_l C m' ldb X p ↔ new_l p.
  Proof. unfold Merge.new_l. by rewrite l_some, stray'. Qed.
  Lemma gone_l' p : Merge.gone_l C m' ldb p ↔ gone_l p.
  Proof. unfold Merge.gone_l. by rewrite l_none. Qed.
  Lemma trashed' p : Merge.trashed C m' ldb p ↔ Merge.trashed C m ldb p.
  Proof. unfold Merge.trashed. by rewrite !gone_l'. Qed.
  (** Where the merge has something, so has the remote directory, before or after. *)
  Lemma r_none p : r_at C m' p = None → r_at C m p = None ∨ gone_l p.
  Proof.
    intros E. destruct (r_cases p) as [E1|[E1|(? & ? & E1 & _)]]; [left; congruence| |congruence].
    destruct (r_at C m p) as [n|] eqn:Er; [right|by left]. apply (not_merged_r _ _ _ _ _ _ Hc); [congruence|by eexists].
  Qed.
  Lemma gone_r' p : Merge.gone_r C m' ldb p → gone_r p ∨ gone_l p.
  Proof. intros [Hk E]. destruct (r_none p E); [by left|by right]. Qed.
  Lemma edited_l' p : Merge.edited_l C m' ldb last p → edited_l p ∨
    (∃ c t, merged p = Some (File c t) ∧ r_at C m' p = Some (File c t) ∧ l_at C m' p = Some (File c t)).
  Proof.
    intros (Hk & c & t & E & Ht). destruct (l_cases p) as [E1|[(? & ? & E1 & E2)|(_ & _ & c' & t' & Hm & Hr & [Hl|[k Hl]])]]; [left|congruence| |congruence].
    - split; [done|]. exists c, t. split; [congruence|done].
    - right. eauto 10.
  Qed.
  Lemma edited_r' p : Merge.edited_r C m' ldb rdb last p → edited_r p ∨ (edited_l p ∧ r_at C m' p = l_at C m p).
  Proof.
    intros [(Hk & c & t & E & Ht)|Hd]; [|left; by right].
    destruct (r_cases p) as [E1|[E1|(? & ? & E1 & _)]]; [left; left; split; [done|]; exists c, t; split; [congruence|done]| |congruence].
    destruct (merged_inv _ _ _ _ _ _ Hc p (File c t)) as [(Hn & _)|[(He & _ & El)|(_ & _ & Er)]]; [congruence|by destruct Hn as (_ & ? & _)| |].
    - right. split; [done|congruence].
    - left; left. eauto 10.
  Qed.
  Lemma r_kind p n n' : r_at C m' p = Some n → merged p = Some n' → is_Dir n = is_Dir n'.
  Proof.
    intros E E'. destruct (r_cases p) as [E1|[E1|(? & ? & E1 & [E2|E2])]].
    - rewrite E1 in E. symmetry. by eapply merged_kind_at.
    - congruence.
    - simplify_eq. symmetry. by apply (merged_kind_at _ _ _ _ _ _ Hc p _ _ E' E2).
    - by simplify_eq.
  Qed.
  Lemma r_present p : is_Some (r_at C m p) → ¬ gone_l p → is_Some (r_at C m' p).
  Proof.
    intros [n Hn] Hg. destruct (r_at C m' p) as [n'|] eqn:E; [by eexists|]. destruct (r_none p E); [congruence|done].
  Qed.
  Lemma r_known p : known p → is_Some (r_at C m' p) → is_Some (r_at C m p).
  Proof.
    intros Hk [n E]. destruct (r_cases p) as [E1|[E1|(? & ? & E1 & [E2|E2])]]; [rewrite <- E1; by eexists| |by eexists|].
    - apply (merged_known _ _ _ _ _ _ Hc p Hk). rewrite <- E1. by eexists.
    - apply (merged_known _ _ _ _ _ _ Hc p Hk). by eexists.
  Qed.
  Lemma merged' p : like (Merge.merged C m' ldb last X p) (merged p).
  Proof.
    destruct (decide (known p)) as [Hk|Hk].
    - destruct (Merge.merged C m' ldb last X p) as [n|] eqn:Em.
      + assert (Hs : is_Some (l_at C m' p) ∧ is_Some (r_at C m' p)).
        { unfold Merge.merged in Em. destruct Hk as [d Hd]. rewrite Hd in Em.
          destruct (l_at C m' p) as [[]|], (r_at C m' p) as [[]|]; try done; by split; eexists. }
        destruct Hs as [Hl Hr]. pose proof (proj1 (l_some p) Hl) as Hl0. pose proof (r_known p Hk Hr) as Hr0.
        destruct (proj2 (merged_known _ _ _ _ _ _ Hc p Hk) (conj Hl0 Hr0)) as [n0 Hn0]. rewrite Hn0.
        destruct (l_cases p) as [E1|[(t & t' & E1 & E2)|(_ & _ & c & t & Hm & Er & El)]].
        * (* the local entry is the old one *)
          unfold Merge.merged in Em, Hn0. destruct Hk as [d Hd]. rewrite Hd, E1 in Em. rewrite Hd in Hn0.
          assert (Hmg : merged p = Some n0) by (unfold Merge.merged; by rewrite Hd).
          destruct Hr as [nr Hnr], Hr0 as [nr0 Hnr0]. rewrite Hnr in Em. rewrite Hnr0 in Hn0.
          destruct (l_at C m p) as [[c t|t k|t]|] eqn:El; [| | |by destruct Hl0].
          -- destruct (last <? t)%Z eqn:Et; [simplify_eq; done|].
             destruct (r_cases p) as [E|[E|(x & x0 & E & [E'|E'])]]; [assert (n = n0) as -> by congruence; apply like_refl..| |]; (assert (n = Dir x) as -> by congruence; assert (n0 = Dir x0) as -> by congruence; done).
          -- destruct (r_cases p) as [E|[E|(x & x0 & E & [E'|E'])]]; [assert (n = n0) as -> by congruence; apply like_refl..| |]; (assert (n = Dir x) as -> by congruence; assert (n0 = Dir x0) as -> by congruence; done).
          -- destruct (r_cases p) as [E|[E|(x & x0 & E & [E'|E'])]]; [assert (n = n0) as -> by congruence; apply like_refl..| |]; (assert (n = Dir x) as -> by congruence; assert (n0 = Dir x0) as -> by congruence; done).
        * assert (is_Dir n0 = true) as Hd0 by (by rewrite (merged_kind_l _ _ _ _ _ _ Hc p _ _ Hn0 E2)).
          unfold Merge.merged in Em. destruct Hk as [d Hd]. rewrite Hd, E1 in Em. destruct Hr as [nr Hnr]. rewrite Hnr in Em. simplify_eq.
          pose proof (r_kind p _ _ Hnr Hn0) as Hd1. rewrite Hd0 in Hd1. by destruct n, n0.
        * rewrite Hm in Hn0. simplify_eq. unfold Merge.merged in Em. destruct Hk as [d Hd]. rewrite Hd, Er in Em.
          destruct El as [El|[k El]]; rewrite El in Em; [destruct (last <? t)%Z|]; by simplify_eq.
      + destruct (merged p) as [n0|] eqn:Hn0; [|done]. exfalso.
        destruct (proj1 (merged_known _ _ _ _ _ _ Hc p Hk)) as [Hl0 Hr0]; [by eexists|].
        pose proof (proj2 (l_some p) Hl0) as [nl Hl]. destruct (r_present p Hr0) as [nr Hr].
        { intros [_ E]. rewrite E in Hl0. by apply is_Some_None in Hl0. }
        unfold Merge.merged in Em. destruct Hk as [d Hd]. rewrite Hd, Hl, Hr in Em. destruct nl; try done. by destruct (_ <? _)%Z.
    - assert (Hd : ldb !! p = None) by (by apply eq_None_not_Some).
      assert (E1 : like (l_at C m' p) (l_at C m p)).
      { destruct (l_cases p) as [->|[(? & ? & -> & ->)|(? & _)]]; [apply like_refl|done|done]. }
      unfold Merge.merged at 1. rewrite Hd.
      destruct (r_at C m' p) as [nr|] eqn:Er.
      + destruct (r_cases p) as [E|[E|(t & t' & E & [E'|E'])]].
        * rewrite (merged_new_r _ _ _ _ _ _ Hc p nr Hk) by congruence. destruct (l_at C m' p); apply like_refl.
        * rewrite <- E, Er. destruct (l_at C m' p); apply like_refl.
        * rewrite (merged_new_r _ _ _ _ _ _ Hc p _ Hk E'). simplify_eq. by destruct (l_at C m' p).
        * rewrite E'. simplify_eq. by destruct (l_at C m' p).
      + assert (Er0 : r_at C m p = None). { destruct (r_none p Er) as [?|[? _]]; done. }
        unfold Merge.merged. rewrite Hd, Er0. pose proof (stray' p) as Hs.
        destruct (l_at C m' p) as [nl|] eqn:El, (l_at C m p) as [nl0|] eqn:El0; try done; try (by destruct nl); try (by destruct nl0).
        * destruct (decide (Merge.stray C m' ldb X p)) as [Hy|Hy], (decide (stray p)) as [Hz|Hz]; try done; exfalso; tauto.
  Qed.
  Lemma calm' : calm_x C m' ldb rdb last X.
  Proof.
    constructor.
    - apply (bf_mounted _ _ _ _ _ _ B).
    - apply (cl_apart _ _ _ _ _ _ Hc).
    - apply (bf_util _ _ _ _ _ _ B).
    - destruct (cl_trash _ _ _ _ _ _ Hc) as [t Ht]. assert (trash_dir C ≠ []) as Hne by (unfold trash_dir; by destruct (util_dir C)).
      apply dir_at_lookup; [done|]. exists t. rewrite (bf_trash _ _ _ _ _ _ B) by done. by rewrite node_at_ne in Ht.
    - intros p Hp. apply l_none. by apply (cl_no_util _ _ _ _ _ _ Hc).
    - apply (cl_rows_l _ _ _ _ _ _ Hc).
    - apply (cl_rows_r _ _ _ _ _ _ Hc).
    - intros p b n Hb Hn. destruct (proj1 (l_some p)) as [n0 Hn0]; [by eexists|]. rewrite (l_kind p _ _ Hn Hn0). by eapply (cl_kind_l _ _ _ _ _ _ Hc).
    - intros p b n Hb Hn. destruct (r_cases p) as [E|[E|(t & t' & E & [E'|E'])]].
      + eapply (cl_kind_r _ _ _ _ _ _ Hc); [done|congruence].
      + rewrite Hn in E. symmetry in E. destruct Hb as [Hb|Hb].
        * destruct (ldb !! p) as [d|] eqn:Ed; [|done]. simplify_eq/=. by apply (merged_kind_known _ _ _ _ _ _ Hc p).
        * destruct (rdb !! p) as [d|] eqn:Ed; [|done]. simplify_eq/=. by apply (merged_kind_r _ _ _ _ _ _ Hc p).
      + simplify_eq. by apply (cl_kind_r _ _ _ _ _ _ Hc p b (Dir t')).
      + simplify_eq. destruct Hb as [Hb|Hb].
        * destruct (ldb !! p) as [d|] eqn:Ed; [|done]. simplify_eq/=. by apply (merged_kind_known _ _ _ _ _ _ Hc p (Dir t')).
        * destruct (rdb !! p) as [d|] eqn:Ed; [|done]. simplify_eq/=. by apply (merged_kind_r _ _ _ _ _ _ Hc p (Dir t')).
    - apply (cl_kind _ _ _ _ _ _ Hc).
    - intros p Hk Hr. apply (cl_listed _ _ _ _ _ _ Hc p Hk). by apply r_known.
    - intros p Hr. destruct (decide (known p)) as [Hk|Hk]; [by left|right]. destruct (cl_unlisted _ _ _ _ _ _ Hc p Hr) as [?|Hs]; [done|].
      apply r_present; [done|]. by intros [? _].
    - intros p t k E. destruct (r_cases p) as [E1|[E1|(? & ? & E1 & _)]]; [|..].
      + rewrite E1 in E. by apply (cl_link_r _ _ _ _ _ _ Hc) in E.
      + rewrite E1 in E. by apply (merged_no_link _ _ _ _ _ _ Hc) in E.
      + congruence.
    - intros p t k [E|?]%l_link; [|by left]. rewrite stray'. by apply (cl_link_l _ _ _ _ _ _ Hc p t k).
    - intros p Hp. rewrite l_some. destruct (cl_excluded_x _ _ _ _ _ _ Hc p Hp) as [Hl Hr]. split; [done|]. intros Hk. apply r_present; [by apply Hr|].
      intros [_ E]. rewrite E in Hl. by apply is_Some_None in Hl.
    - intros p x n Hp Hk Hn. destruct (bf_patterns _ _ _ _ _ _ B x n Hn) as [Hn'|?]; [|done]. by apply (cl_patterns _ _ _ _ _ _ Hc p x n).
    - intros p Hs%stray'. destruct (r_cases p) as [E1|[E1|(? & ? & E1 & [E2|E2])]].
      + rewrite E1. by apply (cl_stray _ _ _ _ _ _ Hc).
      + rewrite E1. by apply (merged_not_stray _ _ _ _ _ _ Hc).
      + rewrite (cl_stray _ _ _ _ _ _ Hc p Hs) in E2. done.
      + rewrite (merged_not_stray _ _ _ _ _ _ Hc p Hs) in E2. done.
    - intros p q Hs%stray' Hpre Hne Hq. rewrite stray'. destruct (cl_stray_up _ _ _ _ _ _ Hc p q Hs Hpre Hne Hq) as [?|[Hk Hr]]; [by left|right].
      split; [done|]. apply r_present; [done|]. intros [_ E]. destruct Hs as [[n Hn] _].
      destruct (l_at_up _ _ _ _ _ _ Hc p q n Hn Hpre Hne Hq) as [t Et]. congruence.
    - intros p q Hs%stray' Hpre Hl. rewrite stray'. apply (cl_stray_down _ _ _ _ _ _ Hc p q); [done|done|by apply l_some].
    - intros p x t k Hp Hx Hs%stray' E. destruct (l_link _ _ _ E) as [E'|[Hk _]].
      + by apply (cl_echo _ _ _ _ _ _ Hc p x t k).
      + by destruct Hs as (_ & ? & _).
    - intros p n n' Hk Hl Hr. destruct (proj1 (l_some p)) as [n0 Hn0]; [by eexists|]. rewrite (l_kind p _ _ Hl Hn0).
      destruct (r_cases p) as [E|[E|(t & t' & E & [E'|E'])]].
      + eapply (cl_new_kind _ _ _ _ _ _ Hc p); [done|done|congruence].
      + rewrite Hr in E. symmetry in E. symmetry. by apply (merged_kind_l _ _ _ _ _ _ Hc p).
      + simplify_eq. by apply (cl_new_kind _ _ _ _ _ _ Hc p n0 (Dir t')).
      + simplify_eq. symmetry. by apply (merged_kind_l _ _ _ _ _ _ Hc p (Dir t')).
    - intros p Hg. assert (gone_l p ∨ gone_r p) as Hg0.
      { destruct Hg as [Hg|Hg]; [left; by apply gone_l'|]. destruct (gone_r' p Hg); auto. }
      destruct (cl_gone _ _ _ _ _ _ Hc p Hg0) as [Hl Hr]. pose proof (merged_gone _ _ _ _ _ _ Hc p Hg0) as Em. split.
      + intros [?|(c & t & E & _)]%edited_l'; congruence || done.
      + intros [?|[? _]]%edited_r'; done.
    - intros p q Hg%gone_l' Hpre Hr. destruct (decide (known q)) as [|Hk]; [done|]. apply (cl_gone_l _ _ _ _ _ _ Hc p q Hg Hpre).
      destruct Hr as [n Hn]. assert (l_at C m q = None) as El.
      { apply (l_at_down _ _ _ _ _ _ Hc q p); [apply Hg| |done]. intros ->. by destruct (known_ours _ _ _ _ _ _ Hc [] (proj1 Hg)) as [? _]. }
      destruct (r_cases q) as [E|[E|(t & t' & E & [E'|E'])]]; [rewrite <- E; by eexists| |by eexists|].
      + destruct (proj1 (merged_unknown _ _ _ _ _ _ Hc q Hk)) as [[[? ?] _]|?]; [rewrite <- E; by eexists|congruence|done].
      + destruct (proj1 (merged_unknown _ _ _ _ _ _ Hc q Hk)) as [[[? ?] _]|?]; [by eexists|congruence|done].
    - intros p q Hg Hpre Hl%l_some. destruct (gone_r' p Hg) as [Hg0|Hg0]; [by apply (cl_gone_r _ _ _ _ _ _ Hc p q)|].
      exfalso. assert (l_at C m q = None) as El; [|rewrite El in Hl; by apply is_Some_None in Hl].
      apply (l_at_down _ _ _ _ _ _ Hc q p); [apply Hg0| |done]. intros ->. by destruct (known_ours _ _ _ _ _ _ Hc [] (proj1 Hg0)) as [? _].
    - intros p Hg%gone_l'. by apply (cl_deleted _ _ _ _ _ _ Hc).
    - intros p t Hn%new_l' Hl Hr. destruct (proj1 (l_some p)) as [n0 Hn0]; [by eexists|]. pose proof (l_kind p _ _ Hl Hn0) as Hd. destruct n0 as [| |t0]; try done.
      destruct (r_none p Hr) as [Hr0|[Hk _]]; [|by destruct Hn as (_ & ? & _)].
      destruct (cl_empty _ _ _ _ _ _ Hc p t0 Hn Hn0 Hr0) as [[x Hx]|Hx]; [left; exists x; by apply l_some|right; by apply new_l'].
    - intros Hi [p Hn%new_l']. destruct (cl_inflate _ _ _ _ _ _ Hc Hi) as (q & Hq & Hl & Hr); [by exists p|]. exists q. split; [done|].
      split; [by apply l_some|]. apply r_present; [done|]. intros [_ E]. rewrite E in Hl. by apply is_Some_None in Hl.
    - intros p q Hp%trashed' Hq%trashed'. by apply (cl_names _ _ _ _ _ _ Hc).
    - intros p x Hp%trashed' Hx. rewrite (bf_trash _ _ _ _ _ _ B) by by eexists. by apply (cl_free _ _ _ _ _ _ Hc p x).
    - intros x t k. rewrite (bf_trash _ _ _ _ _ _ B) by by eexists. apply (cl_trash_links _ _ _ _ _ _ Hc).
  Qed.
  Lemma clean' : clean_x C m' ldb rdb last X.
  Proof.
    split; [apply calm'|]. intros p (c & t & c' & t' & El & Er & Hne & Hcase).
    destruct (l_cases p) as [E1|[(? & ? & E1 & _)|(Hk & _ & c1 & t1 & Hm & Er1 & [El1|[k El1]])]]; [|congruence|congruence|congruence].
    rewrite E1 in El. assert (r_at C m p = Some (File c' t') → False) as Hno.
    { intros E. apply (cl_no_clash _ _ _ _ _ _ H p). exists c, t, c', t'. do 3 (split; [done|]). destruct Hcase as [[He1 He2]|Hk]; [left|by right].
      split.
      - destruct (edited_l' p He1) as [?|(c2 & t2 & _ & E2 & E3)]; [done|congruence].
      - destruct (edited_r' p He2) as [?|[_ E2]]; [done|congruence]. }
    destruct (r_cases p) as [E|[E|(? & ? & E & _)]]; [apply Hno; congruence| |congruence].
    rewrite Er in E. symmetry in E. destruct (merged_inv _ _ _ _ _ _ Hc p _ E) as [(_ & _ & E2)|[(_ & _ & E2)|(_ & _ & E2)]]; [congruence..|by apply Hno].
  Qed.
End half.
