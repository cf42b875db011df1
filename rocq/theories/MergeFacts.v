(** Facts about the three-way merge of a clean state. *)
From Coq Require Import QArith Qcanon.
From Verif Require Export Merge CutProofs DBInv InitProofs.
From stdpp Require Import options.

Lemma l_at_tree C m p : l_at C m p = tree m (c_L C) !! p.
Proof.
  unfold l_at. apply option_eq. intros n. rewrite tree_lookup. case_decide; naive_solver.
Qed.
Lemma r_at_tree C m p : r_at C m p = hide_util (tree m (c_R C)) !! p.
Proof.
  unfold r_at. apply option_eq. intros n. rewrite hide_util_lookup, tree_lookup. case_decide; naive_solver.
Qed.
Lemma l_at_ne C m p : p ≠ [] → l_at C m p = m !! (c_L C ++ p).
Proof. intros Hp. unfold l_at. by rewrite decide_False. Qed.
Lemma r_at_ne C m p : p ≠ [] → ¬ zielen_dir `prefix_of` p → r_at C m p = m !! (c_R C ++ p).
Proof. intros Hp Hz. unfold r_at. rewrite decide_False; [done|]. naive_solver. Qed.
Lemma l_at_some C m p n : l_at C m p = Some n ↔ p ≠ [] ∧ m !! (c_L C ++ p) = Some n.
Proof. unfold l_at. case_decide; naive_solver. Qed.
Lemma r_at_some C m p n : r_at C m p = Some n ↔ p ≠ [] ∧ ¬ zielen_dir `prefix_of` p ∧ m !! (c_R C ++ p) = Some n.
Proof. unfold r_at. case_decide; naive_solver. Qed.

Lemma prefix_strict_parent (q p : path) : q `prefix_of` p → q ≠ p → q `prefix_of` parent p.
Proof. apply prefix_parent_strict. Qed.
Lemma parent_prefix (p : path) : parent p `prefix_of` p.
Proof.
  destruct (decide (p = [])) as [->|Hp]; [done|]. destruct (exists_last Hp) as (q & x & ->).
  unfold parent. rewrite removelast_last. by exists [x].
Qed.
Lemma parent_ne (p : path) : p ≠ [] → parent p ≠ p.
Proof.
  intros Hp E. destruct (exists_last Hp) as (q & x & ->).
  unfold parent in E. rewrite removelast_last in E. apply (f_equal length) in E. rewrite app_length in E. cbn in E. lia.
Qed.
Lemma parent_len (p : path) : p ≠ [] → length (parent p) < length p.
Proof.
  intros Hp. destruct (exists_last Hp) as (q & x & ->).
  unfold parent. rewrite removelast_last, app_length. cbn. lia.
Qed.
(** Induction from the top. *)
Lemma path_ind_up (P : path → Prop) :
  P [] → (∀ p, p ≠ [] → P (parent p) → P p) → ∀ p, P p.
Proof.
  intros H0 HS p. induction p as [|x p IH] using rev_ind; [done|].
  apply HS; [by destruct p|]. unfold parent. by rewrite removelast_last.
Qed.
Lemma below_prefix (q p : path) : below q p ↔ p `prefix_of` q ∧ q ≠ p.
Proof.
  split.
  - intros (x & l & ->). split; [by eexists|]. intros E. apply (f_equal length) in E. rewrite app_length in E. cbn in E. lia.
  - intros [[k ->] Hne]. destruct k as [|x l]; [by rewrite app_nil_r in Hne|]. by exists x, l.
Qed.

Section decisions.
  Context (C : conf) (m : fs) (ldb : lmap) (X : pset).
  Global Instance known_dec p : Decision (known ldb p).
  Proof. unfold known. apply _. Defined.
  Global Instance gone_l_dec p : Decision (gone_l C m ldb p).
  Proof. unfold gone_l. apply _. Defined.
  Global Instance gone_r_dec p : Decision (gone_r C m ldb p).
  Proof. unfold gone_r. apply _. Defined.
  Global Instance new_l_dec p : Decision (new_l C m ldb X p).
  Proof. unfold new_l. apply _. Defined.
  Global Instance edited_l_dec last_sync p : Decision (edited_l C m ldb last_sync p).
  Proof.
    unfold edited_l. destruct (l_at C m p) as [[c t|t k|t]|]; [|right; by intros (_ & ? & ? & ? & _)..].
    destruct (decide (known ldb p ∧ (last_sync < t)%Z)) as [[Hk Ht]|Hn]; [left; split; eauto|right].
    intros (Hk & ? & ? & [= <- <-] & Ht). by apply Hn.
  Defined.
  Global Instance edited_r_dec rdb last_sync p : Decision (edited_r C m ldb rdb last_sync p).
  Proof.
    unfold edited_r. apply or_dec.
    - destruct (r_at C m p) as [[c t|t k|t]|]; [|right; by intros (_ & ? & ? & ? & _)..].
      destruct (decide (known ldb p ∧ (last_sync < t)%Z)) as [[Hk Ht]|Hn]; [left; split; eauto|right].
      intros (Hk & ? & ? & [= <- <-] & Ht). by apply Hn.
    - destruct (rdb !! p) as [d|]; [|right; by intros (? & ? & _)].
      destruct (decide (rd_dir d = false ∧ (last_sync < rd_last d)%Z)) as [[H1 H2]|Hn]; [left; eauto|right].
      intros (? & [= <-] & ? & ?). by apply Hn.
  Defined.
  Global Instance clash_dec rdb last_sync p : Decision (clash C m ldb rdb last_sync p).
  Proof.
    unfold clash. destruct (l_at C m p) as [[c t|t k|t]|]; [|right; by intros (? & ? & ? & ? & ? & _)..].
    destruct (r_at C m p) as [[c' t'|t' k|t']|]; [|right; by intros (? & ? & ? & ? & _ & ? & _)..].
    destruct (decide (File c t ≠ File c' t' ∧ ((edited_l C m ldb last_sync p ∧ edited_r C m ldb rdb last_sync p) ∨ ¬ known ldb p))) as [Hy|Hn]; [left|right].
    - by exists c, t, c', t'.
    - by intros (? & ? & ? & ? & [= <- <-] & [= <- <-] & ?).
  Defined.
End decisions.
Global Typeclasses Opaque known gone_l gone_r new_l stray edited_l edited_r clash.

Section facts.
  Set Default Proof Using "Type*".
  Context (C : conf) (m : fs) (ldb : lmap) (rdb : rmap) (last_sync : Z) (X : pset).
  Context (H : calm_x C m ldb rdb last_sync X).
  Local Notation L := (c_L C).
  Local Notation R := (c_R C).
  Local Notation l_at := (l_at C m).
  Local Notation r_at := (r_at C m).
  Local Notation known := (known ldb).
  Local Notation stray := (stray C m ldb X).
  Local Notation merged := (merged C m ldb last_sync X).
  Local Notation new_l := (new_l C m ldb X).
  Local Notation gone_l := (gone_l C m ldb).
  Local Notation gone_r := (gone_r C m ldb).
  Local Notation edited_l := (edited_l C m ldb last_sync).
  Local Notation edited_r := (edited_r C m ldb rdb last_sync).

  Lemma m_wf : wf_fs m.
  Proof. exact (mo_wf _ _ (cl_mounted _ _ _ _ _ _ H)). Qed.
  (** ** Trees *)
  Lemma l_at_up p q n : l_at p = Some n → q `prefix_of` p → q ≠ p → q ≠ [] → ∃ t, l_at q = Some (Dir t).
  Proof.
    rewrite l_at_some. intros [Hp Hn] Hq Hne Hq0. rewrite l_at_ne by done.
    apply dir_at_lookup; [by apply app_ne|]. eapply (wf_anc _ m_wf); [exact Hn|by apply prefix_app|].
    intros E. by apply app_inv_head in E.
  Qed.
  Lemma r_at_up p q n : r_at p = Some n → q `prefix_of` p → q ≠ p → q ≠ [] → ∃ t, r_at q = Some (Dir t).
  Proof.
    rewrite r_at_some. intros (Hp & Hz & Hn) Hq Hne Hq0.
    rewrite r_at_ne; [|done|intros Hz'; apply Hz; by etrans].
    apply dir_at_lookup; [by apply app_ne|]. eapply (wf_anc _ m_wf); [exact Hn|by apply prefix_app|].
    intros E. by apply app_inv_head in E.
  Qed.
  Lemma l_at_down p q : l_at q = None → q ≠ [] → q `prefix_of` p → l_at p = None.
  Proof.
    intros Hq Hq0 Hp. destruct (l_at p) as [n|] eqn:E; [|done]. destruct (decide (q = p)) as [->|Hne]; [congruence|].
    destruct (l_at_up _ _ _ E Hp Hne Hq0) as [t Ht]. congruence.
  Qed.
  Lemma r_at_down p q : r_at q = None → q ≠ [] → q `prefix_of` p → r_at p = None.
  Proof.
    intros Hq Hq0 Hp. destruct (r_at p) as [n|] eqn:E; [|done]. destruct (decide (q = p)) as [->|Hne]; [congruence|].
    destruct (r_at_up _ _ _ E Hp Hne Hq0) as [t Ht]. congruence.
  Qed.
  Lemma known_ours p : known p → ours p.
  Proof.
    intros [d Hd]. eapply (proj1 (cl_rows_l _ _ _ _ _ _ H p (ld_dir d) _)). Unshelve. cbn. by rewrite Hd.
  Qed.
  Lemma known_up p q : known p → q `prefix_of` p → q ≠ p → q ≠ [] → ld_dir <$> ldb !! q = Some true.
  Proof.
    revert q. induction p as [|p Hp IH] using path_ind_up; intros q Hk Hq Hne Hq0.
    - apply prefix_nil_inv in Hq. congruence.
    - destruct Hk as [d Hd]. destruct (cl_rows_l _ _ _ _ _ _ H p (ld_dir d)) as [_ [Ep|Ep]]; [cbn; by rewrite Hd|..].
      + apply prefix_strict_parent in Hq; [|done]. rewrite Ep in Hq. apply prefix_nil_inv in Hq. congruence.
      + destruct (decide (q = parent p)) as [->|Hne']; [done|].
        apply IH; [|by apply prefix_strict_parent|done|done].
        unfold Merge.known. destruct (ldb !! parent p); [by eexists|done].
  Qed.
  Lemma known_up' p q : known p → q `prefix_of` p → q ≠ [] → known q.
  Proof.
    intros Hk Hq Hq0. destruct (decide (q = p)) as [->|Hne]; [done|].
    pose proof (known_up _ _ Hk Hq Hne Hq0) as E. unfold Merge.known. destruct (ldb !! q); [by eexists|done].
  Qed.
  Lemma gone_l_down p q : gone_l q → known p → q `prefix_of` p → gone_l p.
  Proof. intros [Hk Hq] Hp Hpre. split; [done|]. eapply l_at_down; [exact Hq|apply (known_ours _ Hk)|done]. Qed.
  Lemma gone_r_down p q : gone_r q → known p → q `prefix_of` p → gone_r p.
  Proof. intros [Hk Hq] Hp Hpre. split; [done|]. eapply r_at_down; [exact Hq|apply (known_ours _ Hk)|done]. Qed.

  (** ** The cases of the merge *)
  Lemma merged_gone p : gone_l p ∨ gone_r p → merged p = None.
  Proof.
    unfold Merge.merged. intros [[[d ->] Hn]|[[d ->] Hn]]; rewrite Hn; by repeat case_match.
  Qed.
  Lemma merged_up p : new_l p → r_at p = None → merged p = l_at p.
  Proof.
    intros ([n Hn] & Hk & Hs) Hr. unfold Merge.merged. rewrite Hn, Hr.
    destruct (ldb !! p) as [d|] eqn:E; [destruct Hk; by eexists|]. by rewrite decide_False.
  Qed.
  Lemma edited_present p : edited_l p → is_Some (r_at p).
  Proof.
    intros Ed. destruct (r_at p) as [n|] eqn:E; [by eexists|]. exfalso.
    eapply (proj1 (cl_gone _ _ _ _ _ _ H p _)); exact Ed. Unshelve. right. split; [apply Ed|exact E].
  Qed.
  Lemma merged_edit p : edited_l p → merged p = l_at p.
  Proof.
    intros Ed. destruct (edited_present _ Ed) as [n' Hn']. destruct Ed as ([d Hd] & c & t & Hn & Ht).
    unfold Merge.merged. rewrite Hd, Hn, Hn'. apply Z.ltb_lt in Ht. by rewrite Ht.
  Qed.
  Lemma merged_new_r p n : ¬ known p → r_at p = Some n → merged p = Some n.
  Proof.
    intros Hk Hr. unfold Merge.merged. rewrite Hr.
    destruct (ldb !! p) as [d|] eqn:E; [destruct Hk; by eexists|]. by destruct (l_at p).
  Qed.
  Lemma merged_r p n : ¬ gone_l p → ¬ edited_l p → r_at p = Some n → merged p = Some n.
  Proof.
    intros Hg He Hr. unfold Merge.merged. rewrite Hr. destruct (ldb !! p) as [d|] eqn:E; [|by destruct (l_at p)].
    destruct (l_at p) as [[c t| |]|] eqn:El; [|done|done|].
    - destruct (last_sync <? t)%Z eqn:Et; [|done]. apply Z.ltb_lt in Et.
      destruct He. split; [by eexists|]. eauto.
    - destruct Hg. split; [by eexists|done].
  Qed.
  Lemma merged_inv p n : merged p = Some n →
    (new_l p ∧ r_at p = None ∧ l_at p = Some n)
    ∨ (edited_l p ∧ is_Some (r_at p) ∧ l_at p = Some n)
    ∨ (¬ edited_l p ∧ ¬ gone_l p ∧ r_at p = Some n).
  Proof.
    intros Hm. destruct (r_at p) as [n'|] eqn:Er.
    - unfold Merge.merged in Hm. rewrite Er in Hm. destruct (ldb !! p) as [d|] eqn:E.
      + destruct (l_at p) as [[c t| |]|] eqn:El; [|right; right..|done].
        * destruct (last_sync <? t)%Z eqn:Et.
          -- right; left. split; [|split; [by eexists|done]]. apply Z.ltb_lt in Et. split; [by eexists|]. eauto.
          -- right; right. split; [|split; [intros [_ ?]; congruence|done]]. apply Z.ltb_ge in Et.
             intros (_ & ? & ? & Heq & ?). rewrite El in Heq. injection Heq as ??; subst. lia.
        * split; [|split; [intros [_ ?]; congruence|done]]. intros (_ & ? & ? & Heq & ?). congruence.
        * split; [|split; [intros [_ ?]; congruence|done]]. intros (_ & ? & ? & Heq & ?). congruence.
      + assert (Hm' : Some n' = Some n) by (by destruct (l_at p)). right; right. split; [|split; [|by rewrite Hm']].
        * intros ([d Hd] & _). congruence.
        * intros ([d Hd] & _). congruence.
    - left. unfold Merge.merged in Hm. rewrite Er in Hm. destruct (ldb !! p) as [d|] eqn:E.
      + by destruct (l_at p) as [[]|].
      + destruct (l_at p) as [n'|] eqn:El; [|done]. case_decide as Hs; [done|]. injection Hm as ->.
        split; [|done]. split; [by eexists|]. split; [|done]. intros [d Hd]. congruence.
  Qed.
  Lemma merged_not_stray p : stray p → merged p = None.
  Proof.
    intros Hs. destruct (merged p) as [n|] eqn:E; [|done]. exfalso. pose proof (cl_stray _ _ _ _ _ _ H p Hs) as Hr.
    destruct (merged_inv _ _ E) as [(Hn & _)|[(_ & Hr' & _)|(_ & _ & Hr')]]; [by apply Hn|..]; rewrite Hr in Hr'; [by destruct Hr'|done].
  Qed.
  Lemma merged_unknown p : ¬ known p → is_Some (merged p) ↔ new_l p ∨ is_Some (r_at p).
  Proof.
    intros Hk. split.
    - intros [n Hn]. destruct (merged_inv _ _ Hn) as [(? & _)|[(? & ? & _)|(_ & _ & ?)]]; [by left|by right|right; by eexists].
    - intros [Hn|[n Hn]].
      + destruct (r_at p) as [n|] eqn:E; [exists n; by apply merged_new_r|]. rewrite (merged_up _ Hn E). apply Hn.
      + exists n. by apply merged_new_r.
  Qed.
  Lemma merged_known p : known p → is_Some (merged p) ↔ is_Some (l_at p) ∧ is_Some (r_at p).
  Proof.
    intros Hk. split.
    - intros [n Hn]. destruct (l_at p) eqn:El; [|rewrite merged_gone in Hn; [done|by left]].
      destruct (r_at p) eqn:Er; [|rewrite merged_gone in Hn; [done|by right]]. done.
    - intros [[n Hn] [n' Hn']]. unfold Merge.merged. destruct Hk as [d ->]. rewrite Hn, Hn'.
      destruct n; [|done..]. case_match; done.
  Qed.
  (** The kinds of entries. *)
  Lemma merged_no_link p t k : merged p ≠ Some (Link t k).
  Proof.
    intros Hm. destruct (merged_inv _ _ Hm) as [(Hn & _ & Hl)|[(He & _ & Hl)|(_ & _ & Hr)]].
    - destruct Hn as (_ & Hn1 & Hn2). destruct (cl_link_l _ _ _ _ _ _ H _ _ _ Hl) as [[Hk _]|Hs]; auto.
    - destruct He as (_ & c & u & Hc & _). congruence.
    - by apply (cl_link_r _ _ _ _ _ _ H) in Hr.
  Qed.
  Lemma merged_kind_known p n d : ldb !! p = Some d → merged p = Some n → is_Dir n = ld_dir d.
  Proof.
    intros Hd Hm. destruct (merged_inv _ _ Hm) as [(Hn & _ & Hl)|[(He & _ & Hl)|(_ & _ & Hr)]].
    - destruct Hn as (_ & Hk & _). destruct Hk. by eexists.
    - eapply (cl_kind_l _ _ _ _ _ _ H); [|exact Hl]. cbn. by rewrite Hd.
    - eapply (cl_kind_r _ _ _ _ _ _ H); [|exact Hr]. left. cbn. by rewrite Hd.
  Qed.
  Lemma merged_kind_r p n d : rdb !! p = Some d → merged p = Some n → is_Dir n = rd_dir d.
  Proof.
    intros Hd Hm. destruct (decide (known p)) as [[d' Hk]|Hk].
    - rewrite (merged_kind_known _ _ _ Hk Hm). eapply (cl_kind _ _ _ _ _ _ H p); cbn; [by rewrite Hk|by rewrite Hd].
    - destruct (merged_inv _ _ Hm) as [(Hn & Hr & Hl)|[(He & _ & Hl)|(_ & _ & Hr)]].
      + destruct (cl_unlisted _ _ _ _ _ _ H p) as [?|Hr']; [by eexists|done|]. rewrite Hr in Hr'. by destruct Hr'.
      + by destruct He.
      + eapply (cl_kind_r _ _ _ _ _ _ H); [|exact Hr]. right. cbn. by rewrite Hd.
  Qed.
  (** The kinds of the entries of both sides are those of the merge. *)
  Lemma merged_kind_l p n n' : merged p = Some n → l_at p = Some n' → is_Dir n = is_Dir n'.
  Proof.
    intros Hm Hl. destruct (decide (known p)) as [[d Hd]|Hk].
    - rewrite (merged_kind_known _ _ _ Hd Hm). symmetry. eapply (cl_kind_l _ _ _ _ _ _ H); [|exact Hl]. cbn. by rewrite Hd.
    - destruct (merged_inv _ _ Hm) as [(Hn & Hr & Hl')|[(He & _ & Hl')|(_ & _ & Hr)]]; [congruence..|].
      symmetry. by apply (cl_new_kind _ _ _ _ _ _ H p).
  Qed.
  Lemma merged_kind_at p n n' : merged p = Some n → r_at p = Some n' → is_Dir n = is_Dir n'.
  Proof.
    intros Hm Hr. destruct (merged_inv _ _ Hm) as [(Hn & Hr' & Hl')|[(He & _ & Hl')|(_ & _ & Hr')]]; [congruence| |congruence].
    destruct He as [[d Hd] _]. rewrite (merged_kind_known _ _ _ Hd Hm). symmetry. eapply (cl_kind_r _ _ _ _ _ _ H); [|exact Hr]. left. cbn. by rewrite Hd.
  Qed.

  (** ** Conflicts *)
  Lemma clash_edited p : edited_l p → edited_r p → (∃ c t, l_at p = Some (File c t) ∧ r_at p = Some (File c t)) ∨ clash C m ldb rdb last_sync p.
  Proof.
    intros He Hr. destruct (edited_present _ He) as [n' Hn']. pose proof He as ([d Hd] & c & t & Hn & _).
    assert (ld_dir <$> ldb !! p = Some false) as Ed. { rewrite Hd. cbn. f_equal. symmetry. apply (cl_kind_l _ _ _ _ _ _ H p _ (File c t)); [by rewrite Hd|done]. }
    pose proof (cl_kind_r _ _ _ _ _ _ H p false n' (or_introl Ed) Hn'). destruct n' as [c' t'|t' k|]; [|by apply (cl_link_r _ _ _ _ _ _ H) in Hn'|done].
    destruct (decide (File c t = File c' t')) as [E|Hne]; [left; simplify_eq; eauto|right]. exists c, t, c', t'. do 3 (split; [done|]). auto.
  Qed.
  Lemma clash_new p n n' : ¬ known p → l_at p = Some n → r_at p = Some n' → is_Dir n = false ∨ is_Dir n' = false →
    (∃ c t, n = File c t ∧ n' = File c t) ∨ clash C m ldb rdb last_sync p.
  Proof.
    intros Hk Hn Hn' Hd. pose proof (cl_new_kind _ _ _ _ _ _ H p n n' Hk Hn Hn').
    destruct n' as [c' t'|t' k|]; [|by apply (cl_link_r _ _ _ _ _ _ H) in Hn'|cbn in *; destruct Hd; congruence].
    destruct n as [c t|t k|]; [|by destruct (cl_link_l _ _ _ _ _ _ H p t k Hn) as [[? _]|Hs]; [|rewrite (cl_stray _ _ _ _ _ _ H p Hs) in Hn']|done].
    destruct (decide (File c t = File c' t')) as [E|Hne]; [left; simplify_eq; eauto|right]. exists c, t, c', t'. do 3 (split; [done|]). auto.
  Qed.

  (** ** The merge is a tree *)
  Lemma new_l_below p q : new_l q → q `prefix_of` p → is_Some (l_at p) → new_l p.
  Proof.
    intros Hn Hpre Hp. destruct (decide (q = p)) as [->|Hne]; [done|].
    assert (Hq0 : q ≠ []). { destruct Hn as [[n Hn] _]. by apply l_at_some in Hn as [? _]. }
    split; [done|]. split.
    - intros Hk. destruct Hn as (_ & Hn1 & _). apply Hn1. by apply (known_up' p).
    - intros Hs. destruct (cl_stray_up _ _ _ _ _ _ H p q Hs Hpre Hne Hq0) as [?|[? _]]; destruct Hn as (_ & Hn1 & Hn2); auto.
  Qed.
  Lemma merged_ours p n : merged p = Some n → ours p.
  Proof.
    intros Hm. destruct (merged_inv _ _ Hm) as [(Hn & Hr & Hl)|[(He & [n' Hr] & Hl)|(_ & _ & Hr)]].
    - pose proof Hl as Hl'. apply l_at_some in Hl' as [Hp Hl']. split; [done|]. split.
      + apply (wf_valid _ m_wf) in Hl'. by apply valid_app in Hl' as [_ ?].
      + intros Hz. by rewrite (cl_no_util _ _ _ _ _ _ H p Hz) in Hl.
    - apply known_ours. apply He.
    - apply r_at_some in Hr as (Hp & Hz & Hr). split; [done|]. split; [|done]. apply (wf_valid _ m_wf) in Hr. by apply valid_app in Hr as [_ ?].
  Qed.
  Lemma merged_parent p n : merged p = Some n → parent p = [] ∨ ∃ t, merged (parent p) = Some (Dir t).
  Proof.
    intros Hm. destruct (decide (parent p = [])) as [|Hq0]; [by left|right].
    pose proof (merged_ours _ _ Hm) as (Hp0 & _ & Hz).
    pose proof (parent_prefix p) as Hpre. pose proof (parent_ne p Hp0) as Hne.
    assert (Hdir : ∀ n', merged (parent p) = Some n' → is_Dir n' = true → ∃ t, merged (parent p) = Some (Dir t)).
    { intros n' Hn' Hd. apply is_Dir_true in Hd as [t ->]. by exists t. }
    destruct (decide (known p)) as [Hk|Hk].
    { (* a known path: the parent is known, and on both sides *)
      pose proof (known_up _ _ Hk Hpre Hne Hq0) as Hkp. pose proof (known_up' _ _ Hk Hpre Hq0) as Hkp'.
      assert (is_Some (merged p)) as Hs by by eexists. apply (merged_known _ Hk) in Hs as [[nl Hl] [nr Hr]].
      destruct (l_at_up _ _ _ Hl Hpre Hne Hq0) as [tl Htl]. destruct (r_at_up _ _ _ Hr Hpre Hne Hq0) as [tr Htr].
      destruct (proj2 (merged_known _ Hkp')) as [n' Hn']; [rewrite Htl, Htr; split; by eexists|].
      apply (Hdir _ Hn'). destruct (ldb !! parent p) as [d|] eqn:Ed; [|by destruct Hkp'].
      rewrite (merged_kind_known _ _ _ Ed Hn'). by injection Hkp. }
    destruct (merged_inv _ _ Hm) as [(Hn & Hr & Hl)|[(He & _)|(_ & _ & Hr)]]; [|by destruct He|].
    - (* new on the local side *)
      destruct (l_at_up _ _ _ Hl Hpre Hne Hq0) as [tl Htl].
      assert (is_Some (merged (parent p))) as [n' Hn'].
      { destruct (decide (known (parent p))) as [Hkp|Hkp].
        - apply (merged_known _ Hkp). rewrite Htl. split; [by eexists|].
          destruct (r_at (parent p)) as [n'|] eqn:Er; [by eexists|]. exfalso.
          apply Hk. eapply (cl_gone_r _ _ _ _ _ _ H (parent p)); [by split|done|by eexists].
        - apply (merged_unknown _ Hkp). left. split; [by eexists|]. split; [done|]. intros Hs.
          destruct Hn as (_ & _ & Hn2). apply Hn2. eapply (cl_stray_down _ _ _ _ _ _ H); [exact Hs|done|by eexists]. }
      apply (Hdir _ Hn'). by rewrite (merged_kind_l _ _ _ Hn' Htl).
    - (* new on the remote side *)
      destruct (r_at_up _ _ _ Hr Hpre Hne Hq0) as [tr Htr].
      assert (is_Some (merged (parent p))) as [n' Hn'].
      { destruct (decide (known (parent p))) as [Hkp|Hkp].
        - apply (merged_known _ Hkp). rewrite Htr. split; [|by eexists].
          destruct (l_at (parent p)) as [n'|] eqn:El; [by eexists|]. exfalso.
          apply Hk. eapply (cl_gone_l _ _ _ _ _ _ H (parent p)); [by split|done|by eexists].
        - apply (merged_unknown _ Hkp). right. by eexists. }
      apply (Hdir _ Hn'). by rewrite (merged_kind_at _ _ _ Hn' Htr).
  Qed.
  Lemma merged_anc p q n : merged p = Some n → q `prefix_of` p → q ≠ p → q ≠ [] → ∃ t, merged q = Some (Dir t).
  Proof.
    revert q n. induction p as [|p Hp IH] using path_ind_up; intros q n Hm Hq Hne Hq0.
    - apply prefix_nil_inv in Hq. congruence.
    - destruct (merged_parent _ _ Hm) as [Ep|[t Ht]].
      + apply prefix_strict_parent in Hq; [|done]. rewrite Ep in Hq. apply prefix_nil_inv in Hq. congruence.
      + destruct (decide (q = parent p)) as [->|Hne']; [by exists t|].
        by apply (IH _ _ Ht); [apply prefix_strict_parent|..].
  Qed.
  (** A path of the local directory that is neither merged nor stray is deleted. *)
  Lemma not_merged_l p : merged p = None → ¬ stray p → is_Some (l_at p) → gone_r p.
  Proof.
    intros Hm Hs Hl. destruct (decide (known p)) as [Hk|Hk].
    - split; [done|]. destruct (r_at p) eqn:E; [|done]. exfalso.
      destruct (proj2 (merged_known _ Hk)) as [? ?]; [|congruence]. rewrite E. split; [done|by eexists].
    - exfalso. destruct (proj2 (merged_unknown _ Hk)) as [? ?]; [|congruence]. by left.
  Qed.
  Lemma not_merged_r p : merged p = None → is_Some (r_at p) → gone_l p.
  Proof.
    intros Hm Hr. destruct (decide (known p)) as [Hk|Hk].
    - split; [done|]. destruct (l_at p) eqn:E; [|done]. exfalso.
      destruct (proj2 (merged_known _ Hk)) as [? ?]; [|congruence]. rewrite E. split; [by eexists|done].
    - exfalso. destruct (proj2 (merged_unknown _ Hk)) as [? ?]; [|congruence]. by right.
  Qed.
  (** Below a deleted path everything is deleted. *)
  Lemma gone_l_r p q : gone_l q → q `prefix_of` p → is_Some (r_at p) → gone_l p.
  Proof. intros Hg Hpre Hr. eapply gone_l_down; [exact Hg| |done]. by eapply (cl_gone_l _ _ _ _ _ _ H). Qed.
  Lemma gone_r_l p q : gone_r q → q `prefix_of` p → is_Some (l_at p) → gone_r p.
  Proof. intros Hg Hpre Hr. eapply gone_r_down; [exact Hg| |done]. by eapply (cl_gone_r _ _ _ _ _ _ H). Qed.
End facts.
Section changed.
  Context (C : conf) (m : fs) (ldb : lmap) (rdb : rmap) (last_sync : Z) (X : pset) (H : calm_x C m ldb rdb last_sync X).
  (** All paths that have changed are merged. *)
  Lemma changed_merged p : new_l C m ldb X p ∨ (¬ known ldb p ∧ is_Some (r_at C m p)) ∨ edited_l C m ldb last_sync p ∨ edited_r C m ldb rdb last_sync p → is_Some (merged C m ldb last_sync X p).
  Proof.
    intros [Hn|[[Hk Hr]|[Hn|Hn]]].
    - apply (merged_unknown _ _ _ _ _ _ H); [apply Hn|by left].
    - apply (merged_unknown _ _ _ _ _ _ H); [done|by right].
    - rewrite (merged_edit _ _ _ _ _ _ H) by done. destruct Hn as (_ & c & t & -> & _). by eexists.
    - destruct (decide (known ldb p)) as [Hk|Hk].
      + apply (merged_known _ _ _ _ _ _ H); [done|].
        destruct (l_at C m p) eqn:El; [|by destruct (proj2 (cl_gone _ _ _ _ _ _ H p (or_introl (conj Hk El)))); auto].
        destruct (r_at C m p) eqn:Er; [|by destruct (proj2 (cl_gone _ _ _ _ _ _ H p (or_intror (conj Hk Er)))); auto].
        split; by eexists.
      + apply (merged_unknown _ _ _ _ _ _ H); [done|right]. destruct Hn as [[? _]|(d & Hd & _)]; [done|].
        destruct (cl_unlisted _ _ _ _ _ _ H p) as [?|?]; [by eexists|done|done].
  Qed.
End changed.
Section no_clash.
  Context (C : conf) (m : fs) (ldb : lmap) (rdb : rmap) (last_sync : Z) (X : pset).
  Lemma cl_new : clean_x C m ldb rdb last_sync X → ∀ p n n', ¬ known ldb p → l_at C m p = Some n → r_at C m p = Some n' →
    (is_Dir n = true ∧ is_Dir n' = true) ∨ ∃ c t, n = File c t ∧ n' = File c t.
  Proof.
    intros H p n n' Hk Hn Hn'. pose proof (clash_new _ _ _ _ _ _ H p n n' Hk Hn Hn') as Hc. pose proof (cl_no_clash _ _ _ _ _ _ H p).
    destruct (is_Dir n) eqn:E, (is_Dir n') eqn:E'; naive_solver.
  Qed.
  Lemma cl_edited : clean_x C m ldb rdb last_sync X → ∀ p, edited_l C m ldb last_sync p → edited_r C m ldb rdb last_sync p →
    ∃ c t, l_at C m p = Some (File c t) ∧ r_at C m p = Some (File c t).
  Proof. intros H p He Hr. destruct (clash_edited _ _ _ _ _ _ H p He Hr) as [?|Hc]; [done|]. by apply (cl_no_clash _ _ _ _ _ _ H p) in Hc. Qed.
  (** The same with the conditions spelled out. *)
  Lemma clean_intro : calm C m ldb rdb last_sync X →
    (∀ p n n', ¬ known ldb p → l_at C m p = Some n → r_at C m p = Some n' → is_Dir n = true ∧ is_Dir n' = true) →
    (∀ p, edited_l C m ldb last_sync p → ¬ edited_r C m ldb rdb last_sync p) → clean C m ldb rdb last_sync X.
  Proof.
    intros Hc Hn He. split; [|apply Hc]. split; [exact (cl_calm _ _ _ _ _ _ Hc)|]. intros p (c & t & c' & t' & Hl & Hr & _ & [[H1 H2]|Hk]); [by apply (He p)|]. by destruct (Hn p _ _ Hk Hl Hr).
  Qed.
End no_clash.
