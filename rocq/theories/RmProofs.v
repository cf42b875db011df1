(** Facts about renaming, removing trees, and about paths that are gone. *)
From Verif Require Export FstoolsProofs TransferProofs FSDec.
From stdpp Require Import options.

(** ** A file system without modification times *)
Definition shape (m : fs) : fs := set_mtime 0 <$> m.
Lemma set_mtime_set a b n : set_mtime a (set_mtime b n) = set_mtime a n.
Proof. by destruct n. Qed.
Lemma is_Dir_mtime a n : is_Dir (set_mtime a n) = is_Dir n.
Proof. by destruct n. Qed.
Lemma shape_insert m q n t : m !! q = Some n → shape (<[q := set_mtime t n]> m) = shape m.
Proof.
  intros Hq. unfold shape. rewrite fmap_insert, set_mtime_set. apply insert_id. by rewrite lookup_fmap, Hq.
Qed.
Lemma shape_lookup m m' k : shape m = shape m' → set_mtime 0 <$> m !! k = set_mtime 0 <$> m' !! k.
Proof. unfold shape. intros E. by rewrite <-!lookup_fmap, E. Qed.
Lemma shape_some m m' k n : shape m = shape m' → m !! k = Some n → ∃ n', m' !! k = Some n' ∧ set_mtime 0 n' = set_mtime 0 n.
Proof.
  intros E Hk. apply (shape_lookup _ _ k) in E. rewrite Hk in E. destruct (m' !! k) as [n'|]; [|done].
  injection E as E. eauto.
Qed.
Lemma shape_none m m' k : shape m = shape m' → m !! k = None → m' !! k = None.
Proof. intros E Hk. apply (shape_lookup _ _ k) in E. rewrite Hk in E. by destruct (m' !! k). Qed.
Lemma shape_is_Dir n n' : set_mtime 0 n' = set_mtime 0 n → is_Dir n' = is_Dir n.
Proof. by destruct n, n'. Qed.
Lemma shape_dir_at m m' d : shape m = shape m' → dir_at m d → dir_at m' d.
Proof.
  intros E [t Ht]. destruct (decide (d = [])) as [->|Hn]; [apply dir_at_nil|].
  rewrite node_at_ne in Ht by done. destruct (shape_some m m' d _ E Ht) as (n' & Hn' & En).
  apply dir_at_lookup; [done|]. apply shape_is_Dir, is_Dir_true in En as [t' ->]. eauto.
Qed.
Lemma wf_shape m m' : shape m = shape m' → wf_fs m → wf_fs m'.
Proof.
  intros E Hwf p n Hp. destruct (shape_some m' m p n (eq_sym E) Hp) as (n' & Hn' & _).
  apply Hwf in Hn' as (? & ? & ?). split; [done|]. split; [done|]. by eapply shape_dir_at.
Qed.

(** ** Modification times *)
Lemma update_mtime_wp (now : Z) (I : fs → Prop) (p : path) (Q : res unit → fs → Prop) m n :
  wf_fs m → m !! p = Some n →
  (∀ m', shape m' = shape m → (is_Link n = false → m' !! p = Some (set_mtime now n) ∧ ∀ k, k ≠ p → m' !! k = m !! k) → I m' ∧ Q (Ok tt) m') →
  wp (update_mtime now p) I Q m.
Proof.
  intros Hwf Hp H. destruct (Hwf p n Hp) as (Hne & Hv & Hd). unfold update_mtime. apply wp_bind, wp_get.
  assert (is_Link n = false → resolve true m p = Ok p) as Hr.
  { intros Hl. apply resolve_follow; [done..|]. intros t i E. rewrite Hp in E. by injection E as ->. }
  destruct (isdir m p) eqn:Ed.
  - unfold isdir, stat in Ed. destruct (resolve true m p) as [q|] eqn:Er; [|done].
    destruct (node_at m q) as [k|] eqn:Ek; [|done]. unfold utime. apply wp_bind, wp_eval. rewrite Er. apply wp_bind, wp_get.
    rewrite Ek. case_bool_decide as Hq.
    { apply wp_ret. apply H; [done|]. intros Hl. specialize (Hr Hl). injection Hr as E. congruence. }
    rewrite node_at_ne in Ek by done.
    assert (is_Link n = false → <[q:=set_mtime now k]> m !! p = Some (set_mtime now n) ∧ ∀ k', k' ≠ p → <[q:=set_mtime now k]> m !! k' = m !! k') as He.
    { intros Hl. specialize (Hr Hl). injection Hr as ->. split.
      - rewrite lookup_insert. congruence.
      - intros k' Hk'. by rewrite lookup_insert_ne by done. }
    apply wp_put; (apply H; [by apply shape_insert|done]).
  - apply wp_bind, wp_get. destruct (exists_ m p) eqn:Ex.
    + eapply utime_wp; [by apply resolve_nofollow|done|done| |];
        (apply H; [by apply shape_insert|intros _; split; [by rewrite lookup_insert|intros k Hk; by rewrite lookup_insert_ne by done]]).
    + apply wp_ret. apply H; [done|]. intros Hl. unfold exists_, stat in Ex. rewrite (Hr Hl), node_at_ne, Hp in Ex; done.
Qed.

(** ** Paths that are gone *)
Lemma resolve_gone m f p : wf_fs m → valid_comps p → dirs_ok m (parent p) → ¬ dir_at m (parent p) → resolve f m p = Err FileNotFound.
Proof.
  intros Hwf Hv Hok Hnd.
  assert (∀ n, namei n f m [] p = Err FileNotFound) as G; [|apply G]. intros n.
  assert (∃ a c r, parent p = a ++ c :: r ∧ dir_at m a ∧ m !! (a ++ [c]) = None) as (a & c & r & E & Ha & Hc).
  { revert Hok Hnd. induction (parent p) as [|x q IH] using rev_ind; intros Hok Hnd; [by destruct Hnd; apply dir_at_nil|].
    destruct (decide (is_Some (m !! q) ∨ q = [])) as [Hq|Hq].
    - exists q, x, []. split; [done|].
      assert (dir_at m q) as Hdq.
      { destruct (decide (q = [])) as [->|Hqn]; [apply dir_at_nil|]. destruct Hq as [[k Hk]|?]; [|done].
        destruct (Hok q Hqn) as [?|?]; [by apply prefix_app_r|congruence|done]. }
      split; [done|]. destruct (Hok (q ++ [x])) as [?|?]; [by destruct q|done|done|done].
    - destruct IH as (a & c & r & -> & Ha & Hc).
      + intros z Hz Hpre. apply Hok; [done|]. by apply prefix_app_r.
      + intros [t Ht]. apply Hq. destruct (decide (q = [])); [by right|]. left. rewrite node_at_ne in Ht by done. eauto.
      + exists a, c, (r ++ [x]). by rewrite <-app_assoc. }
  assert (p ≠ []) as Hp by (intros ->; by destruct a).
  destruct (snoc_parent p Hp) as [x Hx]. rewrite Hx, E, <-app_assoc. simpl.
  rewrite Hx, E in Hv. apply valid_app in Hv as [Hv _]. apply valid_app in Hv as [Hva Hvc]. inversion_clear Hvc as [|?? Hcv _].
  rewrite namei_dirs; [|done|].
  - change ([] ++ a) with a. destruct n; simpl; rewrite bool_decide_false by (by intros ->; destruct Hcv as (_ & _ & _ & ?));
      rewrite Hc; by destruct r.
  - intros q Hq Hpre. by apply (wf_dir_anc m Hwf a q).
Qed.
Lemma remove_gone_wp (I : fs → Prop) (p : path) (Q : res unit → fs → Prop) m :
  wf_fs m → valid_comps p → p ≠ [] → dirs_ok m (parent p) → m !! p = None → Q (Err FileNotFound) m → wp (remove p) I Q m.
Proof.
  intros Hwf Hv Hp Hok Hn HQ. unfold remove. apply wp_bind, wp_eval.
  destruct (decide (dir_at m (parent p))) as [Hd|Hd].
  - rewrite resolve_nofollow by done. apply wp_bind, wp_get. rewrite node_at_ne, Hn by done. by apply wp_throw.
  - by rewrite resolve_gone.
Qed.
Lemma remove_dir_wp (I : fs → Prop) (p : path) (Q : res unit → fs → Prop) m :
  wf_fs m → dir_at m p → Q (Err IsADir) m → wp (remove p) I Q m.
Proof.
  intros Hwf Hd HQ. unfold remove. apply wp_bind, wp_eval. rewrite resolve_dir by done. apply wp_bind, wp_get.
  destruct Hd as [t ->]. by apply wp_throw.
Qed.

(** ** rmtree *)
Definition without (q : path) (m : fs) : fs := filter (λ kn, ¬ q `prefix_of` kn.1) m.
Lemma without_lookup q m k : without q m !! k = if decide (q `prefix_of` k) then None else m !! k.
Proof.
  unfold without. destruct (decide _) as [H|H].
  - apply map_filter_lookup_None. right. intros n _ Hn. by apply Hn.
  - destruct (m !! k) as [n|] eqn:E; [by apply map_filter_lookup_Some|]. apply map_filter_lookup_None. by left.
Qed.
Lemma wf_without q m : wf_fs m → wf_fs (without q m).
Proof.
  intros Hwf p n Hp. rewrite without_lookup in Hp. destruct (decide _) as [|Hq]; [done|].
  apply Hwf in Hp as (H1 & H2 & [t Ht]). split; [done|]. split; [done|].
  destruct (decide (parent p = [])) as [->|Hn]; [apply dir_at_nil|]. rewrite node_at_ne in Ht by done.
  apply dir_at_lookup; [done|]. exists t. rewrite without_lookup, decide_False; [done|].
  intros Hpre. apply Hq. destruct (snoc_parent p H1) as [x Hx]. rewrite Hx. by apply prefix_app_r.
Qed.
(** Part of the tree at [q] is gone. *)
Definition part_gone (q : path) (m m' : fs) : Prop :=
  wf_fs m' ∧ (∀ k, ¬ q `prefix_of` k → m' !! k = m !! k) ∧ (∀ k, m' !! k = m !! k ∨ m' !! k = None).
Lemma rmtree_wp (I : fs → Prop) (q : path) (Q : res unit → fs → Prop) m :
  wf_fs m → dir_at m q → q ≠ [] → (∀ m', part_gone q m m' → I m') → Q (Ok tt) (without q m) → wp (rmtree q) I Q m.
Proof.
  intros Hwf Hd Hq HI HQ. unfold rmtree. apply wp_bind, wp_eval. rewrite resolve_dir by done. apply wp_bind, wp_get.
  destruct Hd as [t Ht]. rewrite Ht. apply wp_bind, wp_get.
  set (ks := subtree m q).
  assert (∀ k, k ∈ ks ↔ q `prefix_of` k ∧ is_Some (m !! k)) as Hks.
  { intros k. unfold ks, subtree. rewrite elem_of_isort, elem_of_elements, elem_of_filter, elem_of_dom. done. }
  apply (wp_for_inv I ks _ (λ pre m', wf_fs m' ∧ ∀ k, m' !! k = if decide (k ∈ pre) then None else m !! k)).
  - split; [done|]. intros k. by rewrite decide_False by apply not_elem_of_nil.
  - intros pre k rest m' El (Hwf' & Hm').
    assert (∀ k', delete k m' !! k' = if decide (k' ∈ pre ++ [k]) then None else m !! k') as Hdel.
    { intros k'. destruct (decide (k = k')) as [<-|Hne].
      - rewrite lookup_delete, decide_True by set_solver. done.
      - rewrite lookup_delete_ne, Hm' by done. destruct (decide (k' ∈ pre)); [by rewrite decide_True by set_solver|].
        rewrite decide_False; [done|]. set_solver. }
    assert (wf_fs (delete k m')) as Hwf2.
    { apply wf_delete; [done|]. intros c n Hc Hch. rewrite Hm' in Hc. destruct (decide (c ∈ pre)) as [|Hcp]; [done|].
      assert (c ∈ ks) as Hck.
      { apply Hks. split; [|eauto]. assert (k ∈ ks) as Hk by (rewrite El; set_solver). apply Hks in Hk as [Hk _].
        apply child_parent in Hch as [? <-]. destruct (snoc_parent c) as [x Hx]; [done|]. rewrite Hx. by apply prefix_app_r. }
      rewrite El in Hck. apply elem_of_app in Hck as [?|Hck]; [done|]. apply elem_of_cons in Hck as [->|Hck].
      { apply child_length in Hch. lia. }
      assert (StronglySorted (PySort.le depth_ge) ks) as Hs by apply depth_ge_sorted.
      rewrite El in Hs. clear -Hs Hck Hch. induction pre as [|y pre IH]; simpl in Hs; inversion_clear Hs as [|?? Hs' Hf]; [|by apply IH].
      rewrite Forall_forall in Hf. specialize (Hf c Hck). unfold PySort.le, depth_ge in Hf. apply Nat.leb_le in Hf.
      apply child_length in Hch. lia. }
    apply wp_put; [|by split]. apply HI. split; [done|]. split.
    + intros k' Hk'. rewrite Hdel, decide_False; [done|]. intros Hin. apply Hk'.
      assert (k' ∈ ks) as H by (rewrite El; set_solver). by apply Hks in H as [? _].
    + intros k'. rewrite Hdel. destruct (decide _); auto.
  - intros m' (_ & Hm'). assert (m' = without q m) as ->; [|done]. apply map_eq. intros k. rewrite Hm', without_lookup.
    destruct (decide (k ∈ ks)) as [Hk|Hk]; rewrite Hks in Hk.
    + destruct Hk. by rewrite decide_True.
    + destruct (decide (q `prefix_of` k)) as [Hp|]; [|done]. destruct (m !! k) eqn:E; [|done]. destruct Hk. eauto.
Qed.

(** ** rename *)
Lemma moved_lookup (a b : path) m k n :
  list_to_map (M:=fs) (map (λ kn, (b ++ drop (length a) kn.1, kn.2)) (map_to_list (filter (λ kn, a `prefix_of` kn.1) m))) !! k = Some n ↔
  ∃ s, k = b ++ s ∧ m !! (a ++ s) = Some n.
Proof.
  set (F := λ kn : path * node, _). set (l := map_to_list _).
  assert (∀ x y, (x, y) ∈ l ↔ m !! x = Some y ∧ a `prefix_of` x) as Hl.
  { intros x y. unfold l. by rewrite elem_of_map_to_list, map_filter_lookup_Some. }
  rewrite <-elem_of_list_to_map.
  - rewrite elem_of_list_fmap. split.
    + intros ([x y] & E & Hx). apply Hl in Hx as [Hx [s ->]]. unfold F in E. cbn [fst snd] in E. rewrite drop_app in E.
      injection E as -> ->. eauto.
    + intros (s & -> & Hs). exists (a ++ s, n). unfold F. cbn [fst snd]. rewrite drop_app. split; [done|]. apply Hl. split; [done|by exists s].
  - rewrite <-list_fmap_compose. apply NoDup_fmap_2_strong.
    + intros [x y] [x' y'] Hx Hx' E. apply Hl in Hx as [Hx [s ->]], Hx' as [Hx' [s' ->]]. unfold F, compose in E. cbn [fst snd] in E.
      rewrite !drop_app in E. apply app_inv_head in E. subst s'. congruence.
    + apply NoDup_map_to_list.
Qed.
Lemma move_new (a b : path) m s : (∀ s, s ≠ [] → m !! (b ++ s) = None) → move a b m !! (b ++ s) = m !! (a ++ s).
Proof.
  intros Hb. unfold move. destruct (m !! (a ++ s)) as [n|] eqn:E.
  - apply lookup_union_Some_l. apply moved_lookup. eauto.
  - apply lookup_union_None. split.
    + apply eq_None_not_Some. intros [n E']. apply moved_lookup in E' as (s' & Es & Hs). apply app_inv_head in Es. subst s'. congruence.
    + apply map_filter_lookup_None. destruct (decide (s = [])) as [->|Hs]; [|left; by apply Hb].
      right. intros n _ [_ H]. apply H. by rewrite app_nil_r.
Qed.
Lemma move_old (a b : path) m k : ¬ b `prefix_of` k → move a b m !! k = if decide (a `prefix_of` k) then None else m !! k.
Proof.
  intros Hk. unfold move. rewrite lookup_union_r.
  - destruct (decide _) as [H|H].
    + apply map_filter_lookup_None. right. intros n _ [Hn _]. by apply Hn.
    + destruct (m !! k) as [n|] eqn:E.
      * apply map_filter_lookup_Some. split; [done|]. split; [done|]. simpl. intros ->. by apply Hk.
      * apply map_filter_lookup_None. by left.
  - apply eq_None_not_Some. intros [n E']. apply moved_lookup in E' as (s' & -> & Hs). destruct Hk. by exists s'.
Qed.
Lemma wf_move (a b : path) m :
  wf_fs m → a ≠ [] → valid_comps b → b ≠ [] → dir_at m (parent b) → ¬ a `prefix_of` b →
  (∀ s, s ≠ [] → m !! (b ++ s) = None) → wf_fs (move a b m).
Proof.
  intros Hwf Ha Hvb Hbn Hdb Hab Hb k n Hk.
  assert (∀ d, dir_at m d → ¬ a `prefix_of` d → ¬ b `prefix_of` d → dir_at (move a b m) d) as Hkeep.
  { intros d [t Ht] H1 H2. destruct (decide (d = [])) as [->|Hn]; [apply dir_at_nil|]. rewrite node_at_ne in Ht by done.
    apply dir_at_lookup; [done|]. exists t. by rewrite move_old, decide_False. }
  assert (∀ q : path, q ≠ [] → parent q `prefix_of` q) as Hpq.
  { intros q Hq. destruct (snoc_parent q Hq) as [x Hx]. rewrite Hx at 2. by apply prefix_app_r. }
  destruct (decide (b `prefix_of` k)) as [[s ->]|Hbk].
  - rewrite move_new in Hk by done. destruct (Hwf _ _ Hk) as (_ & Hv & Hd). split; [by destruct b|].
    apply valid_app in Hv as [_ Hv]. split; [by apply valid_app|].
    destruct (decide (s = [])) as [->|Hs].
    + rewrite app_nil_r. apply Hkeep; [done| |].
      * intros H. apply Hab. etrans; [done|]. by apply Hpq.
      * intros [s E]. destruct (snoc_parent b Hbn) as [x Hx]. rewrite Hx in E at 2. apply (f_equal length) in E.
        rewrite !app_length in E. simpl in E. lia.
    + rewrite parent_app in Hd |- * by done. destruct Hd as [t Ht]. apply dir_at_lookup; [by destruct b|].
      rewrite move_new by done. exists t. by rewrite node_at_ne in Ht by (by destruct a).
  - rewrite move_old in Hk by done. destruct (decide _) as [|Hak]; [done|]. destruct (Hwf _ _ Hk) as (Hne & Hv & Hd).
    split; [done|]. split; [done|]. apply Hkeep; [done| |]; intros H; [apply Hak|apply Hbk]; (etrans; [done|by apply Hpq]).
Qed.
Lemma rename_wp (I : fs → Prop) (a b : path) (Q : res unit → fs → Prop) m n :
  wf_fs m → m !! a = Some n → valid_comps b → b ≠ [] → dir_at m (parent b) → ¬ a `prefix_of` b → m !! b = None →
  I (move a b m) → Q (Ok tt) (move a b m) → wp (rename a b) I Q m.
Proof.
  intros Hwf Ha Hvb Hbn Hdb Hab Hb HI HQ. destruct (Hwf _ _ Ha) as (Hne & Hv & Hd). unfold rename.
  apply wp_bind, wp_eval. rewrite resolve_nofollow by done. apply wp_bind, wp_eval. rewrite resolve_nofollow by done.
  apply wp_bind, wp_get. apply wp_bind, wp_get. rewrite !node_at_ne, Ha, Hb by done.
  rewrite bool_decide_false by congruence. rewrite bool_decide_false by done. by apply wp_put.
Qed.
(** Onto a file or link. *)
Lemma rename_over_wp (I : fs → Prop) (a b : path) (Q : res unit → fs → Prop) m n n' :
  wf_fs m → m !! a = Some n → is_Dir n = false → m !! b = Some n' → is_Dir n' = false → a ≠ b →
  I (move a b m) → Q (Ok tt) (move a b m) → wp (rename a b) I Q m.
Proof.
  intros Hwf Ha Hna Hb Hnb Hab HI HQ. destruct (Hwf _ _ Ha) as (Hne & Hv & Hd). destruct (Hwf _ _ Hb) as (Hne' & Hv' & Hd'). unfold rename.
  apply wp_bind, wp_eval. rewrite resolve_nofollow by done. apply wp_bind, wp_eval. rewrite resolve_nofollow by done.
  apply wp_bind, wp_get. apply wp_bind, wp_get. rewrite !node_at_ne, Ha, Hb by done.
  rewrite bool_decide_false by done. rewrite bool_decide_false.
  2:{ intros Hp. destruct (wf_anc m Hwf b a n' Hb Hp Hab) as [t Ht]. rewrite node_at_ne, Ha in Ht by done. injection Ht as ->. done. }
  rewrite Hna, Hnb. by apply wp_put.
Qed.
Lemma rename_gone_wp (I : fs → Prop) (a b : path) (Q : res unit → fs → Prop) m :
  wf_fs m → valid_comps a → a ≠ [] → dirs_ok m (parent a) → m !! a = None → valid_comps b → dir_at m (parent b) →
  Q (Err FileNotFound) m → wp (rename a b) I Q m.
Proof.
  intros Hwf Hv Ha Hok Hn Hvb Hdb HQ. unfold rename. apply wp_bind, wp_eval.
  destruct (decide (dir_at m (parent a))) as [Hd|Hd]; [|by rewrite resolve_gone].
  rewrite resolve_nofollow by done. apply wp_bind, wp_eval. rewrite resolve_nofollow by done.
  apply wp_bind, wp_get. apply wp_bind, wp_get. rewrite (node_at_ne m a), Hn by done. by apply wp_throw.
Qed.
