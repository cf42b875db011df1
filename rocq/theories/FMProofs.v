(** Facts about the scans and about the computations of filelogic.py that
    change nothing. *)
From Coq Require Import QArith Qcanon.
From Verif Require Export FilesManager TransferProofs SymlinkProofs FSDec DBProofs.
From stdpp Require Import options.

(** The entries below a directory, by relative path. *)
Definition tree (m : fs) (root : path) : nmap :=
  list_to_map (omap (λ kn : path * node,
    if decide (root `prefix_of` kn.1 ∧ kn.1 ≠ root) then Some (rel_to root kn.1, kn.2) else None) (map_to_list m)).
Lemma tree_lookup m root p n : tree m root !! p = Some n ↔ p ≠ [] ∧ m !! (root ++ p) = Some n.
Proof.
  unfold tree. set (f := λ kn : path * node, _).
  assert (∀ q k, (q, k) ∈ omap f (map_to_list m) ↔ q ≠ [] ∧ m !! (root ++ q) = Some k) as He.
  { intros q k. rewrite elem_of_list_omap. split.
    - intros ([x y] & Hx & Hf). apply elem_of_map_to_list in Hx. unfold f in Hf. cbn [fst snd] in Hf.
      destruct (decide _) as [[[s ->] Hn]|]; [|done]. injection Hf as <- <-. rewrite rel_to_app. split; [|done].
      intros ->. apply Hn. by rewrite app_nil_r.
    - intros [Hq Hm]. exists (root ++ q, k). split; [by apply elem_of_map_to_list|]. unfold f. cbn [fst snd].
      rewrite decide_True; [by rewrite rel_to_app|]. split; [by exists q|].
      intros E. rewrite <-(app_nil_r root) in E at 2. by apply app_inv_head in E. }
  rewrite <-He. symmetry. apply elem_of_list_to_map.
  assert (NoDup (map_to_list m)) as Hnd by apply NoDup_map_to_list.
  assert (∀ x y a b c, (x, a) ∈ map_to_list m → (y, b) ∈ map_to_list m →
     f (x, a) = Some c → (∃ c', f (y, b) = Some c' ∧ c.1 = c'.1) → x = y) as Hinj.
  { intros x y a b c Hx Hy Hfx (c' & Hfy & E). unfold f in *. cbn [fst snd] in *.
    destruct (decide _) as [[[s ->] _]|]; [|done]. destruct (decide _) as [[[s' ->] _]|]; [|done].
    injection Hfx as <-. injection Hfy as <-. cbn [fst] in E. rewrite !rel_to_app in E. by rewrite E. }
  assert (∀ l : list (path * node), (∀ x, x ∈ l → x ∈ map_to_list m) → NoDup l → NoDup (omap f l).*1) as G; [|by apply G].
  induction l as [|[x a] l IH]; intros Hl Hn; csimpl; [constructor|]. inversion Hn as [|?? Hx Hn']; subst.
  destruct (f (x, a)) as [c|] eqn:Ef; csimpl; [|apply IH; [set_solver|done]].
  constructor; [|apply IH; [set_solver|done]].
  intros Hin. apply elem_of_list_fmap in Hin as ([c1 c2] & Ec & Hin). apply elem_of_list_omap in Hin as ([y b] & Hy & Hfy).
  assert (x = y) as ->.
  { eapply (Hinj x y a b c); [apply Hl; left|apply Hl; by right|done|]. by eexists. }
  assert ((y, a) ∈ map_to_list m) as H1 by (apply Hl; left).
  assert ((y, b) ∈ map_to_list m) as H2 by (apply Hl; by right).
  apply elem_of_map_to_list in H1, H2. rewrite H1 in H2. injection H2 as <-. done.
Qed.
Lemma elem_of_dom_tree m root p : p ∈ dom (tree m root) ↔ p ≠ [] ∧ is_Some (m !! (root ++ p)).
Proof. rewrite elem_of_dom. unfold is_Some. setoid_rewrite tree_lookup. naive_solver. Qed.

Lemma scan_dir_tree m root : wf_fs m → dir_at m root → scan_dir m root = Ok (tree m root).
Proof.
  intros Hwf Hd. destruct (scan_tree_dir m Hwf root Hd) as (l & El & Hnd & Hl). unfold scan_dir. rewrite El. f_equal.
  apply map_eq. intros p. apply option_eq. intros n. rewrite tree_lookup.
  set (f := λ q : path, _ : option (path * node)).
  assert (∀ q k, (q, k) ∈ omap f l ↔ q ≠ [] ∧ m !! (root ++ q) = Some k) as He.
  { intros q k. rewrite elem_of_list_omap. split.
    - intros (x & Hx & Hf). apply Hl in Hx as (s & k' & -> & Hs & Hk). unfold f in Hf.
      rewrite (stat_lookup m Hwf _ k' Hk) in Hf. rewrite rel_to_app in Hf. by injection Hf as <- <-.
    - intros [Hq Hm]. exists (root ++ q). split; [apply Hl; eauto|]. unfold f. by rewrite (stat_lookup m Hwf _ k Hm), rel_to_app. }
  rewrite <-He. symmetry. apply elem_of_list_to_map.
  assert (∀ l' : list path, (∀ x, x ∈ l' → x ∈ l) → NoDup l' → NoDup (omap f l').*1) as G; [|by apply G].
  clear He. induction l' as [|x l' IH]; intros Hl' Hn; csimpl; [constructor|]. inversion Hn as [|?? Hx Hn']; subst.
  assert (x ∈ l) as Hxl by (apply Hl'; left). apply Hl in Hxl as (s & k & -> & Hs & Hk).
  unfold f at 1. rewrite (stat_lookup m Hwf _ k Hk), rel_to_app. csimpl.
  constructor; [|apply IH; [set_solver|done]].
  intros Hin. apply elem_of_list_fmap in Hin as ([c1 c2] & Ec & Hin). cbn [fst] in Ec. subst c1.
  apply elem_of_list_omap in Hin as (y & Hy & Hfy).
  assert (y ∈ l) as Hyl by (apply Hl'; by right). apply Hl in Hyl as (s' & k' & -> & Hs' & Hk').
  unfold f in Hfy. rewrite (stat_lookup m Hwf _ k' Hk'), rel_to_app in Hfy. by injection Hfy as -> _.
Qed.

(** The state of a command that has not looked at the files yet. *)
Definition fresh (w : world) : Prop := v_lscan w = ∅ ∧ v_rscan w = ∅ ∧ v_excl w = None.
(** Both directories are there. *)
Record mounted (C : conf) (m : fs) : Prop := {
  mo_wf : wf_fs m;
  mo_L : dir_at m (c_L C);
  mo_R : dir_at m (c_R C);
  mo_Lne : c_L C ≠ []
}.
(** What a command has seen so far, if anything, is what there is. *)
Record current (C : conf) (w : world) : Prop := {
  cu_l : v_lscan w = ∅ ∨ v_lscan w = tree (w_fs w) (c_L C);
  cu_r : v_rscan w = ∅ ∨ v_rscan w = tree (w_fs w) (c_R C);
  cu_e : v_excl w = None ∨ v_excl w = Some (c_glob C (c_patterns C) (w_fs w) (c_L C))
}.
Lemma fresh_current C w : fresh w → current C w.
Proof. intros (? & ? & ?). split; by left. Qed.
Lemma set_lscan_id w : set_lscan (v_lscan w) w = w.
Proof. by destruct w. Qed.
Lemma set_rscan_id w : set_rscan (v_rscan w) w = w.
Proof. by destruct w. Qed.
Lemma set_excl_id w : set_excl (v_excl w) w = w.
Proof. by destruct w. Qed.
Section runs.
  Context (C : conf) (w : world) (Hm : mounted C (w_fs w)).
  Local Notation ltree := (tree (w_fs w) (c_L C)).
  Local Notation rtree := (tree (w_fs w) (c_R C)).
  Local Notation ex := (c_glob C (c_patterns C) (w_fs w) (c_L C)).
  Lemma local_scan_run memo : (memo = true → current C w) → local_scan C memo w = ([], set_lscan ltree w, Ok ltree).
  Proof using Hm.
    intros Hc. unfold local_scan, bind, get, eval, mut, ret.
    destruct (memo && _) eqn:E; [|rewrite scan_dir_tree by apply Hm; done].
    apply andb_prop in E as [-> E]. apply negb_true_iff, bool_decide_eq_false in E.
    destruct (cu_l _ _ (Hc eq_refl)) as [?|Hl]; [done|]. by rewrite <-Hl, set_lscan_id.
  Qed.
  Lemma remote_scan_run memo : (memo = true → current C w) → remote_scan C memo w = ([], set_rscan rtree w, Ok (hide_util rtree)).
  Proof using Hm.
    intros Hc. unfold remote_scan, bind, get, eval, mut, ret.
    destruct (memo && _) eqn:E; [|rewrite scan_dir_tree by apply Hm; done].
    apply andb_prop in E as [-> E]. apply negb_true_iff, bool_decide_eq_false in E.
    destruct (cu_r _ _ (Hc eq_refl)) as [?|Hl]; [done|]. by rewrite <-Hl, set_rscan_id.
  Qed.
  Lemma excluded_run : current C w → excluded C w = ([], set_excl (Some ex) w, Ok ex).
  Proof using.
    intros Hc. unfold excluded, bind, get, mut, ret. destruct (cu_e _ _ Hc) as [->|E]; [done|].
    rewrite E. simpl. by rewrite <-E, set_excl_id.
  Qed.
End runs.
Lemma current_lscan C w : current C w → current C (set_lscan (tree (w_fs w) (c_L C)) w).
Proof. intros [? ? ?]. split; simpl; auto. Qed.
Lemma current_rscan C w : current C w → current C (set_rscan (tree (w_fs w) (c_R C)) w).
Proof. intros [? ? ?]. split; simpl; auto. Qed.
Lemma current_excl C w : current C w → current C (set_excl (Some (c_glob C (c_patterns C) (w_fs w) (c_L C))) w).
Proof. intros [? ? ?]. split; simpl; auto. Qed.

Lemma bind_run {S A B} (m : M S A) (k : A → M S B) s t s' a :
  m s = (t, s', Ok a) → bind m k s = (t ++ (k a s').1.1, (k a s').1.2, (k a s').2).
Proof. unfold bind. intros ->. by destruct (k a s') as [[??]?]. Qed.
Lemma bind_run0 {S A B} (m : M S A) (k : A → M S B) s s' a :
  m s = ([], s', Ok a) → bind m k s = k a s'.
Proof. unfold bind. intros ->. by destruct (k a s') as [[??]?]. Qed.
Lemma bind_get {S A B} (f : S → A) (k : A → M S B) s : bind (get f) k s = k (f s) s.
Proof. by apply bind_run0. Qed.
Lemma bind_eval {S A B} (f : S → res A) (k : A → M S B) s a : f s = Ok a → bind (eval f) k s = k a s.
Proof. intros E. apply bind_run0. unfold eval. by rewrite E. Qed.
Lemma bind_eval_err {S A B} (f : S → res A) (k : A → M S B) s e : f s = Err e → bind (eval f) k s = ([], s, Err e).
Proof. intros E. unfold bind, eval. by rewrite E. Qed.
Lemma bind_mut {S B} (f : S → S) (k : unit → M S B) s : bind (mut f) k s = k tt (f s).
Proof. by apply bind_run0. Qed.

(** The local link is safe to copy: relative, and leading to a place in the
    local directory. *)
Definition safe_entry (m : fs) (L p : path) : Prop :=
  ∀ t k, m !! (L ++ p) = Some (Link t k) →
    isabs t = false ∧ L `prefix_of` walk (L ++ parent p) (split_on c_slash t).
Lemma unsafe_link_spec m L p n : wf_fs m → L ≠ [] → p ≠ [] → m !! (L ++ p) = Some n →
  unsafe_link m (L ++ p) L = false ↔ safe_entry m L p.
Proof.
  intros Hwf HL Hp Hn. unfold unsafe_link. rewrite (readlink_lookup m Hwf _ _ Hn).
  destruct n as [c t|t k|t].
  - simpl. split; [|done]. intros _ t' k' E. congruence.
  - destruct (snoc_parent p Hp) as [x Hx]. set (rel := parent p) in *. clearbody rel. subst p.
    assert (valid_comps (L ++ rel ++ [x])) as Hv by (by eapply wf_valid).
    rewrite !valid_app in Hv. destruct Hv as (HvL & Hvr & Hvx). apply valid_one in Hvx.
    rewrite is_unsafe_symlink_correct by done. rewrite negb_false_iff, andb_true_iff, negb_true_iff, bool_decide_eq_true.
    unfold safe_entry. rewrite parent_snoc. split.
    + intros [? ?] t' k' E. rewrite Hn in E. by injection E as <- <-.
    + intros H. by apply (H t k).
  - simpl. split; [|done]. intros _ t' k' E. congruence.
Qed.

Lemma hide_util_lookup (s : nmap) p n : hide_util s !! p = Some n ↔ s !! p = Some n ∧ ¬ zielen_dir `prefix_of` p.
Proof. unfold hide_util. by rewrite map_filter_lookup_Some. Qed.
Lemma elem_of_hide_util (s : nmap) p : p ∈ dom (hide_util s) ↔ p ∈ dom s ∧ ¬ zielen_dir `prefix_of` p.
Proof. rewrite !elem_of_dom. unfold is_Some. setoid_rewrite hide_util_lookup. naive_solver. Qed.
Lemma dom_s_query {D} (m : gmap path D) root P p :
  p ∈ dom (s_query m root P) ↔ ∃ d, m !! p = Some d ∧ default [] root `prefix_of` p ∧ P d = true.
Proof. rewrite elem_of_dom. unfold is_Some. setoid_rewrite s_query_lookup. done. Qed.
Lemma dom_sl_under (m : lmap) q p : p ∈ dom (sl_get m (Some q) None None) ↔ p ∈ dom m ∧ q `prefix_of` p.
Proof. unfold sl_get. rewrite dom_s_query, elem_of_dom. unfold is_Some. naive_solver. Qed.

Lemma topmost_spec {D} (db : gmap path D) X : X ⊆ dom db →
  ∃ Y, topmost db X = Ok Y ∧ ∀ p, p ∈ Y ↔ p ∈ X ∧ ∀ q, q ∈ X → ¬ below p q.
Proof.
  intros HX. unfold topmost. rewrite decide_True by done. eexists. split; [done|]. intros p.
  rewrite elem_of_difference, elem_of_union_list. split.
  - intros [Hp Hn]. split; [done|]. intros q Hq Hb. apply Hn.
    eexists. split; [apply elem_of_list_fmap; exists q; split; [done|by apply elem_of_elements]|].
    rewrite elem_of_difference, dom_s_query, elem_of_singleton. split.
    + apply HX, elem_of_dom in Hp as [d Hd]. exists d. split; [done|]. split; [|done]. destruct Hb as (x & r & ->). by exists (x :: r).
    + intros ->. destruct Hb as (x & r & E). apply (f_equal length) in E. rewrite app_length in E. simpl in E. lia.
  - intros [Hp Hn]. split; [done|]. intros (Z & HZ & HpZ). apply elem_of_list_fmap in HZ as (q & -> & Hq).
    apply elem_of_elements in Hq. apply elem_of_difference in HpZ as [HpZ Hne]. rewrite elem_of_singleton in Hne.
    apply dom_s_query in HpZ as (d & _ & [[|x r] E] & _); simpl in E; [by rewrite app_nil_r in E|].
    apply (Hn q Hq). by exists x, r.
Qed.

(** ** The runs *)
Section detect.
  Context (C : conf) (w : world) (Hm : mounted C (w_fs w)) (Hc : current C w).
  Local Notation ltree := (tree (w_fs w) (c_L C)).
  Local Notation rtree := (tree (w_fs w) (c_R C)).
  Local Notation ex := (c_glob C (c_patterns C) (w_fs w) (c_L C)).
  (** the state after both scans and after the patterns were matched *)
  Definition seen2 : world := set_rscan rtree (set_lscan ltree w).
  Definition seen3 : world := set_rscan rtree (set_excl (Some ex) (set_lscan ltree w)).
  Lemma compute_added_run :
    compute_added C w = ([], seen3, Ok (added_local (w_fs w) (c_L C) ltree (v_ldb w) ex, added_remote (hide_util rtree) (v_ldb w))).
  Proof using Hm Hc.
    unfold compute_added. rewrite (bind_run0 _ _ _ _ _ (local_scan_run C w Hm true (λ _, Hc))), !bind_get.
    rewrite (bind_run0 _ _ _ _ _ (excluded_run C (set_lscan ltree w) (current_lscan C w Hc))).
    rewrite (bind_run0 _ _ _ _ _ (remote_scan_run C (set_excl (Some ex) (set_lscan ltree w)) Hm true
               (λ _, current_excl C _ (current_lscan C w Hc)))). done.
  Qed.
  Lemma compute_deleted_run r : deleted ltree (hide_util rtree) (v_ldb w) (v_rdb w) (c_trash C) = r →
    compute_deleted C w = ([], seen2, r).
  Proof using Hm Hc.
    intros Hr. unfold compute_deleted. rewrite (bind_run0 _ _ _ _ _ (local_scan_run C w Hm true (λ _, Hc))).
    rewrite (bind_run0 _ _ _ _ _ (remote_scan_run C (set_lscan ltree w) Hm true (λ _, current_lscan C w Hc))).
    unfold eval. simpl. by rewrite Hr.
  Qed.
  Lemma compute_modified_run last : w_last w = Some last →
    compute_modified C w = ([], seen2, Ok (modified_local (w_fs w) (c_L C) ltree (v_ldb w) last,
                                           modified_remote (hide_util rtree) (v_ldb w) (v_rdb w) last)).
  Proof using Hm Hc.
    intros Hl. unfold compute_modified, last_sync. rewrite (bind_eval _ _ _ last) by by rewrite Hl.
    rewrite (bind_run0 _ _ _ _ _ (local_scan_run C w Hm true (λ _, Hc))).
    rewrite (bind_run0 _ _ _ _ _ (remote_scan_run C (set_lscan ltree w) Hm true (λ _, current_lscan C w Hc))). done.
  Qed.
End detect.
