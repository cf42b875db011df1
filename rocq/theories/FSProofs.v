(** Facts about the system calls on ordinary paths: paths whose parent
    directories are real directories. *)
From Verif Require Export FS.
From stdpp Require Import options.

Definition dir_at (m : fs) (p : path) : Prop := ∃ t, node_at m p = Some (Dir t).
(** A file tree: names are valid, every entry is in a directory. *)
Definition wf_fs (m : fs) : Prop := ∀ p n, m !! p = Some n → p ≠ [] ∧ valid_comps p ∧ dir_at m (parent p).

Lemma node_at_ne m p : p ≠ [] → node_at m p = m !! p.
Proof. by destruct p. Qed.
Lemma node_at_app_ne m (d p : path) : p ≠ [] → node_at m (d ++ p) = m !! (d ++ p).
Proof. intros H. apply node_at_ne. destruct d; [done|]. done. Qed.
Lemma dir_at_lookup m p : p ≠ [] → dir_at m p ↔ ∃ t, m !! p = Some (Dir t).
Proof. intros H. unfold dir_at. by rewrite node_at_ne. Qed.
Lemma dir_at_nil m : dir_at m [].
Proof. by exists 0%Z. Qed.
Lemma is_Dir_true n : is_Dir n = true ↔ ∃ t, n = Dir t.
Proof. destruct n; naive_solver. Qed.

Lemma valid_app l l' : valid_comps (l ++ l') ↔ valid_comps l ∧ valid_comps l'.
Proof. apply Forall_app. Qed.
Lemma valid_one x : valid_comps [x] ↔ valid_name x.
Proof. apply Forall_singleton. Qed.
Lemma valid_parent p : valid_comps p → valid_comps (parent p).
Proof. apply removelast_valid. Qed.
Lemma parent_app (d p : path) : p ≠ [] → parent (d ++ p) = d ++ parent p.
Proof. intros H. destruct (snoc_parent p H) as [x Hx]. rewrite Hx at 1. by rewrite app_assoc, parent_snoc. Qed.
Lemma prefix_parent_strict (q p : path) : q `prefix_of` p → q ≠ p → q `prefix_of` parent p.
Proof.
  intros Hq Hn. destruct (decide (p = [])) as [->|Hp]; [by apply prefix_nil_inv in Hq|].
  destruct (snoc_parent p Hp) as [x Hx]. rewrite Hx in Hq. apply prefix_snoc_inv in Hq as [?|?]; [done|congruence].
Qed.

Section wf.
  Context (m : fs) (Hwf : wf_fs m).
  Lemma wf_dir_parent p : p ≠ [] → dir_at m p → dir_at m (parent p).
  Proof using Hwf. intros Hp [t Ht]. rewrite node_at_ne in Ht by done. by apply Hwf in Ht as (_ & _ & ?). Qed.
  Lemma wf_dir_anc p q : dir_at m p → q `prefix_of` p → dir_at m q.
  Proof using Hwf.
    revert q. induction p as [|x p IH] using rev_ind; intros q Hp Hq.
    - by apply prefix_nil_inv in Hq as ->.
    - apply prefix_snoc_inv in Hq as [Hq| ->]; [|done]. apply IH; [|done].
      rewrite <-(parent_snoc p x). apply wf_dir_parent; [by destruct p|done].
  Qed.
  Lemma wf_anc p q n : m !! p = Some n → q `prefix_of` p → q ≠ p → dir_at m q.
  Proof using Hwf.
    intros Hp Hq Hn. eapply wf_dir_anc; [by apply Hwf in Hp as (_ & _ & ?)|]. by apply prefix_parent_strict.
  Qed.
  Lemma wf_valid p n : m !! p = Some n → valid_comps p.
  Proof using Hwf. intros Hp. by apply Hwf in Hp as (_ & ? & _). Qed.
  Lemma wf_dir_valid p : dir_at m p → valid_comps p.
  Proof using Hwf.
    intros [t Ht]. destruct (decide (p = [])) as [->|Hn]; [constructor|]. rewrite node_at_ne in Ht by done. by eapply wf_valid.
  Qed.
  Lemma wf_nil : m !! [] = None.
  Proof using Hwf. destruct (m !! []) eqn:E; [|done]. by apply Hwf in E as [? _]. Qed.
End wf.

(** ** Resolution *)
Lemma namei_dirs n f m cur a b :
  valid_comps a → (∀ q, q ≠ [] → q `prefix_of` a → dir_at m (cur ++ q)) →
  namei n f m cur (a ++ b) = namei n f m (cur ++ a) b.
Proof.
  revert cur. induction a as [|c a IH]; intros cur Hv Hd; [by rewrite app_nil_r|].
  inversion_clear Hv as [|? ? Hc Ha].
  assert (dir_at m (cur ++ [c])) as [t Ht] by (apply Hd; [done|by exists a]).
  rewrite node_at_app_ne in Ht by done.
  assert (namei n f m (cur ++ [c]) (a ++ b) = namei n f m (cur ++ c :: a) b) as <-.
  { rewrite IH; [by rewrite <-app_assoc|done|]. intros q Hq Hp. rewrite <-app_assoc. simpl. apply Hd; [done|].
    by apply prefix_cons. }
  destruct n; simpl; rewrite bool_decide_false by (by intros ->; destruct Hc as (_ & _ & _ & ?)); by rewrite Ht.
Qed.
Lemma namei_last n f m cur x :
  valid_name x → (f = true → ∀ t k, m !! (cur ++ [x]) ≠ Some (Link t k)) →
  namei n f m cur [x] = Ok (cur ++ [x]).
Proof.
  intros Hx Hl. destruct n; simpl; rewrite bool_decide_false by (by intros ->; destruct Hx as (_ & _ & _ & ?));
    destruct (m !! (cur ++ [x])) as [[| |]|] eqn:E; try done;
    (destruct f; [by exfalso; eapply Hl|done]).
Qed.
Lemma namei_link n f m cur x t k :
  valid_name x → m !! (cur ++ [x]) = Some (Link t k) →
  namei (S n) true m cur (x :: f) = namei n true m (if isabs t then [] else cur) (path_comps t ++ f).
Proof.
  intros Hx Hl. simpl. rewrite bool_decide_false by (by intros ->; destruct Hx as (_ & _ & _ & ?)).
  by rewrite Hl, andb_false_r.
Qed.
Section resolve.
  Context (m : fs) (Hwf : wf_fs m).
  Lemma namei_plain n f p :
    valid_comps p → dir_at m (parent p) → (f = true → ∀ t k, m !! p ≠ Some (Link t k)) →
    namei n f m [] p = Ok p.
  Proof using Hwf.
    intros Hv Hd Hl. destruct (decide (p = [])) as [->|Hp]; [by destruct n|].
    destruct p as [|x p _] using rev_ind; [done|]. rewrite parent_snoc in Hd.
    apply valid_app in Hv as [Hv1 Hv2]. apply valid_one in Hv2.
    rewrite namei_dirs; [|done|].
    - apply (namei_last n f m p x); assumption.
    - intros q Hq Hpre. by apply (wf_dir_anc m Hwf p q).
  Qed.
  Lemma resolve_nofollow p : valid_comps p → dir_at m (parent p) → resolve false m p = Ok p.
  Proof using Hwf. intros. by apply namei_plain. Qed.
  Lemma resolve_follow p : valid_comps p → dir_at m (parent p) → (∀ t k, m !! p ≠ Some (Link t k)) → resolve true m p = Ok p.
  Proof using Hwf. intros. by apply namei_plain. Qed.
  Lemma resolve_dir f p : dir_at m p → resolve f m p = Ok p.
  Proof using Hwf.
    intros Hd. apply namei_plain; [by eapply wf_dir_valid| |].
    - destruct (decide (p = [])) as [->|]; [by apply dir_at_nil|by apply wf_dir_parent].
    - intros _ t k E. destruct Hd as [t' Hd]. destruct p; [by rewrite (wf_nil m) in E|]. simpl in Hd. congruence.
  Qed.
  (** A link with an absolute target. *)
  Lemma resolve_abs_link p q k :
    m !! p = Some (Link (abs_path q) k) → valid_comps q → dir_at m (parent q) →
    (∀ t k, m !! q ≠ Some (Link t k)) → resolve true m p = Ok q.
  Proof using Hwf.
    intros Hp Hv Hd Hl. destruct (Hwf _ _ Hp) as (Hne & Hvp & Hdp).
    unfold resolve. destruct p as [|x p _] using rev_ind; [done|]. rewrite parent_snoc in Hdp.
    apply valid_app in Hvp as [Hv1 Hv2]. apply valid_one in Hv2.
    rewrite namei_dirs; [|done|].
    - change ([] ++ p) with p. rewrite (namei_link 39 [] m p x (abs_path q) k Hv2 Hp). rewrite app_nil_r, path_comps_abs by done.
      assert (isabs (abs_path q) = true) as -> by done. by apply namei_plain.
    - intros a Ha Hpre. by apply (wf_dir_anc m Hwf p a).
  Qed.

  Lemma stat_nofollow p : valid_comps p → dir_at m (parent p) →
    stat false m p = match node_at m p with Some n => Ok n | None => Err FileNotFound end.
  Proof using Hwf. intros Hv Hd. unfold stat. by rewrite resolve_nofollow. Qed.
  Lemma stat_follow p : valid_comps p → dir_at m (parent p) → (∀ t k, m !! p ≠ Some (Link t k)) →
    stat true m p = match node_at m p with Some n => Ok n | None => Err FileNotFound end.
  Proof using Hwf. intros Hv Hd Hl. unfold stat. by rewrite resolve_follow. Qed.
  Lemma stat_lookup p n : m !! p = Some n → stat false m p = Ok n.
  Proof using Hwf.
    intros Hp. destruct (Hwf _ _ Hp) as (Hne & Hv & Hd). rewrite stat_nofollow by done. by rewrite node_at_ne, Hp.
  Qed.
  Lemma stat_lookup_follow p n : m !! p = Some n → is_Link n = false → stat true m p = Ok n.
  Proof using Hwf.
    intros Hp Hl. destruct (Hwf _ _ Hp) as (Hne & Hv & Hd). rewrite stat_follow; [|done|done|].
    - by rewrite node_at_ne, Hp.
    - intros t k E. rewrite Hp in E. by injection E as ->.
  Qed.
  Lemma isdir_dir p : dir_at m p → isdir m p = true.
  Proof using Hwf. intros Hd. unfold isdir, stat. rewrite resolve_dir by done. by destruct Hd as [t ->]. Qed.
  Lemma islink_link p t k : m !! p = Some (Link t k) → islink m p = true.
  Proof using Hwf. intros Hp. unfold islink. by rewrite (stat_lookup _ _ Hp). Qed.
  Lemma readlink_lookup p n : m !! p = Some n →
    readlink m p = match n with Link t _ => Some t | _ => None end.
  Proof using Hwf. intros Hp. unfold readlink. rewrite (stat_lookup _ _ Hp). by destruct n. Qed.
  (** No path of the tree below a missing entry exists. *)
  Lemma exists_no_links p :
    valid_comps p → (∀ q, q ≠ [] → q `prefix_of` p → m !! q = None ∨ dir_at m q) →
    exists_ m p = bool_decide (is_Some (node_at m p)).
  Proof using Hwf.
    intros Hv Hq. induction p as [|x p IH] using rev_ind; [done|].
    apply valid_app in Hv as [Hv1 Hv2].
    assert (Hp : exists_ m p = bool_decide (is_Some (node_at m p))).
    { apply IH; [done|]. intros q Hn Hpre. apply Hq; [done|]. by apply prefix_app_r. }
    destruct (decide (is_Some (node_at m p))) as [Hs|Hs].
    - assert (dir_at m p) as Hd.
      { destruct (decide (p = [])) as [->|Hn]; [apply dir_at_nil|].
        destruct (Hq p Hn) as [E|?]; [by exists [x]| |done]. rewrite node_at_ne, E in Hs by done. by destruct Hs. }
      unfold exists_. rewrite stat_follow.
      + destruct (node_at m (p ++ [x])); [by rewrite bool_decide_true by eauto|by rewrite bool_decide_false by (by intros [? ?])].
      + by apply valid_app.
      + by rewrite parent_snoc.
      + intros t k E. destruct (Hq (p ++ [x])) as [E'|[t' E']]; [by destruct p|done|congruence|].
        rewrite node_at_app_ne in E' by done. congruence.
    - assert (m !! (p ++ [x]) = None) as E.
      { destruct (m !! (p ++ [x])) eqn:E; [|done]. apply Hwf in E as (_ & _ & t & E). rewrite parent_snoc in E. by destruct Hs; rewrite E. }
      rewrite node_at_app_ne, E by done. rewrite bool_decide_false by (by intros [? ?]).
      rewrite bool_decide_false in Hp by done. unfold exists_, stat, resolve in Hp |- *.
      assert (p ≠ []) as Hpn by (by intros ->; apply Hs; eauto).
      (* the deepest existing prefix *)
      clear IH Hv2 E.
      assert (∀ cur todo, valid_comps todo → p = cur ++ todo → (cur = [] ∨ dir_at m cur) → todo ≠ [] → ¬ is_Some (node_at m p) →
        namei 40 true m cur (todo ++ [x]) = Err FileNotFound) as G.
      { clear Hp. intros cur todo. revert cur. induction todo as [|c todo IHt]; intros cur Hv E Hc Hne Hsome; [done|].
        inversion_clear Hv as [|? ? Hvc Hvt].
        assert (cur ++ [c] `prefix_of` p) as Hpre by (rewrite E; exists todo; by rewrite <-app_assoc).
        assert (cur ++ [c] ≠ []) as Hcn by (by destruct cur).
        change ((c :: todo) ++ [x]) with ([c] ++ (todo ++ [x])).
        destruct (Hq (cur ++ [c]) Hcn) as [Hnone|Hdir]; [by apply prefix_app_r| |].
        - simpl. rewrite bool_decide_false by (by intros ->; destruct Hvc as (_ & _ & _ & ?)). rewrite Hnone.
          by destruct todo.
        - assert (todo ≠ []) as Htn.
          { intros ->. apply Hsome. rewrite E. destruct Hdir as [t ->]. eauto. }
          rewrite namei_dirs; [|by apply valid_one|].
          + apply IHt; [done|by rewrite E, <-app_assoc|by right|done|done].
          + intros q Hqn Hqp. destruct q as [|y q]; [done|]. pose proof (prefix_cons_inv_1 _ _ _ _ Hqp) as ->.
            apply prefix_cons_inv_2, prefix_nil_inv in Hqp as ->. done. }
      rewrite (G [] p); auto.
  Qed.
End resolve.

(** ** wf is kept by changes *)
Lemma wf_insert m p n :
  wf_fs m → valid_comps p → p ≠ [] → dir_at m (parent p) →
  (∀ t, m !! p = Some (Dir t) → is_Dir n = true) → wf_fs (<[p:=n]> m).
Proof.
  intros Hwf Hv Hp Hd Hk q n'. rewrite lookup_insert_Some. 
  assert (∀ d, dir_at m d → dir_at (<[p:=n]> m) d) as Hkeep.
  { intros d [t Ht]. destruct (decide (d = [])) as [->|Hn]; [apply dir_at_nil|].
    rewrite node_at_ne in Ht by done. apply dir_at_lookup; [done|].
    destruct (decide (p = d)) as [->|Hpd]; [|rewrite lookup_insert_ne by done; eauto].
    apply Hk, is_Dir_true in Ht as [t' ->]. rewrite lookup_insert. eauto. }
  intros [[<- <-]|[Hne Hq]].
  - split; [done|]. split; [done|]. by apply Hkeep.
  - apply Hwf in Hq as (? & ? & ?). split; [done|]. split; [done|]. by apply Hkeep.
Qed.
Lemma wf_delete m p :
  wf_fs m → (∀ q n, m !! q = Some n → ¬ child_of q p) → wf_fs (delete p m).
Proof.
  intros Hwf Hc q n. rewrite lookup_delete_Some. intros [Hne Hq]. pose proof (Hc q n Hq) as Hcq.
  apply Hwf in Hq as (H1 & H2 & [t Ht]). split; [done|]. split; [done|].
  destruct (decide (parent q = [])) as [->|Hn]; [apply dir_at_nil|].
  rewrite node_at_ne in Ht by done. apply dir_at_lookup; [done|].
  exists t. rewrite lookup_delete_ne; [done|]. intros Hp. apply Hcq. apply child_parent. done.
Qed.
Lemma wf_nondir_nochild m p n : wf_fs m → m !! p = Some n → is_Dir n = false → ∀ q k, m !! q = Some k → ¬ child_of q p.
Proof.
  intros Hwf Hp Hn q k Hq Hc. apply child_parent in Hc as [Hqn Hc]. apply Hwf in Hq as (_ & _ & t & Ht).
  rewrite Hc in Ht. destruct (decide (p = [])) as [->|Hne]; [by rewrite (wf_nil m) in Hp|].
  rewrite node_at_ne, Hp in Ht by done. injection Ht as ->. done.
Qed.
Lemma wf_missing_below m p : wf_fs m → p ≠ [] → m !! p = None → ∀ q, p `prefix_of` q → m !! q = None.
Proof.
  intros Hwf Hp Hn q Hq. destruct (m !! q) as [k|] eqn:E; [|done]. exfalso.
  destruct (decide (p = q)) as [->|Hne]; [congruence|].
  destruct (wf_anc m Hwf q p k E Hq Hne) as [t Ht]. rewrite node_at_ne in Ht by done. congruence.
Qed.

(** ** makedirs *)
Definition dirmap (now : Z) (p : path) : fs := list_to_map (map (λ q, (q, Dir now)) (prefixes p)).
Lemma NoDup_prefixes p : NoDup (prefixes p).
Proof.
  induction p as [|x p IH]; simpl; [constructor|]. constructor.
  - intros H. apply elem_of_list_fmap in H as (y & E & Hy). injection E as <-. by apply elem_of_prefixes in Hy as [? _].
  - apply NoDup_fmap_2; [|done]. intros ???. naive_solver.
Qed.
Lemma lookup_dirmap now p q n : dirmap now p !! q = Some n ↔ q ≠ [] ∧ q `prefix_of` p ∧ n = Dir now.
Proof.
  unfold dirmap. rewrite <-elem_of_list_to_map.
  - rewrite elem_of_list_fmap. setoid_rewrite elem_of_prefixes. naive_solver.
  - rewrite <-list_fmap_compose. simpl. rewrite list_fmap_id. apply NoDup_prefixes.
Qed.
Lemma lookup_dirmap_None now p q : dirmap now p !! q = None ↔ ¬ (q ≠ [] ∧ q `prefix_of` p).
Proof.
  rewrite eq_None_not_Some. unfold is_Some. setoid_rewrite lookup_dirmap. naive_solver.
Qed.
Lemma lookup_mk (m : fs) now p q :
  (m ∪ dirmap now p) !! q = match m !! q with Some n => Some n
                            | None => if decide (q ≠ [] ∧ q `prefix_of` p) then Some (Dir now) else None end.
Proof.
  destruct (m !! q) as [n|] eqn:E; [by apply lookup_union_Some_l|]. rewrite lookup_union_r by done.
  destruct (decide _) as [[H1 H2]|H]; [by apply lookup_dirmap|by apply lookup_dirmap_None].
Qed.
Lemma dir_at_mk (m : fs) now p q : dir_at m q → dir_at (m ∪ dirmap now p) q.
Proof.
  intros [t Ht]. destruct (decide (q = [])) as [->|Hn]; [apply dir_at_nil|]. rewrite node_at_ne in Ht by done.
  apply dir_at_lookup; [done|]. exists t. by rewrite lookup_mk, Ht.
Qed.
(** Directories can be created along [p]: what is there is a directory. *)
Definition dirs_ok (m : fs) (p : path) : Prop := ∀ q, q ≠ [] → q `prefix_of` p → m !! q = None ∨ dir_at m q.
Lemma dir_at_made (m : fs) now p q : dirs_ok m p → q `prefix_of` p → dir_at (m ∪ dirmap now p) q.
Proof.
  intros Hok Hq. destruct (decide (q = [])) as [->|Hn]; [apply dir_at_nil|].
  destruct (Hok q Hn Hq) as [E|?]; [|by apply dir_at_mk]. apply dir_at_lookup; [done|].
  exists now. by rewrite lookup_mk, E, decide_True.
Qed.
Lemma wf_mk (m : fs) now p : wf_fs m → valid_comps p → dirs_ok m p → wf_fs (m ∪ dirmap now p).
Proof.
  intros Hwf Hv Hok q n. rewrite lookup_mk. destruct (m !! q) as [n'|] eqn:E.
  - intros [= <-]. apply Hwf in E as (? & ? & ?). split; [done|]. split; [done|]. by apply dir_at_mk.
  - destruct (decide _) as [[H1 H2]|]; [|done]. intros [= <-]. split; [done|]. split.
    + destruct H2 as [k ->]. by apply valid_app in Hv as [? _].
    + apply dir_at_made; [done|]. transitivity q; [apply prefix_parent|done].
Qed.
Lemma mk_existing (m : fs) now p : wf_fs m → dir_at m p → m ∪ dirmap now p = m.
Proof.
  intros Hwf Hd. apply map_eq. intros q. rewrite lookup_mk. destruct (m !! q) eqn:E; [done|].
  destruct (decide _) as [[H1 H2]|]; [|done].
  destruct (wf_dir_anc m Hwf p q Hd H2) as [t Ht]. rewrite node_at_ne in Ht by done. congruence.
Qed.
Lemma mk_snoc (m : fs) now p x : m !! (p ++ [x]) = None →
  <[p ++ [x] := Dir now]> (m ∪ dirmap now p) = m ∪ dirmap now (p ++ [x]).
Proof.
  intros Hn. apply map_eq. intros q. destruct (decide (q = p ++ [x])) as [->|Hq].
  - rewrite lookup_insert, lookup_mk, Hn, decide_True; [done|]. split; [by destruct p|done].
  - rewrite lookup_insert_ne by done. rewrite !lookup_mk. destruct (m !! q); [done|].
    apply option_eq. intros n. destruct (decide _) as [[H1 H2]|H], (decide _) as [[H3 H4]|H']; try done.
    + exfalso. apply H'. split; [done|]. by apply prefix_app_r.
    + exfalso. apply H. split; [done|]. apply prefix_snoc_inv in H4 as [?|?]; done.
Qed.
Lemma mk_mk (m : fs) now p q : p `prefix_of` q → (m ∪ dirmap now p) ∪ dirmap now q = m ∪ dirmap now q.
Proof.
  intros Hp. apply map_eq. intros k. rewrite !lookup_mk. destruct (m !! k); [done|].
  destruct (decide (k ≠ [] ∧ k `prefix_of` p)) as [[H1 H2]|H]; [|done].
  rewrite decide_True; [done|]. split; [done|]. by trans p.
Qed.

Lemma mkdir_run now m p : wf_fs m → valid_comps p → p ≠ [] → dir_at m (parent p) →
  mkdir now p m = match m !! p with
                  | Some _ => ([], m, Err FileExists)
                  | None => ([<[p:=Dir now]> m], <[p:=Dir now]> m, Ok tt) end.
Proof.
  intros Hwf Hv Hp Hd. unfold mkdir, bind, eval, get. rewrite resolve_nofollow by done. simpl.
  rewrite node_at_ne by done. by destruct (m !! p).
Qed.
Lemma makedirs_rev_wp (now : Z) (I : fs → Prop) (p : path) (Q : res unit → fs → Prop) m :
  wf_fs m → valid_comps p → dirs_ok m p →
  (∀ q, q `prefix_of` p → I (m ∪ dirmap now q)) →
  Q (Ok tt) (m ∪ dirmap now p) →
  wp (makedirs_rev now (rev p)) I Q m.
Proof.
  revert Q. induction p as [|x p IH] using rev_ind; intros Q Hwf Hv Hok HI HQ.
  { simpl. apply wp_ret. unfold dirmap in HQ. simpl in HQ. by rewrite (right_id_L ∅ (∪)) in HQ. }
  pose proof Hv as Hv0. apply valid_app in Hv as [Hv1 Hv2].
  assert (dirs_ok m p) as Hokp.
  { intros q Hq Hp. apply Hok; [done|]. by apply prefix_app_r. }
  assert (Hmk : ∀ m1, wf_fs m1 → dir_at m1 p → m1 = m ∪ dirmap now p →
    wp (catch (mkdir now (p ++ [x])) (λ e, if is_oserror e then
            Some (d ←! get (λ m, isdir m (p ++ [x])); if d : bool then ret tt else throw e) else None)) I Q m1).
  { intros m1 Hwf1 Hd1 Em1. apply wp_catch.
    pose proof (mkdir_run now m1 (p ++ [x]) Hwf1 Hv0) as Hrun. rewrite parent_snoc in Hrun.
    specialize (Hrun ltac:(by destruct p) Hd1).
    assert (m1 !! (p ++ [x]) = m !! (p ++ [x])) as El.
    { rewrite Em1, lookup_mk. destruct (m !! (p ++ [x])); [done|]. rewrite decide_False; [done|].
      intros [_ H]. apply prefix_length in H. rewrite app_length in H. simpl in H. lia. }
    rewrite El in Hrun. destruct (m !! (p ++ [x])) as [n|] eqn:E.
    - eapply wp_run; [exact Hrun|constructor|]. simpl. apply wp_bind, wp_get.
      assert (dir_at m (p ++ [x])) as Hdx.
      { destruct (Hok (p ++ [x])) as [E'|?]; [by destruct p|done|congruence|done]. }
      assert (m1 = m) as E1. { rewrite Em1. apply mk_existing; [done|]. eapply wf_dir_anc; [done|exact Hdx|by exists [x]]. }
      rewrite E1. rewrite isdir_dir by done. apply wp_ret.
      by rewrite mk_existing in HQ by done.
    - eapply wp_run; [exact Hrun| |].
      + constructor; [|constructor]. rewrite Em1, mk_snoc by done. by apply HI.
      + simpl. rewrite Em1, mk_snoc by done. done. }
  rewrite rev_app_distr. simpl. apply wp_bind.
  assert (rev (rev p) ++ [x] = p ++ [x]) as Er by (by rewrite rev_involutive).
  destruct (decide (p = [])) as [->|Hpn].
  - simpl. apply wp_ret. apply Hmk; [done|apply dir_at_nil|]. unfold dirmap. simpl. by rewrite (right_id_L ∅ (∪)).
  - destruct (rev p) as [|y rp] eqn:Erp.
    { exfalso. apply Hpn. rewrite <-(rev_involutive p), Erp. done. }
    rewrite <-Erp in *. rewrite Er. rewrite rev_involutive. apply wp_bind, wp_get.
    rewrite exists_no_links by done. case_bool_decide as Hex.
    + apply wp_ret. assert (dir_at m p) as Hd.
      { destruct (Hokp p Hpn) as [E|?]; [done| |done]. rewrite node_at_ne, E in Hex by done. by destruct Hex. }
      apply Hmk; [done|done|]. by rewrite mk_existing.
    + apply wp_catch. apply IH; [done|done|done| |].
      * intros q Hq. apply HI. by apply prefix_app_r.
      * apply Hmk; [by apply wf_mk|by apply dir_at_made|done].
Qed.
Lemma makedirs_wp (now : Z) (I : fs → Prop) (p : path) (Q : res unit → fs → Prop) m :
  wf_fs m → valid_comps p → dirs_ok m p →
  (∀ q, q `prefix_of` p → I (m ∪ dirmap now q)) →
  Q (Ok tt) (m ∪ dirmap now p) →
  wp (makedirs now p) I Q m.
Proof. intros. by apply makedirs_rev_wp. Qed.
