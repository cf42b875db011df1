(** C92: an initialization goes on only with directories that it can use. *)
From Verif Require Import Check FSProofs FstoolsProofs.
From stdpp Require Import options.

(** [m'] is [m] with some new, empty or nested directories. *)
Definition grown (now : Z) (m m' : fs) : Prop := ∀ q, m' !! q = m !! q ∨ m !! q = None ∧ m' !! q = Some (Dir now).
Lemma grown_refl now m : grown now m m.
Proof. intros q. by left. Qed.
Lemma grown_trans now m1 m2 m3 : grown now m1 m2 → grown now m2 m3 → grown now m1 m3.
Proof. intros H1 H2 q. destruct (H2 q) as [->|[E ->]]; [done|]. destruct (H1 q) as [<-|[? ?]]; [by right|congruence]. Qed.
Lemma grown_lookup now m m' q n : grown now m m' → m !! q = Some n → m' !! q = Some n.
Proof. intros H E. destruct (H q) as [->|[? _]]; [done|congruence]. Qed.
Lemma grown_node now m m' q n : grown now m m' → node_at m q = Some n → node_at m' q = Some n.
Proof. destruct q; [done|]. apply grown_lookup. Qed.

(** Resolution of a path that exists. *)
Lemma namei_grown now m m' n f cur todo q : grown now m m' → namei n f m cur todo = Ok q → is_Some (node_at m q) → namei n f m' cur todo = Ok q.
Proof.
  intros Hg. revert cur todo. induction n as [|n IHn]; intros cur todo; revert cur; induction todo as [|c r IH]; intros cur E Hq; cbn in E |- *; try done;
    (destruct (bool_decide (c = dotdot)); [by apply IH|]).
  - destruct (m !! (cur ++ [c])) as [[| |]|] eqn:El.
    + rewrite (grown_lookup _ _ _ _ _ Hg El). done.
    + rewrite (grown_lookup _ _ _ _ _ Hg El). done.
    + rewrite (grown_lookup _ _ _ _ _ Hg El). by apply IH.
    + destruct r; [|done]. injection E as <-. destruct Hq as [x Hx]. rewrite node_at_app_ne in Hx by done. congruence.
  - destruct (m !! (cur ++ [c])) as [[| |]|] eqn:El.
    + rewrite (grown_lookup _ _ _ _ _ Hg El). done.
    + rewrite (grown_lookup _ _ _ _ _ Hg El). destruct (_ && _); [done|]. by apply IHn.
    + rewrite (grown_lookup _ _ _ _ _ Hg El). by apply IH.
    + destruct r; [|done]. injection E as <-. destruct Hq as [x Hx]. rewrite node_at_app_ne in Hx by done. congruence.
Qed.
Lemma isdir_grown now m m' p : grown now m m' → isdir m p = true → isdir m' p = true.
Proof.
  intros Hg. unfold isdir, stat, resolve. destruct (namei 40 true m [] p) as [q|] eqn:E; [|done]. destruct (node_at m q) as [n|] eqn:En; [|done]. intros Hn.
  rewrite (namei_grown _ _ _ _ _ _ _ _ Hg E) by (by eexists). by rewrite (grown_node _ _ _ _ _ Hg En).
Qed.
(** A new directory is found at its path. *)
Lemma namei_made m t n cur todo q : q ≠ [] → namei n false m cur todo = Ok q → m !! q = None → namei n true (<[q := Dir t]> m) cur todo = Ok q.
Proof.
  intros Hq0. revert cur todo. induction n as [|n IHn]; intros cur todo; revert cur; induction todo as [|c r IH]; intros cur E Hq; cbn in E |- *; try done;
    (destruct (bool_decide (c = dotdot)); [by apply IH|]).
  - destruct (m !! (cur ++ [c])) as [[| |]|] eqn:El.
    + destruct r; [|done]. injection E as <-. congruence.
    + destruct (bool_decide (r = [])) eqn:Er; [|done]. cbn in E. injection E as <-. congruence.
    + rewrite lookup_insert_ne, El by congruence. by apply IH.
    + destruct r; [|done]. injection E as <-. by rewrite lookup_insert.
  - destruct (m !! (cur ++ [c])) as [[| |]|] eqn:El.
    + destruct r; [|done]. injection E as <-. congruence.
    + rewrite lookup_insert_ne, El by congruence. destruct (bool_decide (r = [])) eqn:Er; cbn in E |- *; [injection E as <-; congruence|]. by apply IHn.
    + rewrite lookup_insert_ne, El by congruence. by apply IH.
    + destruct r; [|done]. injection E as <-. by rewrite lookup_insert.
Qed.
(** Every entry is in a directory. *)
Definition treelike (m : fs) : Prop := ∀ p n, m !! p = Some n → p ≠ [] ∧ dir_at m (parent p).
Lemma wf_treelike m : wf_fs m → treelike m.
Proof. intros H p n E. destruct (H p n E) as (? & _ & ?). done. Qed.
Lemma treelike_parent m p : treelike m → dir_at m p → dir_at m (parent p).
Proof.
  intros Ht [t E]. destruct (decide (p = [])) as [->|Hp]; [apply dir_at_nil|]. rewrite node_at_ne in E by done. exact (proj2 (Ht _ _ E)).
Qed.
Lemma namei_parent m n f cur todo q : treelike m → dir_at m cur → namei n f m cur todo = Ok q → dir_at m (parent q).
Proof.
  intros Ht. revert cur todo. induction n as [|n IHn]; intros cur todo; revert cur; induction todo as [|c r IH]; intros cur Hc E; cbn in E;
    try (injection E as <-; by apply treelike_parent); (destruct (bool_decide (c = dotdot)); [apply (IH (parent cur)); [by apply treelike_parent|done]|]).
  - destruct (m !! (cur ++ [c])) as [[| |]|] eqn:El.
    + destruct r; [|done]. injection E as <-. by rewrite parent_snoc.
    + destruct (_ && _); [|done]. injection E as <-. by rewrite parent_snoc.
    + apply (IH (cur ++ [c])); [|done]. eexists. rewrite node_at_app_ne by done. exact El.
    + destruct r; [|done]. injection E as <-. by rewrite parent_snoc.
  - destruct (m !! (cur ++ [c])) as [[| |]|] eqn:El.
    + destruct r; [|done]. injection E as <-. by rewrite parent_snoc.
    + destruct (_ && _); [injection E as <-; by rewrite parent_snoc|]. apply (IHn _ _) in E; [done|]. case_match; [apply dir_at_nil|done].
    + apply (IH (cur ++ [c])); [|done]. eexists. rewrite node_at_app_ne by done. exact El.
    + destruct r; [|done]. injection E as <-. by rewrite parent_snoc.
Qed.
Lemma dir_at_grown now m m' p : grown now m m' → dir_at m p → dir_at m' p.
Proof. intros Hg [t E]. exists t. by eapply grown_node. Qed.

Section made.
  Context (may : path → bool) (now : Z).
  Lemma mkdir_perm_spec p m m' r : treelike m → mkdir_perm may now p m = (m', r) →
    treelike m' ∧ grown now m m'
    ∧ (r = Made → ∃ q, resolve true m' p = Ok q ∧ m' !! q = Some (Dir now) ∧ q ≠ [] ∧ entries m' q = [])
    ∧ (r ≠ Made → m' = m).
  Proof.
    intros Ht. unfold mkdir_perm. destruct (resolve false m p) as [q|x] eqn:Er; [|intros [= <- <-]; split; [done|]; split; [apply grown_refl|]; done].
    destruct (node_at m q) as [n|] eqn:En; [intros [= <- <-]; split; [done|]; split; [apply grown_refl|]; done|].
    destruct (may (parent q)); [|intros [= <- <-]; split; [done|]; split; [apply grown_refl|]; done]. intros [= <- <-].
    assert (Hq : q ≠ []) by (intros ->; done). rewrite node_at_ne in En by done.
    assert (Hg : grown now m (<[q := Dir now]> m)).
    { intros k. destruct (decide (k = q)) as [->|]; [right; by rewrite lookup_insert|left; by rewrite lookup_insert_ne]. }
    split; [|split; [done|split; [|done]]].
    - intros k n. destruct (decide (k = q)) as [->|Hk].
      + intros _. split; [done|]. apply (dir_at_grown _ _ _ _ Hg). exact (namei_parent _ _ _ _ _ _ Ht (dir_at_nil m) Er).
      + rewrite lookup_insert_ne by done. intros E. destruct (Ht _ _ E) as [? ?]. split; [done|]. by apply (dir_at_grown _ _ _ _ Hg).
    - intros _. exists q. split; [exact (namei_made _ _ _ _ _ _ Hq Er En)|]. split; [by rewrite lookup_insert|]. split; [done|].
      destruct (entries _ q) as [|[x n] l] eqn:Ee; [done|]. exfalso.
      assert (Hin : (x, n) ∈ entries (<[q := Dir now]> m) q) by (rewrite Ee; by left). apply elem_of_entries in Hin.
      rewrite lookup_insert_ne in Hin by (intros E; apply (f_equal length) in E; rewrite app_length in E; cbn in E; lia).
      destruct (Ht _ _ Hin) as [_ [t Hd]]. rewrite parent_snoc in Hd. rewrite node_at_ne in Hd by done. congruence.
  Qed.
  Lemma makedirs_new_spec rp : ∀ m m' r, treelike m → makedirs_new may now rp m = (m', r) →
    treelike m' ∧ grown now m m'
    ∧ (r = Made → ∃ q, resolve true m' (rev rp) = Ok q ∧ m' !! q = Some (Dir now) ∧ q ≠ [] ∧ entries m' q = []).
  Proof.
    induction rp as [|x rp IH]; intros m m' r Ht E; cbn [makedirs_new] in E; [injection E as <- <-; split; [done|]; split; [apply grown_refl|]; done|].
    assert (∃ m1 r1, (if exists_ m (rev rp) then (m, Made) else match makedirs_new may now rp m with (m1, MadeErr FileExists) => (m1, Made) | x => x end) = (m1, r1)
      ∧ treelike m1 ∧ grown now m m1) as (m1 & r1 & E1 & Ht1 & Hg1).
    { destruct (exists_ m (rev rp)); [exists m, Made; split; [done|]; split; [done|]; apply grown_refl|].
      destruct (makedirs_new may now rp m) as [m1 r1] eqn:E1. destruct (IH _ _ _ Ht E1) as (? & ? & _).
      destruct r1 as [| |[]]; (eexists _, _; split; [reflexivity|]; split; assumption). }
    rewrite E1 in E. destruct r1; [|injection E as <- <-; done..].
    destruct (mkdir_perm_spec _ _ _ _ Ht1 E) as (Ht2 & Hg2 & H3 & _). split; [done|]. split; [by eapply grown_trans|done].
  Qed.
  Lemma check_dir_spec p e m m' r : treelike m → check_dir may now p e m = (m', r) →
    treelike m' ∧ grown now m m'
    ∧ (e = false → m' = m)
    ∧ (r = Accepted → isdir m' p = true ∧ (e = true → scandir m' p = Ok [])
        ∧ (exists_ m p = true → ∃ q, resolve true m p = Ok q ∧ may q = true)).
  Proof.
    intros Ht. unfold check_dir. destruct (exists_ m p) eqn:Ex.
    - assert (∃ q, resolve true m p = Ok q) as [q Eq]. { unfold exists_, stat in Ex. destruct (resolve true m p); [by eexists|done]. } rewrite Eq.
      destruct (isdir m p) eqn:Ed; [|intros [= <- <-]; split; [done|]; split; [apply grown_refl|]; done].
      destruct (may q) eqn:Emay; cbn [negb]; [|intros [= <- <-]; split; [done|]; split; [apply grown_refl|]; done].
      destruct (e && _) eqn:Ee; intros [= <- <-]; (split; [done|]; split; [apply grown_refl|]; split; [done|]); [done|].
      intros _. split; [done|]. split; [|intros _; by exists q]. intros ->. cbn in Ee. apply negb_false_iff, bool_decide_eq_true in Ee.
      unfold isdir, stat in Ed. unfold scandir. rewrite Eq in *. destruct (node_at m q) as [[]|]; try done. by rewrite Ee.
    - destruct e; [|intros [= <- <-]; split; [done|]; split; [apply grown_refl|]; done].
      destruct (makedirs_new may now (rev p) m) as [m1 r1] eqn:Em. destruct (makedirs_new_spec _ _ _ _ Ht Em) as (Ht1 & Hg1 & Hm).
      destruct r1; intros [= <- <-]; (split; [done|]; split; [done|]; split; [done|]); [|done..]. intros _.
      destruct (Hm eq_refl) as (q & Er & El & Hq & He). rewrite rev_involutive in Er. unfold isdir, stat, scandir. rewrite Er, node_at_ne, El by done. split; [done|]. split; [by rewrite He|done].
  Qed.
End made.

(** Both directories exist, the one that is to be filled is empty, those that
    existed before can be written to, and nothing happened to the files but that
    directories were created. *)
Theorem C92_accepted may now local remote add m m' : wf_fs m → init_checks may now local remote add m = (m', Accepted) →
  isdir m' local = true ∧ isdir m' remote = true
  ∧ scandir m' (if add then local else remote) = Ok []
  ∧ (exists_ m local = true → ∃ q, resolve true m local = Ok q ∧ may q = true)
  ∧ (isdir m remote = true → ∃ q, resolve true m remote = Ok q ∧ may q = true)
  ∧ ∀ q, m' !! q = m !! q ∨ m !! q = None ∧ m' !! q = Some (Dir now).
Proof.
  intros Hwf. unfold init_checks. destruct (check_dir may now local add m) as [m1 r1] eqn:E1.
  destruct (check_dir_spec _ _ _ _ _ _ _ (wf_treelike _ Hwf) E1) as (Ht1 & Hg1 & Hs1 & Ha1). destruct r1; try done. intros E2.
  destruct (check_dir_spec _ _ _ _ _ _ _ Ht1 E2) as (_ & Hg2 & Hs2 & Ha2). destruct (Ha1 eq_refl) as (Hd1 & He1 & Hw1). destruct (Ha2 eq_refl) as (Hd2 & He2 & Hw2).
  split; [by eapply isdir_grown|]. split; [done|].
  split; [destruct add; [rewrite (Hs2 eq_refl); by apply He1|by apply He2]|]. split; [done|]. split; [|by eapply grown_trans].
  unfold isdir, stat. destruct (resolve true m remote) as [q|] eqn:Er; [|done]. destruct (node_at m q) as [n|] eqn:En; [|done]. intros _.
  assert (resolve true m1 remote = Ok q) as Er1 by (exact (namei_grown _ _ _ _ _ _ _ _ Hg1 Er ltac:(by eexists))).
  destruct Hw2 as (q' & Eq' & Hmay); [|exists q; split; [done|]; congruence].
  unfold exists_, stat. rewrite Er1, (grown_node _ _ _ _ _ Hg1 En). done.
Qed.
Print Assumptions C92_accepted.
(** However the checks end, nothing else happens to the files. *)
Theorem C92_harmless may now local remote add m m' r : wf_fs m → init_checks may now local remote add m = (m', r) →
  ∀ q, m' !! q = m !! q ∨ m !! q = None ∧ m' !! q = Some (Dir now).
Proof.
  intros Hwf. unfold init_checks. destruct (check_dir may now local add m) as [m1 r1] eqn:E1.
  destruct (check_dir_spec _ _ _ _ _ _ _ (wf_treelike _ Hwf) E1) as (Ht1 & Hg1 & _). destruct r1; [|intros [= <- <-]; exact Hg1..]. intros E2.
  destruct (check_dir_spec _ _ _ _ _ _ _ Ht1 E2) as (_ & Hg2 & _). by eapply grown_trans.
Qed.
Print Assumptions C92_harmless.

(** ** Good directories are accepted *)
Section good.
  Context (may : path → bool) (now : Z).
  Lemma makedirs_new_ok p : ∀ m, wf_fs m → valid_comps p → p ≠ [] → (∀ q, q `prefix_of` p → may q = true) → dirs_ok m p → m !! p = None →
    ∃ m', makedirs_new may now (rev p) m = (m', Made) ∧ wf_fs m' ∧ dir_at m' p.
  Proof.
    induction p as [|x p IH] using rev_ind; intros m Hwf Hv Hp Hmay Hok Hn; [done|].
    rewrite rev_unit. cbn [makedirs_new]. rewrite rev_involutive. apply valid_app in Hv as Hv'. destruct Hv' as [Hv1 Hv2].
    assert (Hok1 : dirs_ok m p) by (intros q Hq Hqp; apply Hok; [done|]; by apply prefix_app_r).
    assert (∃ m1, (if exists_ m p then (m, Made) else match makedirs_new may now (rev p) m with (m1, MadeErr FileExists) => (m1, Made) | x => x end) = (m1, Made)
      ∧ wf_fs m1 ∧ dir_at m1 p ∧ m1 !! (p ++ [x]) = None) as (m1 & -> & Hwf1 & Hd1 & Hn1).
    { destruct (exists_ m p) eqn:Ex.
      - exists m. split; [done|]. split; [done|]. split; [|done]. destruct (decide (p = [])) as [->|Hp']; [apply dir_at_nil|].
        destruct (Hok1 p Hp' (reflexivity p)) as [E|]; [|done]. rewrite exists_no_links in Ex by done. apply bool_decide_eq_true in Ex as [n En]. rewrite node_at_ne in En by done. congruence.
      - assert (Hp' : p ≠ []) by (intros ->; done).
        assert (m !! p = None) as E. { rewrite exists_no_links in Ex by done. apply bool_decide_eq_false in Ex. rewrite node_at_ne in Ex by done. by apply eq_None_not_Some. }
        destruct (IH m Hwf Hv1 Hp' ltac:(intros; apply Hmay; by apply prefix_app_r) Hok1 E) as (m1 & E1 & Hwf1 & Hd1). exists m1. rewrite E1. split; [done|]. split; [done|]. split; [done|].
        destruct (makedirs_new_spec may now _ _ _ _ (wf_treelike _ Hwf) E1) as (_ & Hg & Hm). destruct (Hm eq_refl) as (q & Er & _ & _ & He).
        rewrite rev_involutive in Er. rewrite resolve_dir in Er by done. injection Er as <-.
        destruct (m1 !! (p ++ [x])) as [n|] eqn:El; [|done]. apply elem_of_entries in El. rewrite He in El. by apply elem_of_nil in El. }
    cbn [rev]. rewrite rev_involutive. unfold mkdir_perm. rewrite resolve_nofollow; [|done|done|by rewrite parent_snoc].
    rewrite node_at_ne, Hn1, parent_snoc by (by destruct p). rewrite Hmay by (by apply prefix_app_r). eexists. split; [reflexivity|]. split.
    - apply wf_insert; [done|done|by destruct p|by rewrite parent_snoc|congruence].
    - eexists. rewrite node_at_ne by (by destruct p). apply lookup_insert.
  Qed.
  Lemma check_dir_ok p (e : bool) m : wf_fs m → valid_comps p → p ≠ [] → (∀ q, q `prefix_of` p → may q = true) →
    (if e then dirs_ok m p ∧ (∀ x : list N, m !! (p ++ [x]) = None) else dir_at m p) →
    ∃ m', check_dir may now p e m = (m', Accepted) ∧ wf_fs m'.
  Proof.
    intros Hwf Hv Hp Hmay H. unfold check_dir. assert (Hc : dir_at m p ∨ (e = true ∧ m !! p = None)).
    { destruct e; [|by left]. destruct H as [Hok _]. destruct (Hok p Hp (reflexivity p)) as [?|?]; auto. }
    destruct Hc as [Hd|[-> Hn]].
    - assert (exists_ m p = true) as ->. { unfold exists_, stat. rewrite resolve_dir by done. by destruct Hd as [t ->]. }
      rewrite resolve_dir, isdir_dir, Hmay by done. cbn [negb]. exists m. split; [|done].
      destruct e; [|done]. destruct H as [_ He]. rewrite bool_decide_true; [done|]. apply entries_nil. intros q n Eq [x ->]. congruence.
    - destruct H as [Hok _]. assert (exists_ m p = false) as ->.
      { rewrite exists_no_links by done. apply bool_decide_false. rewrite node_at_ne, Hn by done. by intros [? ?]. }
      destruct (makedirs_new_ok p m Hwf Hv Hp Hmay Hok Hn) as (m' & -> & Hwf' & _). by exists m'.
  Qed.
End good.
(** A directory that the user may write to is accepted if it exists (without
    links on the way), and, where an empty one is needed, if it is empty or can
    be created. *)
Theorem C92_valid may now local remote (add : bool) m : wf_fs m → valid_comps local → valid_comps remote → local ≠ [] → remote ≠ [] →
  (∀ q, may q = true) →
  (if add then dirs_ok m local ∧ (∀ x : list N, m !! (local ++ [x]) = None) else dir_at m local) →
  (if add then dir_at m remote else dirs_ok m remote ∧ (∀ x : list N, m !! (remote ++ [x]) = None)) →
  ∃ m', init_checks may now local remote add m = (m', Accepted).
Proof.
  intros Hwf Hv1 Hv2 Hp1 Hp2 Hmay H1 H2. unfold init_checks.
  destruct (check_dir_ok may now local add m Hwf Hv1 Hp1 ltac:(auto) H1) as (m1 & E1 & Hwf1). rewrite E1.
  destruct (check_dir_spec _ _ _ _ _ _ _ (wf_treelike _ Hwf) E1) as (_ & Hg & Hs & _).
  destruct (check_dir_ok may now remote (negb add) m1 Hwf1 Hv2 Hp2 ltac:(auto)) as (m2 & -> & _); [|by eexists].
  destruct add; cbn [negb]; [by eapply dir_at_grown|by rewrite (Hs eq_refl)].
Qed.
Print Assumptions C92_valid.
(** ** What is not refused *)
(** The remote directory may be inside the local one, and one empty directory may
    be both. *)
Theorem C92_overlap_refuted :
  (∃ m local remote, wf_fs m ∧ (local `prefix_of` remote) ∧ ∃ m', init_checks (λ _, true) 5 local remote false m = (m', Accepted))
  ∧ ∃ m dir, wf_fs m ∧ ∃ m', init_checks (λ _, true) 5 dir dir true m = (m', Accepted).
Proof.
  assert (Hwf : wf_fs {[ [lit "h"] := Dir 1 ]}).
  { intros p n [<- <-]%lookup_singleton_Some. split; [done|]. split; [apply (bool_decide_unpack _); vm_compute; exact I|apply dir_at_nil]. }
  split.
  - exists {[ [lit "h"] := Dir 1 ]}, [lit "h"], [lit "h"; lit "r"]. split; [done|]. split; [by exists [lit "r"]|]. eexists. vm_compute. reflexivity.
  - exists {[ [lit "h"] := Dir 1 ]}, [lit "h"]. split; [done|]. eexists. vm_compute. reflexivity.
Qed.
Print Assumptions C92_overlap_refuted.
(** A directory that cannot be created because a file is in the way, or a dangling
    link, gives no message: the exception goes through. *)
Theorem C92_raised_refuted :
  ∃ m local remote, wf_fs m ∧ dir_at m local ∧ init_checks (λ _, true) 5 local remote false m = (m, Raised NotADir)
  ∧ ∃ remote', init_checks (λ _, true) 5 local remote' false m = (m, Raised FileExists).
Proof.
  exists (list_to_map [([lit "h"], Dir 1); ([lit "f"], File [] 1); ([lit "k"], Link (lit "gone") 1)]), [lit "h"], [lit "f"; lit "r"].
  split; [|split; [by eexists|split; [vm_compute; reflexivity|exists [lit "k"]; vm_compute; reflexivity]]].
  intros p n Hp. apply elem_of_list_to_map_2 in Hp. rewrite !elem_of_cons, elem_of_nil in Hp.
  destruct_or?; simplify_eq; (split; [done|split; [apply (bool_decide_unpack _); vm_compute; exact I|apply dir_at_nil]]).
Qed.
Print Assumptions C92_raised_refuted.
Lemma makedirs_new_cases may now p : ∀ m, wf_fs m → valid_comps p → p ≠ [] → dirs_ok m p → m !! p = None →
  (∃ m', makedirs_new may now (rev p) m = (m', Made) ∧ wf_fs m' ∧ dir_at m' p) ∨ (∃ m', makedirs_new may now (rev p) m = (m', MadePerm)).
Proof.
  induction p as [|x p IH] using rev_ind; intros m Hwf Hv Hp Hok Hn; [done|].
  rewrite rev_unit. cbn [makedirs_new]. rewrite rev_involutive. apply valid_app in Hv as Hv'. destruct Hv' as [Hv1 Hv2].
  assert (Hok1 : dirs_ok m p) by (intros q Hq Hqp; apply Hok; [done|]; by apply prefix_app_r).
  assert ((∃ m1, (if exists_ m p then (m, Made) else match makedirs_new may now (rev p) m with (m1, MadeErr FileExists) => (m1, Made) | x => x end) = (m1, Made)
    ∧ wf_fs m1 ∧ dir_at m1 p ∧ m1 !! (p ++ [x]) = None)
    ∨ ∃ m1, (if exists_ m p then (m, Made) else match makedirs_new may now (rev p) m with (m1, MadeErr FileExists) => (m1, Made) | x => x end) = (m1, MadePerm))
    as [(m1 & -> & Hwf1 & Hd1 & Hn1)|(m1 & ->)]; [| |right; by eexists].
  { destruct (exists_ m p) eqn:Ex.
    - left. exists m. split; [done|]. split; [done|]. split; [|done]. destruct (decide (p = [])) as [->|Hp']; [apply dir_at_nil|].
      destruct (Hok1 p Hp' (reflexivity p)) as [E|]; [|done]. rewrite exists_no_links in Ex by done. apply bool_decide_eq_true in Ex as [n En]. rewrite node_at_ne in En by done. congruence.
    - assert (Hp' : p ≠ []) by (intros ->; done).
      assert (m !! p = None) as E. { rewrite exists_no_links in Ex by done. apply bool_decide_eq_false in Ex. rewrite node_at_ne in Ex by done. by apply eq_None_not_Some. }
      destruct (IH m Hwf Hv1 Hp' Hok1 E) as [(m1 & E1 & Hwf1 & Hd1)|(m1 & E1)]; [|right; exists m1; by rewrite E1]. left. exists m1. rewrite E1. split; [done|]. split; [done|]. split; [done|].
      destruct (makedirs_new_spec may now _ _ _ _ (wf_treelike _ Hwf) E1) as (_ & Hg & Hm). destruct (Hm eq_refl) as (q & Er & _ & _ & He).
      rewrite rev_involutive in Er. rewrite resolve_dir in Er by done. injection Er as <-.
      destruct (m1 !! (p ++ [x])) as [n|] eqn:El; [|done]. apply elem_of_entries in El. rewrite He in El. by apply elem_of_nil in El. }
  cbn [rev]. rewrite rev_involutive. unfold mkdir_perm. rewrite resolve_nofollow; [|done|done|by rewrite parent_snoc].
  rewrite node_at_ne, Hn1, parent_snoc by (by destruct p). destruct (may p); [left|right; by eexists]. eexists. split; [reflexivity|]. split.
  - apply wf_insert; [done|done|by destruct p|by rewrite parent_snoc|congruence].
  - eexists. rewrite node_at_ne by (by destruct p). apply lookup_insert.
Qed.
Lemma check_dir_cases may now p e m m' r : wf_fs m → valid_comps p → p ≠ [] → dirs_ok m p → check_dir may now p e m = (m', r) → (∀ x, r ≠ Raised x) ∧ (r = Accepted → wf_fs m').
Proof.
  intros Hwf Hv Hp Hok. unfold check_dir. destruct (exists_ m p) eqn:Ex.
  - assert (∃ q, resolve true m p = Ok q) as [q ->]. { unfold exists_, stat in Ex. destruct (resolve true m p); [by eexists|done]. }
    repeat case_match; intros [= <- <-]; done.
  - destruct e; [|intros [= <- <-]; done].
    assert (m !! p = None) as E. { rewrite exists_no_links in Ex by done. apply bool_decide_eq_false in Ex. rewrite node_at_ne in Ex by done. by apply eq_None_not_Some. }
    destruct (makedirs_new_cases may now p m Hwf Hv Hp Hok E) as [(m1 & -> & Hwf1 & Hd1)|(m1 & ->)]; intros [= <- <-]; done.
Qed.
(** Nothing is raised if there are only directories on the way (or nothing);
    in particular, missing permissions are reported by a message. *)
Theorem C92_message_partial may now local remote add m m' r : wf_fs m → valid_comps local → valid_comps remote → local ≠ [] → remote ≠ [] →
  dirs_ok m local → dirs_ok m remote → init_checks may now local remote add m = (m', r) → r = Accepted ∨ ∃ c, r = Refused c.
Proof.
  intros Hwf Hv1 Hv2 Hp1 Hp2 Hok1 Hok2. unfold init_checks. destruct (check_dir may now local add m) as [m1 r1] eqn:E1.
  destruct (check_dir_cases _ _ _ _ _ _ _ Hwf Hv1 Hp1 Hok1 E1) as [Hr1 Hwf1]. destruct (check_dir_spec _ _ _ _ _ _ _ (wf_treelike _ Hwf) E1) as (_ & Hg & _).
  destruct r1 as [|c|x]; [|intros [= <- <-]; right; by eexists|by destruct (Hr1 x)]. intros E2.
  assert (Hok2' : dirs_ok m1 remote). { intros q Hq Hqp. destruct (Hg q) as [Eq|[_ Eq]]; [|right; eexists; by rewrite node_at_ne]. rewrite Eq. destruct (Hok2 q Hq Hqp); [by left|right; by eapply dir_at_grown]. }
  destruct (check_dir_cases _ _ _ _ _ _ _ (Hwf1 eq_refl) Hv2 Hp2 Hok2' E2) as [Hr2 _]. destruct r as [|c|x]; [by left|right; by eexists|by destruct (Hr2 x)].
Qed.
Print Assumptions C92_message_partial.

Definition exD : fs := list_to_map [([lit "h"], Dir 1); ([lit "h"; lit "a"], File [] 1); ([lit "mnt"], Dir 1)].
Lemma exD_wf : wf_fs exD.
Proof.
  intros p n Hp. apply elem_of_list_to_map_2 in Hp. rewrite !elem_of_cons, elem_of_nil in Hp.
  destruct_or?; simplify_eq; (split; [done|split; [apply (bool_decide_unpack _); vm_compute; exact I|by eexists]]).
Qed.
(** The remote directory is created; with --add-remote the local directory may
    not have files in it; with no right to write to /mnt there is a message. *)
Example C92_ex :
  wf_fs exD
  ∧ init_checks (λ _, true) 5 [lit "h"] [lit "mnt"; lit "r"; lit "s"] false exD
    = (<[ [lit "mnt"; lit "r"; lit "s"] := Dir 5 ]> (<[ [lit "mnt"; lit "r"] := Dir 5 ]> exD), Accepted)
  ∧ init_checks (λ _, true) 5 [lit "h"] [lit "mnt"] true exD = (exD, Refused CNotEmpty)
  ∧ init_checks (λ q, bool_decide (q ≠ [lit "mnt"])) 5 [lit "h"] [lit "mnt"; lit "r"; lit "s"] false exD = (exD, Refused CNoAccessAbove)
  ∧ dirs_ok exD [lit "mnt"; lit "r"; lit "s"] ∧ valid_comps [lit "mnt"; lit "r"; lit "s"] ∧ dir_at exD [lit "h"].
Proof.
  split; [exact exD_wf|]. split; [vm_compute; reflexivity|]. split; [vm_compute; reflexivity|]. split; [vm_compute; reflexivity|]. split; [|split; [apply (bool_decide_unpack _); vm_compute; exact I|by eexists]].
  intros q Hq Hp. assert (Hin : q ∈ prefixes [lit "mnt"; lit "r"; lit "s"]) by (by apply elem_of_prefixes).
  cbn [prefixes map] in Hin. rewrite !elem_of_cons, elem_of_nil in Hin. destruct Hin as [->|[->|[->|[]]]]; [right; by eexists|left; vm_compute; reflexivity..].
Qed.
