(** Facts for C28: conflict names and the renaming of conflicting files. *)
From Coq Require Import QArith Qcanon.
From Verif Require Export CutProofs SyncProofs.
From stdpp Require Import options.

Lemma path_comps_rel l : l ≠ [] → valid_comps l → path_comps (rel_path l) = l.
Proof.
  intros Hn Hv. pose proof (path_comps_abs l Hv) as H. unfold path_comps in *. rewrite split_abs in H by done.
  unfold rel_path. by rewrite split_on_join by (done || by apply valid_comps_noslash).
Qed.
Lemma head_raw_rel l x : valid_name x → head_raw (rel_path (l ++ [x])) ++ x = rel_path (l ++ [x]).
Proof. intros Hx. rewrite <-(basename_rel l x Hx) at 2. apply head_raw_basename. Qed.
Lemma rel_path_head l x y : valid_name x → head_raw (rel_path (l ++ [x])) ++ y = rel_path (l ++ [y]).
Proof.
  intros Hx. unfold rel_path. destruct l as [|z l].
  - simpl. by rewrite head_raw_none by by apply valid_noslash.
  - rewrite !join_on_app by done. simpl (join_on _ [_]). rewrite head_raw_app by by apply valid_noslash.
    by rewrite <-app_assoc.
Qed.
Lemma conflict_name_spec C d x : valid_comps d → valid_name x →
  ∃ y, conflict_name C (d ++ [x]) = d ++ [y] ∧ valid_name y ∧ y ≠ x
    ∧ timestamp_path (c_dt C) (rel_path (d ++ [x])) (lit "conflict") = rel_path (d ++ [y]).
Proof.
  intros Hd Hx. set (t := timestamp_path (c_dt C) (rel_path (d ++ [x])) (lit "conflict")).
  assert (t = rel_path (d ++ [basename t])) as Et.
  { rewrite <-(rel_path_head d x) by done. unfold t at 2.
    rewrite <-(timestamp_path_dir (c_dt C) (rel_path (d ++ [x]))). fold t. symmetry. apply head_raw_basename. }
  assert (length (rel_path (d ++ [x])) + 3 ≤ length t) as Hl.
  { unfold t. destruct (splitext (rel_path (d ++ [x]))) as [n e] eqn:E. rewrite (timestamp_path_conflict _ _ _ _ E).
    rewrite (splitext_app _ _ _ E) at 1. rewrite !app_length. change (length (lit "_conflict-")) with 10. lia. }
  assert (length x + 3 ≤ length (basename t)) as Hl2.
  { pose proof (f_equal length (rel_path_head d x (basename t) Hx)) as G1. rewrite <-Et, app_length in G1.
    pose proof (f_equal length (head_raw_rel d x Hx)) as G2. rewrite app_length in G2. lia. }
  assert (valid_name (basename t)) as Hv.
  { split_and!; [by intros E; rewrite E in Hl2; simpl in Hl2; lia|apply basename_noslash| |];
      intros E; rewrite E in Hl2; simpl in Hl2; lia. }
  exists (basename t). split_and!; [|done|intros E; rewrite E in Hl2; lia|done].
  unfold conflict_name. fold t. rewrite Et at 1. apply path_comps_rel; [by destruct d|]. apply valid_app. split; [done|by apply valid_one].
Qed.
Lemma conflict_name_parent C p : p ≠ [] → valid_comps p →
  parent (conflict_name C p) = parent p ∧ valid_comps (conflict_name C p) ∧ conflict_name C p ≠ [] ∧ conflict_name C p ≠ p.
Proof.
  intros Hp Hv. destruct (snoc_parent p Hp) as [x Hx]. rewrite Hx in Hv. apply valid_app in Hv as [Hvd Hvx]. apply valid_one in Hvx.
  destruct (conflict_name_spec C _ x Hvd Hvx) as (y & Ey & Hvy & Hne & _). rewrite <-Hx in Ey. rewrite Ey, parent_snoc. split_and!.
  - done.
  - apply valid_app. split; [done|by apply valid_one].
  - by destruct (parent p).
  - rewrite Hx at 2. intros [_ [= E]]%app_inj_tail_iff. done.
Qed.
Lemma conflict_name_inj C p q : p ≠ [] → q ≠ [] → valid_comps p → valid_comps q → conflict_name C p = conflict_name C q → p = q.
Proof.
  intros Hp Hq Hvp Hvq E. apply rel_path_inj; [done..|]. apply (timestamp_path_inj (c_dt C) (c_dt C)).
  assert (∀ p, p ≠ [] → valid_comps p → timestamp_path (c_dt C) (rel_path p) (lit "conflict") = rel_path (conflict_name C p)) as G.
  { clear. intros p Hp Hv. destruct (snoc_parent p Hp) as [x Hx]. rewrite Hx in Hv. apply valid_app in Hv as [Hvd Hvx]. apply valid_one in Hvx.
    destruct (conflict_name_spec C _ x Hvd Hvx) as (y & Ey & _ & _ & Et). rewrite <-Hx in Ey, Et. by rewrite Ey, Et. }
  rewrite !G by done. by rewrite E.
Qed.

(** ** Renaming *)
Section shift.
  Context (C : conf) (root : path) (m0 : fs) (Hwf0 : wf_fs m0).
  Context (l : list path) (Hnd : NoDup l).
  Context (Hl : ∀ p, p ∈ l → p ≠ [] ∧ ∃ n, m0 !! (root ++ p) = Some n ∧ is_Dir n = false).
  Context (Hfree : ∀ p, p ∈ l → m0 !! (root ++ conflict_name C p) = None).
  Record shifted (pre : list path) (m : fs) : Prop := {
    sh_wf : wf_fs m;
    sh_old : ∀ p, p ∈ pre → m !! (root ++ p) = None;
    sh_new : ∀ p, p ∈ pre → m !! (root ++ conflict_name C p) = m0 !! (root ++ p);
    sh_rest : ∀ k, (∀ p, p ∈ pre → k ≠ root ++ p ∧ k ≠ root ++ conflict_name C p) → m !! k = m0 !! k
  }.
  Lemma shifted_nil : shifted [] m0.
  Proof using Hwf0. split; [done|..]; [intros p Hp; by apply elem_of_nil in Hp..|done]. Qed.
  Lemma sh_valid p : p ∈ l → valid_comps p.
  Proof using Hl Hwf0. intros Hp. destruct (Hl p Hp) as (_ & n & Hn & _). apply (wf_valid m0 Hwf0) in Hn. by apply valid_app in Hn as [_ ?]. Qed.
  Lemma conflict_not_old p q : p ∈ l → q ∈ l → conflict_name C p ≠ q.
  Proof using Hl Hfree. intros Hp Hq E. pose proof (Hfree p Hp) as Hn. rewrite E in Hn. destruct (Hl q Hq) as (_ & n & Hq' & _). congruence. Qed.
  Lemma shifted_snoc pre p m : (∀ q, q ∈ pre → q ∈ l) → p ∈ l → p ∉ pre → shifted pre m →
    let a := root ++ p in let b := root ++ conflict_name C p in
    (∃ n, m !! a = Some n) ∧ m !! b = None ∧ dir_at m (parent b) ∧ ¬ a `prefix_of` b ∧ shifted (pre ++ [p]) (move a b m).
  Proof using Hl Hfree Hwf0.
    intros Hpre Hp Hnp [H1 H2 H3 H4] a b. destruct (Hl p Hp) as (Hpn & n & Hn & Hd).
    assert (valid_comps p) as Hv by by apply sh_valid.
    destruct (conflict_name_parent C p Hpn Hv) as (Epar & Hvc & Hcn & Hcne).
    assert (m !! a = Some n) as Ha.
    { unfold a. rewrite H4; [done|]. intros q Hq. split; intros E%app_inv_head.
      - subst q. done.
      - symmetry in E. by apply (conflict_not_old q p) in E; [|apply Hpre|]. }
    assert (m !! b = None) as Hb.
    { unfold b. rewrite H4; [by apply Hfree|]. intros q Hq. split; intros E%app_inv_head.
      - by apply (conflict_not_old p q) in E; [| |apply Hpre].
      - apply conflict_name_inj in E; [by subst q|done|by apply Hl, Hpre|done|by apply sh_valid, Hpre]. }
    assert (dir_at m (parent b)) as Hdb.
    { unfold b. rewrite parent_app, Epar, <-parent_app by done. by apply (H1 _ _ Ha). }
    assert (∀ s, s ≠ [] → m !! (a ++ s) = None) as Hbelow.
    { intros s Hs. destruct (m !! (a ++ s)) as [k|] eqn:E; [|done]. destruct (wf_anc m H1 (a ++ s) a k E) as [t Ht].
      - by apply prefix_app_r.
      - intros E'. apply (f_equal length) in E'. rewrite app_length in E'. destruct s; [done|simpl in E'; lia].
      - unfold a in *. rewrite node_at_ne, Ha in Ht by by destruct root, p. injection Ht as ->. done. }
    assert (¬ a `prefix_of` b) as Hab.
    { intros Hpre'. assert (b = a) as E; [|unfold a, b in E; by apply app_inv_head in E].
      unfold a, b in Hpre'. apply prefix_app_inv in Hpre'.
      destruct Hpre' as [s Es]. destruct (snoc_parent p Hpn) as [x Hx]. destruct (snoc_parent _ Hcn) as [y Hy].
      unfold a, b. f_equal. rewrite Es. destruct s as [|z s]; [by rewrite app_nil_r|]. exfalso.
      rewrite Hy, Epar in Es. rewrite Hx in Es at 2. apply (f_equal length) in Es. rewrite !app_length in Es. simpl in Es. lia. }
    assert (∀ s, s ≠ [] → m !! (b ++ s) = None) as Hbs.
    { intros s Hs. eapply wf_missing_below; [done| |exact Hb|by apply prefix_app_r]. unfold b. by destruct root, (conflict_name C p). }
    split; [eauto|]. split; [done|]. split; [done|]. split; [done|].
    assert (∀ k, k ≠ a → k ≠ b → move a b m !! k = m !! k) as Hk.
    { intros k Hka Hkb. destruct (decide (b `prefix_of` k)) as [[s ->]|Hbk].
      - rewrite move_new by done. assert (s ≠ []) as Hs by (intros ->; by rewrite app_nil_r in Hkb). by rewrite Hbs, Hbelow.
      - rewrite move_old by done. destruct (decide _) as [[s ->]|]; [|done].
        assert (s ≠ []) as Hs by (intros ->; by rewrite app_nil_r in Hka). by rewrite Hbelow. }
    assert (∀ q, q ∈ pre → root ++ q ≠ a ∧ root ++ q ≠ b ∧ root ++ conflict_name C q ≠ a ∧ root ++ conflict_name C q ≠ b) as Hneq.
    { intros q Hq. unfold a, b. split_and!; intros E%app_inv_head.
      - by subst q.
      - symmetry in E. by apply (conflict_not_old p q) in E; [| |apply Hpre].
      - by apply (conflict_not_old q p) in E; [|apply Hpre|].
      - apply conflict_name_inj in E; [by subst q|by apply Hl, Hpre|done|by apply sh_valid, Hpre|done]. }
    split.
    - apply wf_move; [done| | | | |done|done].
      + unfold a. by destruct root, p.
      + unfold b. apply valid_app. split; [|done]. apply (wf_valid m H1) in Ha. unfold a in Ha. by apply valid_app in Ha as [? _].
      + unfold b. by destruct root, (conflict_name C p).
      + done.
    - intros q [Hq|Hq%elem_of_list_singleton]%elem_of_app.
      + destruct (Hneq q Hq) as (N1 & N2 & _). rewrite Hk by done. by apply H2.
      + subst q. fold a. rewrite move_old, decide_True; [done|done|]. intros [s E].
        destruct s as [|z s]; [rewrite app_nil_r in E; rewrite E in Ha; congruence|]. pose proof (Hbs (z :: s) ltac:(done)) as Hno. rewrite <-E in Hno. congruence.
    - intros q [Hq|Hq%elem_of_list_singleton]%elem_of_app.
      + destruct (Hneq q Hq) as (_ & _ & N3 & N4). rewrite Hk by done. by apply H3.
      + subst q. fold a b. pose proof (move_new a b m [] Hbs) as E. rewrite !app_nil_r in E. rewrite E, Ha. by symmetry.
    - intros k Hkk. rewrite Hk.
      + apply H4. intros q Hq. apply Hkk. apply elem_of_app. by left.
      + apply (Hkk p). apply elem_of_app. right. by apply elem_of_list_singleton.
      + apply (Hkk p). apply elem_of_app. right. by apply elem_of_list_singleton.
  Qed.
  Lemma shift_loop_wp (I : fs → Prop) (Q : res unit → fs → Prop) :
    (∀ pre m, pre `prefix_of` l → shifted pre m → I m) → (∀ m, shifted l m → Q (Ok tt) m) →
    wp (for_ (with_new C l) (λ on, rename (root ++ on.1) (root ++ on.2))) I Q m0.
  Proof using Hl Hfree Hwf0 Hnd.
    intros HI HQ. apply (wp_for_inv I _ _ (λ pre m, shifted (map fst pre) m)).
    - apply shifted_nil.
    - intros pre [p c] rest m El Hs. cbn [fst snd].
      assert (l = map fst pre ++ p :: map fst rest) as El'.
      { apply (f_equal (map fst)) in El. unfold with_new in El. rewrite map_map, map_id, map_app in El. exact El. }
      assert (c = conflict_name C p) as ->.
      { assert ((p, c) ∈ with_new C l) as Hin by (rewrite El; apply elem_of_app; right; left). unfold with_new in Hin.
        apply elem_of_list_fmap in Hin as (q & E & _). by injection E as -> ->. }
      destruct (shifted_snoc (map fst pre) p m) as ([n Hn] & Hb & Hd & Hab & Hs').
      + intros q Hq. rewrite El'. set_solver.
      + rewrite El'. set_solver.
      + rewrite El' in Hnd. apply NoDup_app in Hnd as (_ & Hd & _). intros Hin. apply (Hd p Hin). left.
      + done.
      + assert (p ∈ l) as Hp by (rewrite El'; set_solver). destruct (Hl p Hp) as (Hpn & _). pose proof (sh_valid p Hp) as Hv.
        destruct (conflict_name_parent C p Hpn Hv) as (Epar & Hvc & Hcn & Hcne).
        eapply rename_wp; [apply Hs|exact Hn| | |done|done|done| |].
        * apply valid_app. split; [|done]. apply (wf_valid m (sh_wf _ _ Hs)) in Hn. by apply valid_app in Hn as [? _].
        * by destruct root, (conflict_name C p).
        * apply (HI (map fst pre ++ [p])); [|done]. rewrite El'. exists (map fst rest). by rewrite <-app_assoc.
        * by rewrite map_app.
    - intros m Hm. apply HQ. unfold with_new in Hm. by rewrite map_map, map_id in Hm.
  Qed.
End shift.

(** ** The conflicts *)
(** The local database has the path as a directory. *)
Definition db_dir (ldb : lmap) (p : path) : Prop := ∃ d, ldb !! p = Some d ∧ ld_dir d = true.
Global Instance db_dir_dec ldb p : Decision (db_dir ldb p).
Proof.
  destruct (ldb !! p) as [d|] eqn:E; [destruct (ld_dir d) eqn:Ed|].
  - left. by exists d.
  - right. intros (d' & H & ?). rewrite E in H. injection H as <-. congruence.
  - right. intros (d' & H & ?). congruence.
Defined.
Definition older (a b : node) : Prop := (mtime a < mtime b)%Z.
Lemma conflicts_spec (ldb : lmap) (ls rs : nmap) (l : list path) :
  (∀ p, p ∈ l → ¬ db_dir ldb p → is_Some (ls !! p) ∧ is_Some (rs !! p)) →
  ∃ rl rr, conflicts ldb ls rs l = Ok (rl, rr)
    ∧ (∀ p, p ∈ rl ↔ p ∈ l ∧ ¬ db_dir ldb p ∧ ∃ nl nr, ls !! p = Some nl ∧ rs !! p = Some nr ∧ older nl nr)
    ∧ (∀ p, p ∈ rr ↔ p ∈ l ∧ ¬ db_dir ldb p ∧ ∃ nl nr, ls !! p = Some nl ∧ rs !! p = Some nr ∧ older nr nl).
Proof.
  induction l as [|p l IH]; intros Hl.
  { exists ∅, ∅. split; [done|]. split; intros p; (split; [set_solver|intros [H _]; by apply elem_of_nil in H]). }
  destruct IH as (rl & rr & E & H1 & H2). { intros q Hq. apply Hl. by right. }
  cbn [conflicts]. rewrite E. destruct (decide (db_dir ldb p)) as [Hd|Hd].
  - assert (match ldb !! p with Some (LData true _ _) => Ok (rl, rr) | _ =>
        match ls !! p, rs !! p with
        | Some nl, Some nr => if (mtime nl <? mtime nr)%Z then Ok ({[p]} ∪ rl, rr) else if (mtime nr <? mtime nl)%Z then Ok (rl, {[p]} ∪ rr) else Ok (rl, rr)
        | _, _ => Err KeyErr end end = Ok (rl, rr)) as ->.
    { destruct Hd as ([d q b] & -> & Hdd). simpl in Hdd. by subst d. }
    exists rl, rr. split; [done|]. split; intros q; [rewrite H1|rewrite H2]; rewrite elem_of_cons; naive_solver.
  - destruct (Hl p) as [[nl Hnl] [nr Hnr]]; [left|done|].
    assert (match ldb !! p with Some (LData true _ _) => Ok (rl, rr) | _ =>
        match ls !! p, rs !! p with
        | Some nl, Some nr => if (mtime nl <? mtime nr)%Z then Ok ({[p]} ∪ rl, rr) else if (mtime nr <? mtime nl)%Z then Ok (rl, {[p]} ∪ rr) else Ok (rl, rr)
        | _, _ => Err KeyErr end end =
        if (mtime nl <? mtime nr)%Z then Ok ({[p]} ∪ rl, rr) else if (mtime nr <? mtime nl)%Z then Ok (rl, {[p]} ∪ rr) else Ok (rl, rr)) as ->.
    { rewrite Hnl, Hnr. destruct (ldb !! p) as [[d q b]|] eqn:Ep; [|done]. destruct d; [|done]. destruct Hd. by eexists. }
    destruct (Z.ltb_spec (mtime nl) (mtime nr)); [|destruct (Z.ltb_spec (mtime nr) (mtime nl))]; eexists _, _; (split; [done|]);
      split; intros q; rewrite ?elem_of_union, ?elem_of_singleton, ?H1, ?H2, elem_of_cons; unfold older;
      (destruct (decide (q = p)) as [->|Hqp]; [rewrite ?Hnl, ?Hnr|tauto]).
    all: first [split; [intros _; split_and!; [by left|done|by exists nl, nr]|by left]
               |split; intros (_ & _ & nl' & nr' & [= <-] & [= <-] & ?); exfalso; lia].
Qed.

(** [rename_files]: what it leaves in the directory and in the databases. *)
Lemma rename_files_db_wp C root (l : list path) (I : world → Prop) (Q : res unit → world → Prop) w :
  wf_fs (w_fs w) → NoDup l →
  (∀ p, p ∈ l → p ≠ [] ∧ ∃ n, w_fs w !! (root ++ p) = Some n ∧ is_Dir n = false) →
  (∀ p, p ∈ l → w_fs w !! (root ++ conflict_name C p) = None) →
  (∀ p, p ∈ l → ¬ db_dir (v_ldb w) p) →
  (∀ pre m, pre `prefix_of` l → shifted C root (w_fs w) pre m → I (set_fs m w)) →
  (∀ m, shifted C root (w_fs w) l m →
     let new := map (conflict_name C) l in
     Q (Ok tt) (set_vrdb (sr_add (v_rdb w) new [] (c_now C)) (set_vldb (sl_add (s_rm (v_ldb w) l) new [] 0%Qc true) (set_fs m w)))) →
  wp (rename_files C (with_new C l) root) I Q w.
Proof.
  intros Hwf Hnd Hl Hfree Hdir HI HQ. unfold rename_files.
  apply wp_bind, wp_fsm_for, shift_loop_wp; [done..|].
  intros m Hm. apply wp_bind, wp_get, wp_bind. unfold ldb_do, rdb_do. apply wp_mut, wp_bind, wp_mut, wp_mut.
  cbn [v_ldb v_rdb set_fs set_vldb].
  set (f := λ on : path * path, match v_ldb w !! on.1 with Some d => ld_dir d | None => false end).
  assert (∀ on, on ∈ with_new C l → f on = false) as Hf.
  { intros [p c] Hin. unfold with_new in Hin. apply elem_of_list_fmap in Hin as (q & E & Hq). injection E as -> ->. unfold f. cbn [fst].
    specialize (Hdir q Hq). destruct (v_ldb w !! q) as [d|] eqn:E; [|done]. destruct (ld_dir d) eqn:Ed; [|done]. destruct Hdir. by exists d. }
  assert (List.filter f (with_new C l) = [] ∧ List.filter (λ on, negb (f on)) (with_new C l) = with_new C l) as [E1 E2].
  { clear -Hf. induction (with_new C l) as [|x r IH]; [done|]. simpl. rewrite (Hf x) by left. simpl.
    destruct IH as [-> ->]; [|done]. intros on Hon. apply Hf. by right. }
  change (Q (Ok tt) (set_vrdb (sr_add (v_rdb w) (map snd (List.filter (λ on, negb (f on)) (with_new C l))) (map snd (List.filter f (with_new C l))) (c_now C))
    (set_vldb (sl_add (s_rm (v_ldb w) (map fst (with_new C l))) (map snd (List.filter (λ on, negb (f on)) (with_new C l))) (map snd (List.filter f (with_new C l))) 0%Qc true)
      (set_fs m w)))).
  rewrite E1, E2. assert (map snd (with_new C l) = map (conflict_name C) l) as -> by (unfold with_new; by rewrite map_map).
  assert (map fst (with_new C l) = l) as -> by (unfold with_new; by rewrite map_map, map_id).
  exact (HQ m Hm).
Qed.
Lemma rename_files_wp C root (l : list path) (I : world → Prop) (Q : res unit → world → Prop) w :
  wf_fs (w_fs w) → NoDup l →
  (∀ p, p ∈ l → p ≠ [] ∧ ∃ n, w_fs w !! (root ++ p) = Some n ∧ is_Dir n = false) →
  (∀ p, p ∈ l → w_fs w !! (root ++ conflict_name C p) = None) →
  (∀ pre m, pre `prefix_of` l → shifted C root (w_fs w) pre m → I (set_fs m w)) →
  (∀ m ld rd, shifted C root (w_fs w) l m → Q (Ok tt) (set_vrdb rd (set_vldb ld (set_fs m w)))) →
  wp (rename_files C (with_new C l) root) I Q w.
Proof.
  intros Hwf Hnd Hl Hfree HI HQ. unfold rename_files.
  apply wp_bind, wp_fsm_for, shift_loop_wp; [done..|].
  intros m Hm. apply wp_bind, wp_get, wp_bind. unfold ldb_do, rdb_do. apply wp_mut, wp_bind, wp_mut, wp_mut.
  exact (HQ m _ _ Hm).
Qed.
