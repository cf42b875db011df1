(** C08, C33, C34, C35: the trash (filelogic.py, emptytrash.py). *)
From Coq Require Import QArith Qcanon.
From Verif Require Import TrashProofs SyncEx ConfigProofs.
From stdpp Require Import options.

(** The same entry, up to the time of its last modification. *)
Definition same_node (a b : option node) : Prop := set_mtime 0 <$> a = set_mtime 0 <$> b.
Global Instance same_node_dec a b : Decision (same_node a b).
Proof. unfold same_node. apply _. Defined.

(** ** C33 The trash never loses a file: not true.
    Two files of the same name from different directories get the same name
    in the trash and the second replaces the first; no error is reported. *)
Definition exT : fs := list_to_map
  [(pR, Dir 1); (pR ++ zielen_dir, Dir 1); (pR ++ zielen_dir ++ e "Trash", Dir 1); (pR ++ zielen_dir ++ e "Trash" ++ e "x", File (lit "0") 2);
   (pR ++ e "a", Dir 1); (pR ++ e "a" ++ e "x", File (lit "1") 3); (pR ++ e "a" ++ e "d", Dir 3); (pR ++ e "a" ++ e "d" ++ e "z", File (lit "3") 3);
   (pR ++ e "b", Dir 1); (pR ++ e "b" ++ e "x", File (lit "2") 4)]%Z.
Definition exTW : world := World exT ∅ ∅ None ∅ ∅ ∅ ∅ None.
Definition trash_check (C : conf) (m : fs) (l : list path) : Prop :=
  wf_fs m ∧ dir_at m (util_dir C) ∧ (m !! trash_dir C = None ∨ dir_at m (trash_dir C))
  ∧ Forall (λ p, p ≠ [] ∧ valid_comps p ∧ ¬ zielen_dir `prefix_of` p ∧ dir_at m (c_R C ++ parent p)) l
  ∧ Forall (λ p, Forall (λ q, ¬ q `prefix_of` p ∨ p = q) l) l.
Global Instance trash_check_dec C m l : Decision (trash_check C m l).
Proof. unfold trash_check. apply _. Defined.
Lemma trash_check_ok C m l : trash_check C m l → trashable C m (list_to_set l).
Proof.
  intros (Hwf & Hu & Ht & Hp & Hf). split; [done..| |].
  - intros p Hin%elem_of_list_to_set. rewrite Forall_forall in Hp. destruct (Hp p Hin) as (H1 & H2 & H3 & H4).
    split_and!; [done..|]. intros q Hq Hpre. right. by eapply wf_dir_anc.
  - intros p q Hin1%elem_of_list_to_set Hin2%elem_of_list_to_set (x & s & ->). rewrite Forall_forall in Hf. specialize (Hf _ Hin1).
    rewrite Forall_forall in Hf. destruct (Hf _ Hin2) as [H|H]; [apply H; by apply prefix_app_r|].
    apply (f_equal length) in H. rewrite app_length in H. simpl in H. lia.
Qed.
Theorem C33_trash_keeps_refuted :
  ∃ C w X p c t, trashable C (w_fs w) X ∧ (∀ l, c_iter C l ≡ₚ l) ∧ p ∈ X ∧ w_fs w !! (c_R C ++ p) = Some (File c t) ∧
    let '(_, w', r) := trash_files C X w in
    r = Ok tt ∧ ∀ k t', w_fs w' !! k ≠ Some (File c t').
Proof.
  exists exC, exTW, (list_to_set [e "a" ++ e "x"; e "b" ++ e "x"]), (e "a" ++ e "x"), (lit "1"), 3%Z.
  split; [apply trash_check_ok; apply (bool_decide_unpack _); vm_compute; exact I|].
  split; [done|]. split; [apply elem_of_list_to_set; left|]. split; [vm_compute; reflexivity|].
  destruct (trash_files _ _ _) as [[tr w'] r] eqn:E.
  assert (is_ok r && lost (lit "1") (w_fs w') = true) as H.
  { change r with (tr, w', r).2. change (w_fs w') with (w_fs (tr, w', r).1.2). rewrite <-E. vm_compute. reflexivity. }
  clear E. apply andb_true_iff in H as [H1 H2]. split; [by destruct r as [[]|]|]. by apply lost_spec.
Qed.
Print Assumptions C33_trash_keeps_refuted.

(** What was in the trash before stays, and nothing outside the moved trees
    and the trash changes: at every instant, whatever the names and also when
    the function fails. *)
Theorem C33_old_entries_kept C w X :
  trashable C (w_fs w) X → (∀ l, c_iter C l ≡ₚ l) →
  let T := trash_dir C in
  let '(tr, w', _) := trash_files C X w in
  ∀ w1, w1 ∈ w' :: tr →
    (∀ x s, is_Some (w_fs w !! (T ++ [x])) → same_node (w_fs w1 !! (T ++ x :: s)) (w_fs w !! (T ++ x :: s)))
    ∧ (∀ k, ¬ T `prefix_of` k → (∀ p, p ∈ X → ¬ c_R C ++ p `prefix_of` k) → same_node (w_fs w1 !! k) (w_fs w !! k)).
Proof.
  intros Ht Hit T. destruct (trash_files_wp C w X Ht Hit) as (used & new & Hu & Hn & l & Hl & Hnd & Hwp).
  set (I := λ w1 : world, (∀ x s, is_Some (w_fs w !! (T ++ [x])) → same_node (w_fs w1 !! (T ++ x :: s)) (w_fs w !! (T ++ x :: s)))
    ∧ (∀ k, ¬ T `prefix_of` k → (∀ p, p ∈ X → ¬ c_R C ++ p `prefix_of` k) → same_node (w_fs w1 !! k) (w_fs w !! k))).
  assert (T ++ [] = T) as HT0 by apply app_nil_r.
  assert (∀ m', kept C (with_trash C (w_fs w)) X used m' → I (set_fs m' w)) as HI.
  { intros m' Hm. split; cbn [w_fs set_fs].
    - intros x s Hx. unfold same_node.
      rewrite (kp_rest _ _ _ _ _ Hm), with_trash_lookup; [done| |].
      + intros E. apply (f_equal length) in E. rewrite app_length in E. simpl in E. fold T in E. lia.
      + intros [(p & Hp & H)|(y & Hy & H)].
        * eapply src_not_trash; [by apply with_trash_paths|exact Hp|exact H].
        * apply Hy, Hu. apply prefix_app_inv in H as [r E]. simpl in E. by injection E as -> _.
    - intros k Hk HX. unfold same_node. rewrite (kp_rest _ _ _ _ _ Hm), with_trash_lookup; [done| |].
      + intros ->. by apply Hk.
      + intros [(p & Hp & H)|(y & Hy & H)]; [by apply (HX p)|]. apply Hk. etrans; [|exact H]. by apply prefix_app_r. }
  assert (wp (trash_files C X) I (λ _, I) w) as [H1 H2].
  { apply Hwp.
    - apply HI. split; [by eapply with_trash_wf|done].
    - eapply (trash_loop_any C _ X used).
      + by eapply with_trash_wf.
      + by eapply with_trash_dir.
      + by apply with_trash_paths.
      + apply Ht.
      + intros q y Hq. apply elem_of_list_fmap in Hq as (p & [= -> ->] & Hp%Hl). apply Hn in Hp as Hp'. tauto.
      + intros m' r Hm. apply HI in Hm. split; [done|]. by destruct r. }
  destruct (trash_files C X w) as [[tr w'] r]. simpl in H1, H2.
  intros w1 [->|Hw]%elem_of_cons; [done|]. rewrite Forall_forall in H1. by apply H1.
Qed.
Print Assumptions C33_old_entries_kept.

(** If the new names differ, no moved file is lost: at every instant each tree
    is whole, in its old or its new place; at the end all are in the trash,
    dated now (if there are no links among them), and out of both databases.
    Each name is the old one if that was free. *)
Theorem C33_moved_kept_partial C w X :
  trashable C (w_fs w) X → (∀ l, c_iter C l ≡ₚ l) →
  let T := trash_dir C in let R := c_R C in
  ∃ new : path → list N,
    (∀ p, p ∈ X → w_fs w !! (T ++ [new p]) = None ∧ (∀ b, last p = Some b → w_fs w !! (T ++ [b]) = None → new p = b)) ∧
    ((∀ p q, p ∈ X → q ∈ X → new p = new q → p = q) →
     let moved w1 p := (∀ s, same_node (w_fs w1 !! (T ++ new p :: s)) (w_fs w !! (R ++ p ++ s))) ∧ (∀ s, w_fs w1 !! (R ++ p ++ s) = None) in
     let '(tr, w', r) := trash_files C X w in
     r = Ok tt
     ∧ (∀ w1 p, w1 ∈ tr → p ∈ X → is_Some (w_fs w !! (R ++ p)) →
          (∀ s, same_node (w_fs w1 !! (R ++ p ++ s)) (w_fs w !! (R ++ p ++ s))) ∨ moved w1 p)
     ∧ (∀ p, p ∈ X → is_Some (w_fs w !! (R ++ p)) → moved w' p)
     ∧ ((∀ p n, p ∈ X → w_fs w !! (R ++ p) = Some n → is_Link n = false) →
        ∀ p n, p ∈ X → w_fs w !! (R ++ p) = Some n → w_fs w' !! (T ++ [new p]) = Some (set_mtime (c_now C) n))
     ∧ (∀ q, q ∈ dom (v_ldb w') ↔ q ∈ dom (v_ldb w) ∧ ∀ p, p ∈ X → ¬ p `prefix_of` q)
     ∧ (∀ q, q ∈ dom (v_rdb w') ↔ q ∈ dom (v_rdb w) ∧ ∀ p, p ∈ X → ¬ p `prefix_of` q)).
Proof.
  intros Ht Hit T R. destruct (trash_files_wp C w X Ht Hit) as (used & new & Hu & Hn & l & Hl & Hnd & Hwp).
  exists new. split.
  { intros p Hp. destruct (Hn p Hp) as (H1 & _ & H2). split.
    - apply eq_None_not_Some. intros H. by apply H1, Hu.
    - intros b Hb Hfree. apply H2; [done|]. intros [n Hn']%Hu. fold T in Hn'. congruence. }
  intros Hinj mv. set (m1 := with_trash C (w_fs w)).
  assert (∀ p s, p ∈ X → m1 !! (R ++ p ++ s) = w_fs w !! (R ++ p ++ s)) as Hm1.
  { intros p s Hp. apply with_trash_lookup. intros E. eapply (src_not_trash C m1 X); [by apply with_trash_paths|exact Hp|].
    rewrite app_nil_r. fold T R in E |- *. rewrite <-E, app_assoc. by apply prefix_app_r. }
  set (I := λ w1 : world, ∀ p, p ∈ X → is_Some (w_fs w !! (R ++ p)) →
     (∀ s, same_node (w_fs w1 !! (R ++ p ++ s)) (w_fs w !! (R ++ p ++ s))) ∨ mv w1 p).
  set (L := map (λ p, (p, new p)) l).
  assert (∀ q y, (q, y) ∈ L ↔ q ∈ X ∧ y = new q) as HL.
  { intros q y. unfold L. rewrite elem_of_list_fmap. split.
    - intros (p & [= -> ->] & Hp). by rewrite <-Hl.
    - intros [Hq ->]. exists q. by rewrite Hl. }
  assert (∀ pre m' p, pre `prefix_of` L → moved C m1 X used pre m' → p ∈ X → is_Some (w_fs w !! (R ++ p)) →
    (p, new p) ∈ pre → mv (set_fs m' w) p) as Hmv.
  { intros pre m' p Hpre Hm Hp Hs Hin. split; intros s; cbn [w_fs set_fs].
    - unfold same_node. rewrite (mv_new _ _ _ _ _ _ Hm p (new p)); [by rewrite Hm1|done|].
      rewrite <-(app_nil_r p), Hm1, app_nil_r by done. done.
    - by apply (mv_gone _ _ _ _ _ _ Hm p (new p)). }
  assert (Hstep : ∀ pre m', pre `prefix_of` L → moved C m1 X used pre m' → I (set_fs m' w)).
  { intros pre m' Hpre Hm p Hp Hs. destruct (decide ((p, new p) ∈ pre)) as [Hin|Hin]; [right; by eapply Hmv|left].
    intros s. cbn [w_fs set_fs]. unfold same_node. rewrite <-(Hm1 p s) by done.
    apply (mv_rest _ _ _ _ _ _ Hm). intros q y Hq.
    assert ((q, y) ∈ L) as HqL by (destruct Hpre as [r ->]; set_solver). apply HL in HqL as [HqX ->].
    assert (q ≠ p) as Hqp by (intros ->; done).
    destruct (with_trash_paths C _ X Ht p Hp) as (Hpn & _ & Hz & _). fold T R. split; intros H.
    - unfold T in H. rewrite trash_dir_app, <-app_assoc in H. fold R in H. apply prefix_app_inv in H. rewrite <-app_assoc in H.
      by apply util_first in H.
    - apply prefix_app_inv in H. assert (p `prefix_of` p ++ s) as H2 by by apply prefix_app_r.
      destruct (prefix_weak_total p q (p ++ s) H2 H) as [[[|z r] E]|[[|z r] E]].
      + rewrite app_nil_r in E. done.
      + apply (tr_flat _ _ _ Ht q p HqX Hp). by exists z, r.
      + rewrite app_nil_r in E. by apply Hqp.
      + apply (tr_flat _ _ _ Ht p q Hp HqX). by exists z, r. }
  assert (wp (trash_files C X) I (λ r w', r = Ok tt ∧ (∀ p, p ∈ X → is_Some (w_fs w !! (R ++ p)) → mv w' p)
     ∧ ((∀ p n, p ∈ X → w_fs w !! (R ++ p) = Some n → is_Link n = false) →
        ∀ p n, p ∈ X → w_fs w !! (R ++ p) = Some n → w_fs w' !! (T ++ [new p]) = Some (set_mtime (c_now C) n))
     ∧ v_ldb w' = sl_rm (v_ldb w) l ∧ v_rdb w' = sr_rm (v_rdb w) l) w) as [H1 H2].
  { apply Hwp.
    - intros p Hp Hs. left. intros s. cbn [w_fs set_fs]. unfold same_node. fold m1. by rewrite Hm1.
    - eapply (trash_loop_wp C m1 X used).
      + by eapply with_trash_wf.
      + by eapply with_trash_dir.
      + by apply with_trash_paths.
      + apply Ht.
      + intros y Hy. apply Hu. fold T. destruct Hy as [n Hy]. exists n. fold T in Hy. unfold m1 in Hy.
        rewrite with_trash_lookup in Hy; [done|]. intros E. apply (f_equal length) in E. rewrite app_length in E. simpl in E. fold T in E. lia.
      + intros q y Hq. apply HL in Hq as [Hq ->]. destruct (Hn q Hq) as (? & ? & _). done.
      + unfold L. rewrite <-list_fmap_compose. change (fst ∘ _) with (λ p : path, p). by rewrite list_fmap_id.
      + unfold L. rewrite <-list_fmap_compose. change (snd ∘ _) with new.
        clear -Hnd Hl Hinj. assert (∀ p, p ∈ l → p ∈ X) as Hl' by (intros p; by rewrite Hl). clear Hl.
        induction l as [|p l IH]; [constructor|]. apply NoDup_cons in Hnd as [Hp Hnd]. rewrite fmap_cons. apply NoDup_cons. split.
        * intros (q & E & Hq)%elem_of_list_fmap. apply Hinj in E; [subst; done|apply Hl'; left|apply Hl'; by right].
        * apply IH; [done|]. intros q Hq. apply Hl'. by right.
      + done.
      + intros m' Hm Hst. split; [done|]. split; [|split; [|done]].
        * intros p Hp Hs. eapply Hmv; [reflexivity|done|done|done|]. by apply HL.
        * assert (∀ p, p ∈ X → m1 !! (R ++ p) = w_fs w !! (R ++ p)) as Hm1'.
          { intros p Hp. pose proof (Hm1 p [] Hp) as E. by rewrite app_nil_r in E. }
          intros Hnl p n Hp Hpn. cbn [w_fs set_fs set_vldb set_vrdb]. apply Hst with (p := p).
          -- intros q k Hq. fold R. rewrite Hm1' by done. by apply Hnl.
          -- by apply HL.
          -- fold R. by rewrite Hm1'. }
  destruct (trash_files C X w) as [[tr w'] r]. simpl in H1, H2. destruct H2 as (-> & H2 & H2' & H3 & H4). split; [done|].
  split; [|split; [done|split; [done|split]]].
  - intros w1 p Hw Hp Hs. rewrite Forall_forall in H1. by apply (H1 w1 Hw).
  - intros q. rewrite H3. unfold sl_rm, sl_refresh. rewrite !dom_s_recompute, elem_of_dom_s_rm, Forall_forall. by setoid_rewrite Hl.
  - intros q. rewrite H4. unfold sr_rm. rewrite elem_of_dom_s_rm, Forall_forall. by setoid_rewrite Hl.
Qed.
Print Assumptions C33_moved_kept_partial.
Example C33_example :
  let X := list_to_set [e "a" ++ e "d"; e "b" ++ e "x"; e "a" ++ e "gone"] in
  trashable exC exT X ∧
  let '(tr, w', r) := trash_files exC X exTW in
  r = Ok tt ∧ length tr = 4 ∧
  map (λ q, set_mtime 0 <$> w_fs w' !! (trash_dir exC ++ q)) [e "x"; e "x(1)"; e "d"; e "d" ++ e "z"]
  = [Some (File (lit "0") 0); Some (File (lit "2") 0); Some (Dir 0); Some (File (lit "3") 0)]%Z
  ∧ map (λ q, w_fs w' !! (c_R exC ++ q)) [e "a" ++ e "d"; e "b" ++ e "x"; e "a" ++ e "d" ++ e "z"] = [None; None; None].
Proof.
  split; [apply trash_check_ok; apply (bool_decide_unpack _); vm_compute; exact I|]. vm_compute. repeat split; reflexivity.
Qed.

(** ** C34 Trash cleanup deletes exactly the expired entries: not true.
    A symbolic link in the trash is examined through its target.  If the
    target is missing the sync fails; the link, and what comes after it, stays. *)
Definition exT2 : fs := <[trash_dir exC ++ e "l" := Link (lit "nowhere") 3]> (<[trash_dir exC ++ e "y" := File (lit "y") 15]> exT).
Definition exT2W : world := set_fs exT2 exTW.
Theorem C34_cleanup_refuted :
  ∃ C (period : Z) w x n, wf_fs (w_fs w) ∧ dir_at (w_fs w) (trash_dir C)
    ∧ w_fs w !! (trash_dir C ++ [x]) = Some n ∧ (mtime n <= c_now C - period)%Z
    ∧ let '(_, w', r) := cleanup_trash C period w in
      r = Err FileNotFound ∧ w_fs w' !! (trash_dir C ++ [x]) = Some n.
Proof.
  exists exC, 8%Z, exT2W, (lit "l"), (Link (lit "nowhere") 3).
  split; [apply (bool_decide_unpack _); vm_compute; exact I|]. split; [apply (bool_decide_unpack _); vm_compute; exact I|].
  vm_compute. repeat split; try reflexivity. discriminate.
Qed.
Print Assumptions C34_cleanup_refuted.
(** Without links among the entries it is true. *)
Theorem C34_cleanup_exact_partial C (period : Z) w :
  let T := trash_dir C in let m := w_fs w in
  wf_fs m → dir_at m T → (∀ x t k, m !! (T ++ [x]) ≠ Some (Link t k)) →
  let old x := ∃ n, m !! (T ++ [x]) = Some n ∧ (period <= c_now C - mtime n)%Z in
  let '(tr, w', r) := cleanup_trash C period w in
  r = Ok tt
  ∧ (∀ x s, old x → w_fs w' !! (T ++ x :: s) = None)
  ∧ (∀ w1 k, w1 ∈ w' :: tr → (∀ x, old x → ¬ T ++ [x] `prefix_of` k) → w_fs w1 !! k = m !! k)
  ∧ w' = set_fs (w_fs w') w.
Proof.
  intros T m Hwf HT Hl old.
  assert (∀ x, old x ↔ expired C m (c_now C - period) x) as Ho.
  { intros x. unfold old, expired. fold T. split; intros (n & Hn & Hc); exists n; (split; [done|lia]). }
  assert (wp (cleanup_trash C period) (λ w1, ∀ k, (∀ x, old x → ¬ T ++ [x] `prefix_of` k) → w_fs w1 !! k = m !! k)
    (λ r w', r = Ok tt ∧ (∀ x s, old x → w_fs w' !! (T ++ x :: s) = None)
      ∧ (∀ k, (∀ x, old x → ¬ T ++ [x] `prefix_of` k) → w_fs w' !! k = m !! k) ∧ w' = set_fs (w_fs w') w) w) as [H1 H2].
  { apply cleanup_trash_wp; [done|done| | |].
    - intros x n Hn. destruct n as [c t|l t|t]; [done| |done]. by destruct (Hl x l t).
    - intros m' Hs k Hk. cbn [w_fs set_fs]. apply Hs. intros x Hx. by apply Hk, Ho.
    - intros m' _ Hg Hs. cbn [w_fs set_fs]. split; [done|]. split; [intros x s Hx; by apply Hg, Ho|]. split; [|done].
      intros k Hk. apply Hs. intros x Hx. by apply Hk, Ho. }
  destruct (cleanup_trash C period w) as [[tr w'] r]. simpl in H1, H2. destruct H2 as (? & ? & H2 & ?).
  split; [done|]. split; [done|]. split; [|done].
  intros w1 k [->|Hw]%elem_of_cons; [apply H2|]. rewrite Forall_forall in H1. by apply H1.
Qed.
Print Assumptions C34_cleanup_exact_partial.
Definition exT3W : world := set_fs (<[trash_dir exC ++ e "y" := File (lit "y") 15]> (<[trash_dir exC ++ e "d" := Dir 12]>
  (<[trash_dir exC ++ e "d" ++ e "f" := File (lit "f") 19]> exT)))%Z exTW.
Example C34_example :
  (wf_fs (w_fs exT3W) ∧ dir_at (w_fs exT3W) (trash_dir exC)) ∧
  let '(tr, w', r) := cleanup_trash exC 8 exT3W in
  r = Ok tt ∧ length tr = 3 ∧
  map (λ q, w_fs w' !! (trash_dir exC ++ q)) [e "x"; e "d"; e "d" ++ e "f"; e "y"] = [None; None; None; Some (File (lit "y") 15)]%Z.
Proof.
  split; [apply (bool_decide_unpack _); vm_compute; exact I|]. vm_compute. repeat split; reflexivity.
Qed.

(** ** C35 Empty-trash empties the trash, says how many entries it removed
    and changes nothing else. *)
Theorem C35_empty_trash C m :
  let T := trash_dir C in
  wf_fs m → dir_at m T →
  let '(tr, m', r) := empty_trash C m in
  (∃ names, NoDup names ∧ (∀ x, x ∈ names ↔ is_Some (m !! (T ++ [x]))) ∧ r = Ok (length names))
  ∧ (∀ k, below k T → m' !! k = None)
  ∧ (∀ m1 k, m1 ∈ m' :: tr → ¬ below k T → m1 !! k = m !! k).
Proof.
  intros T Hwf HT.
  assert (∀ m', spared T (λ _, True) m m' → ∀ k, ¬ below k T → m' !! k = m !! k) as Hs.
  { intros m' H k Hk. apply H. intros x _ [s ->]. apply Hk. exists x, s. by rewrite <-app_assoc. }
  assert (wp (empty_trash C) (λ m1, ∀ k, ¬ below k T → m1 !! k = m !! k)
    (λ r m', r = Ok (length (entries m T)) ∧ (∀ k, below k T → m' !! k = None) ∧ ∀ k, ¬ below k T → m' !! k = m !! k) m) as [H1 H2].
  { apply empty_trash_wp; [done|done|apply Hs|]. intros m' Hg Hsp. split; [done|]. split; [|by apply Hs].
    intros k (x & s & ->). apply Hg. }
  destruct (empty_trash C m) as [[tr m'] r]. simpl in H1, H2. destruct H2 as (-> & Hg & H2). split; [|split; [done|]].
  - exists (map fst (entries m T)). split; [apply NoDup_entries|]. split; [|by rewrite map_length].
    intros x. rewrite elem_of_list_fmap. split.
    + intros ([y n] & -> & Hy). apply elem_of_entries in Hy. eauto.
    + intros [n Hn]. exists (x, n). split; [done|]. by apply elem_of_entries.
  - intros m1 k [->|Hm]%elem_of_cons; [apply H2|]. rewrite Forall_forall in H1. by apply H1.
Qed.
Print Assumptions C35_empty_trash.
Example C35_example :
  let m := <[trash_dir exC ++ e "l" := Link (lit "nowhere") 3]> (w_fs exT3W) in
  (wf_fs m ∧ dir_at m (trash_dir exC)) ∧
  let '(tr, m', r) := empty_trash exC m in r = Ok 4 ∧ length tr = 5 ∧ m' !! (trash_dir exC ++ e "d" ++ e "f") = None
    ∧ m' !! (pR ++ e "b" ++ e "x") = Some (File (lit "2") 4).
Proof.
  split; [apply (bool_decide_unpack _); vm_compute; exact I|]. vm_compute. repeat split; reflexivity.
Qed.

(** Entries that vanish after the trash was listed are not counted. *)
Definition still (m : fs) (T : path) (x : list N) : bool := bool_decide (is_Some (m !! (T ++ [x]))).
Lemma empty_one_step C m x (I : fs → Prop) (Q : res nat → fs → Prop) :
  let T := trash_dir C in wf_fs m → dir_at m T → valid_name x →
  (∀ m', part_gone (T ++ [x]) m m' → I m') → Q (Ok (if still m T x then 1 else 0)) (without (T ++ [x]) m) → wp (empty_one C x) I Q m.
Proof.
  intros T Hwf HT Hx HI HQ. assert (T ++ [x] ≠ []) as Hne by by destruct T.
  assert (valid_comps (T ++ [x])) as Hv by (apply valid_app; split; [by eapply wf_dir_valid|by constructor]).
  unfold empty_one. fold T. apply wp_catch. unfold still in HQ. destruct (m !! (T ++ [x])) as [n|] eqn:E.
  - rewrite bool_decide_true in HQ by eauto. destruct (is_Dir n) eqn:Ed.
    + assert (dir_at m (T ++ [x])) as Hd by (apply dir_at_lookup; [done|]; destruct n; try done; eauto).
      apply wp_bind, remove_dir_wp; [done|done|]. apply wp_bind, rmtree_wp; [done|done|done|done|]. by apply wp_ret.
    + apply wp_bind. eapply remove_file_wp; [done|exact E|done| |by apply wp_ret].
      apply HI. split; [by apply wf_without|]. split; intros k; rewrite without_lookup.
      * intros Hk. by rewrite decide_False.
      * destruct (decide _); auto.
  - rewrite bool_decide_false in HQ by (by intros [? ?]). apply wp_bind, remove_gone_wp; [done|done|done| |done|].
    + rewrite parent_snoc. intros q Hq Hp. right. by eapply wf_dir_anc.
    + apply wp_ret. assert (without (T ++ [x]) m = m) as Ew; [|by rewrite Ew in HQ]. apply map_eq. intros k. rewrite without_lookup.
      destruct (decide _) as [Hp|]; [|done]. destruct (m !! k) as [n|] eqn:Ek; [|done]. exfalso.
      destruct (decide (T ++ [x] = k)) as [<-|Hk]; [congruence|]. destruct (wf_anc m Hwf k (T ++ [x]) n Ek Hp Hk) as [t Ht].
      rewrite node_at_ne in Ht by done. congruence.
Qed.
Theorem C35_vanished C names m :
  let T := trash_dir C in
  wf_fs m → dir_at m T → NoDup names → Forall valid_name names →
  let '(tr, m', r) := empty_all C names m in
  r = Ok (length (List.filter (still m T) names))
  ∧ (∀ x s, x ∈ names → m' !! (T ++ x :: s) = None)
  ∧ (∀ m1 k, m1 ∈ m' :: tr → (∀ x, x ∈ names → ¬ T ++ [x] `prefix_of` k) → m1 !! k = m !! k).
Proof.
  intros T Hwf HT Hnd Hv.
  assert (wp (empty_all C names) (λ m1, ∀ k, (∀ x, x ∈ names → ¬ T ++ [x] `prefix_of` k) → m1 !! k = m !! k)
    (λ r m', r = Ok (length (List.filter (still m T) names)) ∧ (∀ x s, x ∈ names → m' !! (T ++ x :: s) = None)
       ∧ ∀ k, (∀ x, x ∈ names → ¬ T ++ [x] `prefix_of` k) → m' !! k = m !! k) m) as [H1 H2].
  { revert m Hwf HT. induction names as [|x names IH]; intros m Hwf HT.
    - apply wp_ret. split; [done|]. split; [by intros ? ? ?%elem_of_nil|done].
    - inversion_clear Hv as [|?? Hx Hv']. apply NoDup_cons in Hnd as [Hxn Hnd]. cbn [empty_all].
      assert (∀ k, (∀ y, y ∈ x :: names → ¬ T ++ [y] `prefix_of` k) → without (T ++ [x]) m !! k = m !! k) as Hw.
      { intros k Hk. rewrite without_lookup, decide_False; [done|]. apply Hk. left. }
      apply wp_bind, empty_one_step; [done|done|done| |].
      + intros m' (_ & Ho & _) k Hk. apply Ho, Hk. left.
      + cbv beta iota. apply wp_bind. fold T.
        assert (dir_at (without (T ++ [x]) m) T) as HT'.
        { destruct HT as [t Ht]. destruct (decide (T = [])) as [E|Hne]; [rewrite E; apply dir_at_nil|]. rewrite node_at_ne in Ht by done.
          apply dir_at_lookup; [done|]. exists t. rewrite without_lookup, decide_False; [done|]. intros Hp%prefix_length. rewrite app_length in Hp. simpl in Hp. lia. }
        eapply wp_mono; [eapply wp_trace_mono; [exact (IH Hnd Hv' _ (wf_without _ _ Hwf) HT')|]|].
        * intros m1 Hm1 k Hk. rewrite Hm1; [by apply Hw|]. intros y Hy. apply Hk. by right.
        * intros r m' (-> & Hg & Ho). cbv beta iota. apply wp_ret. split_and!.
          -- simpl. assert (List.filter (still (without (T ++ [x]) m) T) names = List.filter (still m T) names) as ->.
             { clear -Hxn. induction names as [|y l IH']; [done|]. apply not_elem_of_cons in Hxn as [Hxy Hxn]. simpl.
               assert (still (without (T ++ [x]) m) T y = still m T y) as ->.
               { unfold still. rewrite without_lookup, decide_False; [done|]. intros Hp%prefix_app_inv. by apply prefix_cons_inv_1 in Hp. }
               by rewrite IH'. }
             by destruct (still m T x).
          -- intros y s [->|Hy]%elem_of_cons; [|by apply Hg]. destruct (m' !! (T ++ x :: s)) as [n|] eqn:E; [|done]. exfalso.
             rewrite Ho, without_lookup, decide_True in E; [done| |].
             ++ exists s. by rewrite <-app_assoc.
             ++ intros y Hy Hp%prefix_app_inv. apply prefix_cons_inv_1 in Hp. by subst.
          -- intros k Hk. rewrite Ho; [by apply Hw|]. intros y Hy. apply Hk. by right. }
  destruct (empty_all C names m) as [[tr m'] r]. cbn [fst snd] in *. destruct H2 as (-> & Hg & H2). split_and!; [done|done|].
  intros m1 k [->|Hm]%elem_of_cons; [apply H2|]. rewrite Forall_forall in H1. by apply H1.
Qed.
Print Assumptions C35_vanished.
(** [old] and one that has vanished. *)
Example C35_vanished_example :
  let m := w_fs exW in wf_fs m ∧ dir_at m (trash_dir exC) ∧ NoDup [lit "gone"; lit "old"] ∧ Forall valid_name [lit "gone"; lit "old"]
  ∧ (empty_all exC [lit "gone"; lit "old"] m).2 = Ok 1.
Proof. split; [decided|]. split; [decided|]. split; [decided|]. split; [decided|]. vm_compute. reflexivity. Qed.

(** ** C08 Trash cleanup period: not true for 0.
    With the value "0" a sync deletes nothing, whatever the trash holds. *)
Theorem C08_zero_refuted C w :
  c_cleanup C = Z.of_N <$> cleanup_period (lit "0") → sync_cleanup C w = ([], w, Ok tt).
Proof. unfold sync_cleanup. by intros ->. Qed.
Print Assumptions C08_zero_refuted.
Definition exC_days (v : list N) : conf := {|
  c_L := pL; c_R := pR; c_limit := 100000; c_account := true; c_inflate := true; c_trash := true;
  c_cleanup := Z.of_N <$> cleanup_period v; c_id := lit "me"; c_patterns := lit "x"; c_glob := ex_glob;
  c_block := 4096; c_blocks := c_blocks exC;
  c_now := 172810; c_end := 172811; c_dt := ex_dt; c_iter := id; c_rows := id; c_tty := false |}.
(** The effect on a whole sync: the old file is still there. *)
Example C08_zero_example :
  (let '(_, w', r) := sync_main (exC_days (lit "0")) (ret tt) exW in
   is_ok r && bool_decide (w_fs w' !! (trash_dir exC ++ e "old") = Some (File (lit "old") 11))) = true.
Proof. vm_compute. reflexivity. Qed.
(** For a positive number of days the entries of at least that age go, and
    no others; for a negative one nothing is deleted. *)
Lemma show_N_dash d : startswith [c_dash] (show_N d) = false.
Proof.
  destruct (startswith _ _) eqn:E; [|done]. pose proof (show_N_digits d) as H.
  destruct (show_N d) as [|c l]; [done|]. inversion H as [|? ? Hc _]; subst. cbn [startswith] in E.
  apply andb_true_iff in E as [E _]. apply N.eqb_eq in E. by rewrite <-E in Hc.
Qed.
Theorem C08_days_partial C w (d : N) :
  let T := trash_dir C in let m := w_fs w in
  wf_fs m → dir_at m T → (∀ x t k, m !! (T ++ [x]) ≠ Some (Link t k)) →
  (0 < d)%N → c_cleanup C = Z.of_N <$> cleanup_period (show_N d) →
  let old x := ∃ n, m !! (T ++ [x]) = Some n ∧ (Z.of_N d * 86400 <= c_now C - mtime n)%Z in
  let '(tr, w', r) := sync_cleanup C w in
  r = Ok tt
  ∧ (∀ x s, old x → w_fs w' !! (T ++ x :: s) = None)
  ∧ (∀ w1 k, w1 ∈ w' :: tr → (∀ x, old x → ¬ T ++ [x] `prefix_of` k) → w_fs w1 !! k = m !! k).
Proof.
  intros T m Hwf HT Hl Hd Hc old. unfold sync_cleanup. rewrite Hc. unfold cleanup_period. rewrite show_N_dash, py_int_show. simpl.
  rewrite (proj2 (Z.eqb_neq _ _)) by lia.
  pose proof (C34_cleanup_exact_partial C (Z.of_N (d * 60 * 60 * 24)) w Hwf HT Hl) as H. fold T m in H.
  assert (∀ n, (Z.of_N (d * 60 * 60 * 24) <= c_now C - mtime n)%Z ↔ (Z.of_N d * 86400 <= c_now C - mtime n)%Z) as Hiff by lia.
  destruct (cleanup_trash _ _ _) as [[tr w'] r]. destruct H as (H1 & H2 & H3 & _). split; [done|]. split.
  - intros x s (n & Hn & Ha). apply H2. exists n. split; [done|]. by apply Hiff.
  - intros w1 k Hw Hk. apply H3; [done|]. intros x (n & Hn & Ha). apply Hk. exists n. split; [done|]. by apply Hiff.
Qed.
Print Assumptions C08_days_partial.
Theorem C08_negative C w r :
  c_cleanup C = Z.of_N <$> cleanup_period (c_dash :: r) → sync_cleanup C w = ([], w, Ok tt).
Proof. unfold sync_cleanup. by intros ->. Qed.
Print Assumptions C08_negative.
Example C08_example :
  (wf_fs (w_fs exT3W) ∧ dir_at (w_fs exT3W) (trash_dir (exC_days (lit "2")))) ∧ show_N 2 = lit "2" ∧
  let '(tr, w', r) := sync_cleanup (exC_days (show_N 2)) exT3W in
  r = Ok tt ∧ length tr = 1 ∧
  map (λ q, w_fs w' !! (trash_dir exC ++ q)) [e "x"; e "d"; e "y"] = [None; Some (Dir 12); Some (File (lit "y") 15)]%Z.
Proof.
  split; [apply (bool_decide_unpack _); vm_compute; exact I|]. split; [done|]. vm_compute. repeat split; reflexivity.
Qed.
