(** What a whole sync of a state without clashes (Merge.v) leaves in the local
    directory and database: C73 (the storage limit), C74 (the flags that say what
    is kept here), C75 (the priorities). *)
From Coq Require Import QArith Qcanon.
From Verif Require Export Prop_Merge.
From Verif Require Import SelectProofs.
From stdpp Require Import options.

Definition is_file (o : option node) : bool := match o with Some (File _ _) => true | _ => false end.
Definition is_link (o : option node) : bool := match o with Some (Link _ _) => true | _ => false end.
(** The known files of which the local directory has a copy, or just a link. *)
Definition copies (C : conf) (w : world) : pset := filter (λ p, is_file (l_at C (w_fs w) p) = true) (dom (w_ldb w)).
Definition linked_ (C : conf) (w : world) : pset := filter (λ p, is_link (l_at C (w_fs w) p) = true) (dom (w_ldb w)).
(** Disk usage of entries of the local directory. *)
Definition local_usage (C : conf) (m : fs) (S : pset) : Z := set_sum (λ p, default 0%Z (c_blocks C p <$> l_at C m p)) S.

Lemma elem_of_copies C w p : p ∈ copies C w ↔ is_Some (w_ldb w !! p) ∧ ∃ c t, l_at C (w_fs w) p = Some (File c t).
Proof.
  unfold copies. rewrite elem_of_filter, elem_of_dom. split.
  - intros [Hf Hd]. split; [done|]. destruct (l_at C (w_fs w) p) as [[]|]; try done. eauto.
  - intros [Hd (c & t & ->)]. done.
Qed.
Lemma elem_of_linked C w p : p ∈ linked_ C w ↔ is_Some (w_ldb w !! p) ∧ ∃ t k, l_at C (w_fs w) p = Some (Link t k).
Proof.
  unfold linked_. rewrite elem_of_filter, elem_of_dom. split.
  - intros [Hf Hd]. split; [done|]. destruct (l_at C (w_fs w) p) as [[]|]; try done. eauto.
  - intros [Hd (t & k & ->)]. done.
Qed.

(** ** C73: the storage limit *)
(** If anything is kept locally, then the copies and the excluded files, with a
    block for each link, fit in the limit.
    Missing: states with clashes; the directories themselves (refuted below). *)
Theorem C73_limit_partial C w last_sync :
  any_order C → idle C w → w_last w = Some last_sync →
  let X := excluded_now C (w_fs w) in
  clean C (w_fs w) (w_ldb w) (w_rdb w) last_sync X →
  (∀ p n, 0 <= c_blocks C p n)%Z →
  let '(_, w', r) := sync_main C (ret tt) w in
  r = Ok tt ∧
  (copies C w' ≠ ∅ →
    local_usage C (w_fs w') (copies C w' ∪ X) + Z.of_nat (size (linked_ C w')) * c_block C <= c_limit C)%Z.
Proof.
  intros Ho Hi Hl X Hc Hn. destruct (idle_sync C w last_sync Ho Hi Hl Hc) as [_ Hw].
  destruct (sync_main C (ret tt) w) as [[tr w'] r]. cbn [fst snd] in Hw. destruct Hw as (-> & _ & _ & _ & Hse).
  split; [done|]. intros Hne. apply (se_limit _ _ _ _ _ _ _ Hse); [apply elem_of_copies|apply elem_of_linked|done|done].
Qed.
Print Assumptions C73_limit_partial.
(** Small blocks and little space. *)
Definition exL : conf := {|
  c_L := pL; c_R := pR; c_limit := 10000; c_account := true; c_inflate := true; c_trash := true;
  c_cleanup := Some 8%Z; c_id := lit "me"; c_patterns := lit "x"; c_glob := ex_glob;
  c_block := 512; c_blocks := λ _ n, match n with File c _ => Z.of_nat (length c) * 1024 | Link _ _ => 0 | Dir _ => 512 end%Z;
  c_now := 20; c_end := 21; c_dt := ex_dt; c_iter := id; c_rows := id; c_tty := false |}.
Lemma exL_clean : clean exL (w_fs exN) (w_ldb exN) (w_rdb exN) 10 XN.
Proof. apply clean_checked. decided. Qed.
Lemma exL_idle : idle exL exN.
Proof. apply idle_of. mounted_now. Qed.
Example C73_limit_example :
  any_order exL ∧ idle exL exN ∧ w_last exN = Some 10%Z ∧ excluded_now exL (w_fs exN) = XN
  ∧ clean exL (w_fs exN) (w_ldb exN) (w_rdb exN) 10 XN ∧ (∀ p n, 0 <= c_blocks exL p n)%Z
  ∧ let '(_, w', _) := sync_main exL (ret tt) exN in
    ((size (copies exL w') = 3 ∧ size (linked_ exL w') = 3)%nat
    ∧ local_usage exL (w_fs w') (copies exL w' ∪ XN) = 7168)%Z.
Proof.
  split; [done|]. split; [apply exL_idle|]. split; [done|]. split; [decided|]. split; [apply exL_clean|].
  split; [intros p []; cbn; lia|]. vm_compute. auto.
Qed.
(** Blocks of directories are only counted when a whole directory is selected
    (filelogic.py 318-352), so what is known and present can exceed the limit. *)
Definition exD : conf := {|
  c_L := pL; c_R := pR; c_limit := 8000; c_account := true; c_inflate := true; c_trash := true;
  c_cleanup := Some 8%Z; c_id := lit "me"; c_patterns := lit "x"; c_glob := ex_glob;
  c_block := 512; c_blocks := λ _ n, match n with File c _ => Z.of_nat (length c) * 1024 | Link _ _ => 0 | Dir _ => 4096 end%Z;
  c_now := 20; c_end := 21; c_dt := ex_dt; c_iter := id; c_rows := id; c_tty := false |}.
Theorem C73_directories_refuted :
  ∃ C w, any_order C ∧ idle C w ∧ w_last w = Some 10%Z
  ∧ clean C (w_fs w) (w_ldb w) (w_rdb w) 10 (excluded_now C (w_fs w)) ∧ (∀ p n, 0 <= c_blocks C p n)%Z
  ∧ let '(_, w', r) := sync_main C (ret tt) w in
    r = Ok tt ∧ copies C w' ≠ ∅ ∧ (c_limit C < local_usage C (w_fs w') (dom (w_ldb w')))%Z.
Proof.
  exists exD, exN. split; [done|]. split; [apply idle_of; mounted_now|]. split; [done|].
  split. { assert (excluded_now exD (w_fs exN) = XN) as -> by decided. apply clean_checked. decided. }
  split; [intros p []; cbn; lia|].
  assert (let '(_, w', r) := sync_main exD (ret tt) exN in
    is_ok r && (bool_decide (copies exD w' ≠ ∅) && (c_limit exD <? local_usage exD (w_fs w') (dom (w_ldb w')))%Z) = true) as Hx.
  { apply (run_witness exD (ret tt) exN (λ r w', is_ok r && (bool_decide (copies exD w' ≠ ∅) && (c_limit exD <? local_usage exD (w_fs w') (dom (w_ldb w')))%Z))).
    vm_compute. reflexivity. }
  destruct (sync_main exD (ret tt) exN) as [[tr w'] r].
  apply andb_true_iff in Hx as [H1%is_ok_spec [H2%bool_decide_eq_true H3%Z.ltb_lt]%andb_true_iff]. done.
Qed.
Print Assumptions C73_directories_refuted.

(** ** C74: which files are kept here *)
(** After a sync a copy is marked as kept here, if there was something at its path
    before; a link is not, unless it was wrongly marked before.
    Missing: states with clashes; files that the sync brought here (refuted below). *)
Theorem C74_flags_partial C w last_sync :
  any_order C → idle C w → w_last w = Some last_sync →
  clean C (w_fs w) (w_ldb w) (w_rdb w) last_sync (excluded_now C (w_fs w)) →
  let '(_, w', r) := sync_main C (ret tt) w in
  r = Ok tt ∧ ∀ p x, w_ldb w' !! p = Some x →
    match l_at C (w_fs w') p with
    | Some (File _ _) => ld_local x = true ↔ is_Some (l_at C (w_fs w) p)
    | Some (Link _ _) => ld_local x = true ↔
        ∃ x0 t k, w_ldb w !! p = Some x0 ∧ ld_local x0 = true ∧ l_at C (w_fs w) p = Some (Link t k)
    | _ => True
    end.
Proof.
  intros Ho Hi Hl Hc. destruct (idle_sync C w last_sync Ho Hi Hl Hc) as [_ Hw].
  destruct (sync_main C (ret tt) w) as [[tr w'] r]. cbn [fst snd] in Hw. destruct Hw as (-> & _ & _ & _ & Hse).
  split; [done|]. intros p x Hx. destruct (l_at C (w_fs w') p) as [[c t|t k|t]|] eqn:E; [|..|done].
  - by apply (se_file _ _ _ _ _ _ _ Hse p x c t).
  - by apply (se_link _ _ _ _ _ _ _ Hse p x t k).
  - done.
Qed.
Print Assumptions C74_flags_partial.
Definition row_is (w : world) (p : path) (x : ldata) : bool := bool_decide (w_ldb w !! p = Some x).
Definition flag (w : world) (p : path) : option bool := ld_local <$> w_ldb w !! p.
(** "d/a" stays, "m" was a file and becomes a link, "n2" is new in the remote directory. *)
Example C74_flags_example :
  any_order exL ∧ idle exL exN ∧ w_last exN = Some 10%Z
  ∧ clean exL (w_fs exN) (w_ldb exN) (w_rdb exN) 10 (excluded_now exL (w_fs exN))
  ∧ (is_file (l_at exL (w_fs exN) (e "d" ++ e "a")), is_file (l_at exL (w_fs exN) (e "m")), l_at exL (w_fs exN) (e "n2")) = (true, true, None)
  ∧ let '(_, w', _) := sync_main exL (ret tt) exN in
    (is_file (l_at exL (w_fs w') (e "d" ++ e "a")), flag w' (e "d" ++ e "a")) = (true, Some true)
    ∧ (is_link (l_at exL (w_fs w') (e "m")), flag w' (e "m")) = (true, Some false)
    ∧ (is_link (l_at exL (w_fs w') (e "n2")), flag w' (e "n2")) = (true, Some false).
Proof.
  split; [done|]. split; [apply exL_idle|]. split; [done|]. split.
  { assert (excluded_now exL (w_fs exN) = XN) as -> by decided. apply exL_clean. }
  vm_compute. auto.
Qed.

(** A file of another client that is copied here is not marked: every missing
    file is linked first, and then counts as a link (filelogic.py 391-413). *)
Theorem C74_new_refuted :
  ∃ C w p c t x, any_order C ∧ idle C w ∧ w_last w = Some 10%Z
  ∧ clean C (w_fs w) (w_ldb w) (w_rdb w) 10 (excluded_now C (w_fs w))
  ∧ let '(_, w', r) := sync_main C (ret tt) w in
    r = Ok tt ∧ l_at C (w_fs w') p = Some (File c t) ∧ w_ldb w' !! p = Some x ∧ ld_local x = false.
Proof.
  exists exC, exN, (e "n2"), (lit "n2"), 14%Z, (LData false 0%Qc false).
  split; [done|]. split; [apply exN_idle|]. split; [done|]. split. { assert (excluded_now exC (w_fs exN) = XN) as -> by decided. apply exN_clean. }
  assert (let '(_, w', r) := sync_main exC (ret tt) exN in
    is_ok r && (node_is (w_fs w') (pL ++ e "n2") (Some (File (lit "n2") 14)) && row_is w' (e "n2") (LData false 0%Qc false)) = true) as Hx.
  { apply (run_witness exC (ret tt) exN (λ r w', is_ok r && (node_is (w_fs w') (pL ++ e "n2") (Some (File (lit "n2") 14)) && row_is w' (e "n2") (LData false 0%Qc false)))).
    vm_compute. reflexivity. }
  destruct (sync_main exC (ret tt) exN) as [[tr w'] r].
  apply andb_true_iff in Hx as [H1%is_ok_spec [H2%node_is_spec H3%bool_decide_eq_true]%andb_true_iff]. done.
Qed.
Print Assumptions C74_new_refuted.

(** A link that was made by a sync that was cut off is marked as a copy, and the
    next sync does not correct that. *)
Theorem C74_cut_off_refuted :
  ∃ C C' w w1 p t x, any_order C' ∧ idle C w ∧ (c_end C < c_now C')%Z
  ∧ (∀ p x, w_ldb w !! p = Some x → ld_local x = true → is_file (l_at C (w_fs w) p) = true)
  ∧ w1 ∈ (sync_main C (ret tt) w).1.1
  ∧ let '(_, w', r) := sync_main C' (ret tt) (reboot w1) in
    r = Ok tt ∧ l_at C' (w_fs w') p = Some (Link (abs_path (c_R C' ++ p)) t) ∧ w_ldb w' !! p = Some x ∧ ld_local x = true.
Proof.
  destruct (crash_witness (at_ exC 0 20 21) (at_ exC 0 40 41) (ret tt) exM id 3
    (λ w1 r w', is_ok r && (node_is (w_fs w') (pL ++ e "a") (Some (Link (lit "/r/a") 20))
                && row_is w' (e "a") (LData false 1%Qc true))) ltac:(vm_compute; reflexivity)) as (w1 & Hin & H).
  exists (at_ exC 0 20 21), (at_ exC 0 40 41), exM, w1, (e "a"), 20%Z, (LData false 1%Qc true).
  split; [done|]. split; [apply idle_of; mounted_now|]. split; [done|]. split; [|].
  { apply (map_Forall_lookup (λ p x, ld_local x = true → is_file (l_at (at_ exC 0 20 21) (w_fs exM) p) = true)). decided. }
  split; [exact Hin|]. clear Hin. unfold id in H. destruct (sync_main (at_ exC 0 40 41) (ret tt) (reboot w1)) as [[tr w'] r].
  apply andb_true_iff in H as [H1%is_ok_spec [H2%node_is_spec H3%bool_decide_eq_true]%andb_true_iff]. done.
Qed.
Print Assumptions C74_cut_off_refuted.

(** ** C75: priorities *)
(** [q] is the highest priority of a known file. *)
Definition highest (db : lmap) (q : Qc) : Prop :=
  (∃ p x, db !! p = Some x ∧ ld_dir x = false ∧ ld_prio x = q)
  ∧ ∀ p x, db !! p = Some x → ld_dir x = false → (ld_prio x <= q)%Qc.
Lemma sl_max_highest (db : lmap) q : sl_max db = Some q → highest db q.
Proof.
  unfold sl_max. pose proof (max_prio_spec (map snd (map_to_list db))) as H. intros E. rewrite E in H.
  destruct H as [(x & Hx & Hd & Hq) Hle]. split.
  - apply elem_of_list_fmap in Hx as ([p y] & -> & Hp%elem_of_map_to_list). by exists p, y.
  - intros p x' Hp. apply Hle. apply elem_of_list_fmap. exists (p, x'). split; [done|]. by apply elem_of_map_to_list.
Qed.
(** A sync leaves the priority of known files alone.  A new file starts from zero,
    and from the highest priority if it was made here and "InflatePriority" is on.
    Missing: states with clashes; the priorities of directories are sums, see C11. *)
Theorem C75_priority_partial C w last_sync :
  any_order C → idle C w → w_last w = Some last_sync →
  let X := excluded_now C (w_fs w) in
  clean C (w_fs w) (w_ldb w) (w_rdb w) last_sync X →
  let '(_, w', r) := sync_main C (ret tt) w in
  r = Ok tt ∧ ∀ p x, w_ldb w' !! p = Some x → ld_dir x = false →
    match w_ldb w !! p with
    | Some x0 => ld_prio x = ld_prio x0
    | None =>
        (c_inflate C = true ∧ is_Some (l_at C (w_fs w) p) ∧ highest (w_ldb w) (ld_prio x))
        ∨ (¬ (c_inflate C = true ∧ is_Some (l_at C (w_fs w) p)) ∧ ld_prio x = 0%Qc)
    end.
Proof.
  intros Ho Hi Hl X Hc. destruct (idle_sync C w last_sync Ho Hi Hl Hc) as [_ Hw].
  destruct (sync_main C (ret tt) w) as [[tr w'] r]. cbn [fst snd] in Hw. destruct Hw as (-> & Hoc & _ & Hre & Hse).
  split; [done|]. intros p x Hx Hd. destruct (se_prio _ _ _ _ _ _ _ Hse p x Hx Hd) as (x1 & H & ->). fold X in H. unfold lrow in H.
  destruct (w_ldb w !! p) as [x0|] eqn:E; [by subst|]. destruct H as (_ & H1 & H2).
  pose proof (re_ldb _ _ _ _ _ Hre p) as Hm. rewrite Hx in Hm. cbn in Hm.
  assert (¬ stray C (w_fs w) (w_ldb w) X p) as Hns.
  { intros Hs. rewrite (merged_not_stray _ _ _ _ _ _ Hc) in Hm by done. done. }
  destruct (decide (c_inflate C = true ∧ is_Some (l_at C (w_fs w) p))) as [[Hf Ha]|Hn].
  - left. split; [done|]. split; [done|]. apply sl_max_highest, H1; [done|]. split; [done|]. split; [|done].
    unfold Merge.known. rewrite E. by intros [].
  - right. split; [done|]. apply H2. intros [Hf [Ha _]]. by apply Hn.
Qed.
Print Assumptions C75_priority_partial.
Definition prio (w : world) (p : path) : option Qc := ld_prio <$> w_ldb w !! p.
(** "b" is known, "nd/f" was made here, "n2" by another client. *)
Example C75_priority_example :
  any_order exC ∧ idle exC exN ∧ w_last exN = Some 10%Z
  ∧ clean exC (w_fs exN) (w_ldb exN) (w_rdb exN) 10 (excluded_now exC (w_fs exN))
  ∧ (prio exN (e "b"), prio exN (e "nd" ++ e "f"), prio exN (e "n2")) = (Some 1%Qc, None, None)
  ∧ let '(_, w', _) := sync_main exC (ret tt) exN in
    (prio w' (e "b"), prio w' (e "nd" ++ e "f"), prio w' (e "n2")) = (Some 1%Qc, Some 1%Qc, Some 0%Qc).
Proof.
  split; [done|]. split; [apply exN_idle|]. split; [done|]. split.
  { assert (excluded_now exC (w_fs exN) = XN) as -> by decided. apply exN_clean. }
  split; [vm_compute; reflexivity|]. vm_compute. reflexivity.
Qed.

(** ** C81: what is kept *)
(** Disk usage of entries of the remote directory, with at least a block for each. *)
Definition whole_usage (C : conf) (m : fs) (S : pset) : Z :=
  set_sum (λ p, Z.max (default 0%Z (c_blocks C p <$> r_at C m p)) (c_block C)) S.
(** The time of a directory has no influence on its disk usage. *)
Definition plain_blocks (C : conf) : Prop :=
  (∀ p n, 0 <= c_blocks C p n)%Z ∧ ∀ p t t', c_blocks C p (Dir t) = c_blocks C p (Dir t').
Lemma like_file (a b : option node) c t : like a b → b = Some (File c t) → a = Some (File c t).
Proof. intros Hl ->. by destruct a as [[]|]. Qed.
Section best.
  Context (C : conf) (w : world) (last : Z) (X : pset) (row : path → ldata → Prop) (m' : fs) (db : lmap).
  Context (Hc : clean C (w_fs w) (w_ldb w) (w_rdb w) last X) (Ho : outcome C (w_fs w) (w_ldb w) last X m').
  Context (Hdb : ∀ p, ld_dir <$> db !! p = is_Dir <$> merged C (w_fs w) (w_ldb w) last X p) (Hse : settled C w last X row m' db).
  Local Notation merged := (merged C (w_fs w) (w_ldb w) last X).
  Set Default Proof Using "Type*".
  Lemma best_file p x : db !! p = Some x → ld_dir x = false → ∃ c t, merged p = Some (File c t) ∧ r_at C m' p = Some (File c t).
  Proof.
    intros Hx Hd. pose proof (Hdb p) as E. rewrite Hx in E. cbn in E. rewrite Hd in E. destruct (merged p) as [[c t|l k|t]|] eqn:Hm; try done.
    - exists c, t. split; [done|]. eapply like_file; [apply (oc_remote _ _ _ _ _ _ Ho)|done].
    - by apply (merged_no_link _ _ _ _ _ _ Hc) in Hm.
  Qed.
  Lemma best_shown p c t : merged p = Some (File c t) → r_at C m' p = Some (File c t) ∧ (∃ x, db !! p = Some x ∧ ld_dir x = false).
  Proof.
    intros Hm. split; [eapply like_file; [apply (oc_remote _ _ _ _ _ _ Ho)|done]|].
    pose proof (Hdb p) as E. rewrite Hm in E. destruct (db !! p) as [x|]; [|done]. injection E as E. by exists x.
  Qed.
  Lemma best_merged p x c t : db !! p = Some x → r_at C m' p = Some (File c t) → merged p = Some (File c t).
  Proof.
    intros Hx Hr. pose proof (oc_remote _ _ _ _ _ _ Ho p) as Hl. rewrite Hr in Hl. by unfold like in Hl.
  Qed.
  Lemma best_room : plain_blocks C → (whole_usage C m' (dom db) + local_usage C (w_fs w) X < c_limit C)%Z →
    ∀ p x, db !! p = Some x → ld_dir x = false → ∃ c t, l_at C m' p = Some (File c t).
  Proof.
    intros [Hn Hd] Hlt p x Hx Hdx. destruct (best_file p x Hx Hdx) as (c & t & Hm & _). exists c, t.
    apply (se_room _ _ _ _ _ _ _ Hse Hn (λ p, c_blocks C p (Dir 0))) with (K := (dom db : pset)); [|..|done].
    - intros q t'. by rewrite (Hd q t' 0%Z).
    - intros q. rewrite elem_of_dom. pose proof (Hdb q) as E. rewrite <-(fmap_is_Some ld_dir), E, fmap_is_Some. done.
    - eapply Z.le_lt_trans; [|exact Hlt]. apply Z.add_le_mono; [|done]. apply set_sum_le. intros q Hq. cbn beta.
      pose proof (oc_remote _ _ _ _ _ _ Ho q) as Hl. apply elem_of_dom in Hq as [y Hy]. pose proof (Hdb q) as E. rewrite Hy in E. cbn in E.
      destruct (merged q) as [[c1 t1|l k|t1]|] eqn:Hmq; [| |destruct (r_at C m' q) as [[| |t2]|]; try done|done].
      + rewrite (like_file _ _ _ _ Hl eq_refl). done.
      + by apply (merged_no_link _ _ _ _ _ _ Hc) in Hmq.
      + cbn [fmap option_fmap option_map default from_option]. unfold id. by rewrite (Hd q 0%Z t2).
  Qed.
  Lemma best_rank : (∀ p c t, is_Some (db !! p) → r_at C m' p = Some (File c t) → c_block C <= c_blocks C p (File c t))%Z →
    ∀ p q x y n n', db !! p = Some x → db !! q = Some y →
    is_link (l_at C m' p) = true → ld_dir x = false → is_file (l_at C m' q) = true →
    (removelast q = [] ∨ ∃ r z, db !! r = Some z ∧ ld_dir z = false ∧ is_link (l_at C m' r) = true ∧ removelast q `prefix_of` r) →
    r_at C m' p = Some n → r_at C m' q = Some n' →
    (adj (c_account C) (ld_prio y) (c_blocks C q n') < adj (c_account C) (ld_prio x) (c_blocks C p n))%Qc →
    (c_blocks C q n' < c_blocks C p n)%Z.
  Proof.
    intros Hb p q x y n n' Hx Hy Hl Hdx Hf Hs Hp Hq.
    destruct (best_file p x Hx Hdx) as (c & t & Hm & Hr). rewrite Hp in Hr. injection Hr as ->.
    pose proof (oc_local _ _ _ _ _ _ Ho q) as Hsh. unfold shows in Hsh. pose proof (Hdb q) as E. rewrite Hy in E. cbn in E.
    destruct (l_at C m' q) as [[c' t'|l k|t']|] eqn:Hlq; try done.
    destruct (merged q) as [[c1 t1|l k|t1]|] eqn:Hmq; try done; [|by apply (merged_no_link _ _ _ _ _ _ Hc) in Hmq|by destruct Hsh].
    destruct Hsh as [Hsh|[k Hsh]]; [|done]. injection Hsh as -> ->.
    destruct (best_shown q _ _ Hmq) as [Hr (y' & Hy' & Hdy)]. rewrite Hy in Hy'. injection Hy' as <-. rewrite Hq in Hr. injection Hr as ->.
    destruct (l_at C m' p) as [[c0 t0|l k|t0]|] eqn:Hlp; try done.
    intros Hlt. apply (se_rank _ _ _ _ _ _ _ Hse) with (p := p) (q := q) (x := x) (y := y); try done.
    - intros r cr tr Hmr. destruct (best_shown r _ _ Hmr) as [Hrr (z & Hz & _)]. by apply Hb.
    - by exists l, k.
    - destruct Hs as [Hs|(r & z & Hz & Hdz & Hlr & Hpre)]; [by left|right].
      destruct (best_file r z Hz Hdz) as (cr & tr & Hmr & _). destruct (l_at C m' r) as [[| l1 k1|]|] eqn:Hlr'; try done. by exists r, cr, tr, l1, k1.
  Qed.
End best.

(** If all known files fit in the limit beside the excluded ones - each entry
    counted with at least a block - then a sync leaves a copy of each of them.
    Missing: states with clashes. *)
Theorem C81_room_partial C w last_sync :
  any_order C → idle C w → w_last w = Some last_sync →
  let X := excluded_now C (w_fs w) in
  clean C (w_fs w) (w_ldb w) (w_rdb w) last_sync X →
  plain_blocks C →
  let '(_, w', r) := sync_main C (ret tt) w in
  r = Ok tt ∧
  ((whole_usage C (w_fs w') (dom (w_ldb w')) + local_usage C (w_fs w) X < c_limit C)%Z →
   ∀ p x, w_ldb w' !! p = Some x → ld_dir x = false → is_file (l_at C (w_fs w') p) = true).
Proof.
  intros Hor Hi Hl X Hc Hn. destruct (idle_sync C w last_sync Hor Hi Hl Hc) as [_ Hw].
  destruct (sync_main C (ret tt) w) as [[tr w'] r]. cbn [fst snd] in Hw. destruct Hw as (-> & Ho & _ & Hre & Hse).
  split; [done|]. intros Hlt p x Hx Hd.
  destruct (best_room C w last_sync X _ _ _ Hc Ho (re_ldb _ _ _ _ _ Hre) Hse Hn Hlt p x Hx Hd) as (c & t & ->). done.
Qed.
Print Assumptions C81_room_partial.

(** A file that is kept while another one in its directory is not was chosen by
    itself.  If no file takes less than a block, then it takes less space than any
    file of higher priority that is not kept: that one did not fit.
    Missing: states with clashes; files that were chosen with their directory, for
    which see C31. *)
Theorem C81_rank_partial C w last_sync :
  any_order C → idle C w → w_last w = Some last_sync →
  clean C (w_fs w) (w_ldb w) (w_rdb w) last_sync (excluded_now C (w_fs w)) →
  let '(_, w', r) := sync_main C (ret tt) w in
  r = Ok tt ∧
  ((∀ p c t, is_Some (w_ldb w' !! p) → r_at C (w_fs w') p = Some (File c t) → c_block C <= c_blocks C p (File c t))%Z →
   ∀ p q x y n n', w_ldb w' !! p = Some x → w_ldb w' !! q = Some y →
     is_link (l_at C (w_fs w') p) = true → ld_dir x = false → is_file (l_at C (w_fs w') q) = true →
     (removelast q = [] ∨ ∃ r z, w_ldb w' !! r = Some z ∧ ld_dir z = false ∧ is_link (l_at C (w_fs w') r) = true ∧ removelast q `prefix_of` r) →
     r_at C (w_fs w') p = Some n → r_at C (w_fs w') q = Some n' →
     (adj (c_account C) (ld_prio y) (c_blocks C q n') < adj (c_account C) (ld_prio x) (c_blocks C p n))%Qc →
     (c_blocks C q n' < c_blocks C p n)%Z).
Proof.
  intros Hor Hi Hl Hc. destruct (idle_sync C w last_sync Hor Hi Hl Hc) as [_ Hw].
  destruct (sync_main C (ret tt) w) as [[tr w'] r]. cbn [fst snd] in Hw. destruct Hw as (-> & Ho & _ & Hre & Hse).
  split; [done|]. exact (best_rank C w last_sync _ _ _ _ Hc Ho (re_ldb _ _ _ _ _ Hre) Hse).
Qed.
Print Assumptions C81_rank_partial.
(** Priorities that do not depend on the size. *)
Definition exSize (limit block : Z) (big : pset) : conf := {|
  c_L := pL; c_R := pR; c_limit := limit; c_account := false; c_inflate := true; c_trash := true;
  c_cleanup := Some 8%Z; c_id := lit "me"; c_patterns := lit "x"; c_glob := ex_glob; c_block := block;
  c_blocks := λ p n, match n with File c _ => if bool_decide (p ∈ big) then 8192 else Z.of_nat (length c) * 1024 | Link _ _ => 0 | Dir _ => 512 end%Z;
  c_now := 20; c_end := 21; c_dt := ex_dt; c_iter := id; c_rows := id; c_tty := false |}.
(** Everything fits; with a little less space it does not. *)
Example C81_room_example :
  let C := exSize 15400 512 ∅ in
  any_order C ∧ idle C exN ∧ w_last exN = Some 10%Z ∧ excluded_now C (w_fs exN) = XN
  ∧ clean C (w_fs exN) (w_ldb exN) (w_rdb exN) 10 XN ∧ plain_blocks C
  ∧ (let '(_, w', _) := sync_main C (ret tt) exN in
     whole_usage C (w_fs w') (dom (w_ldb w')) + local_usage C (w_fs exN) XN = 15360)%Z
  ∧ (let '(_, w', _) := sync_main C (ret tt) exN in size (copies C w') = 6%nat)
  ∧ (let '(_, w', _) := sync_main (exSize 14900 512 ∅) (ret tt) exN in size (copies (exSize 14900 512 ∅) w') = 5%nat).
Proof.
  cbv zeta. split; [done|]. split; [apply idle_of; mounted_now|]. split; [done|]. split; [decided|]. split; [apply clean_checked; decided|].
  split. { split; [|done]. intros p []; cbn; [case_bool_decide|..]; lia. }
  split; [vm_compute; reflexivity|]. split; vm_compute; reflexivity.
Qed.
(** "rm" takes three blocks of 1024 and does not fit, "n2" has a lower priority and takes two. *)
Example C81_rank_example :
  let C := exSize 13000 512 ∅ in
  any_order C ∧ idle C exN ∧ w_last exN = Some 10%Z ∧ excluded_now C (w_fs exN) = XN
  ∧ clean C (w_fs exN) (w_ldb exN) (w_rdb exN) 10 XN
  ∧ (let '(_, w', _) := sync_main C (ret tt) exN in
     (is_link (l_at C (w_fs w') (e "rm")), prio w' (e "rm")) = (true, Some 1%Qc)
     ∧ (is_file (l_at C (w_fs w') (e "n2")), prio w' (e "n2")) = (true, Some 0%Qc) ∧ removelast (e "n2") = [])
  ∧ let '(_, w', _) := sync_main C (ret tt) exN in
    Forall (λ p, match r_at C (w_fs w') p with Some (File c t) => (512 <=? c_blocks C p (File c t))%Z = true | _ => True end) (elements (dom (w_ldb w'))).
Proof.
  cbv zeta. split; [done|]. split; [apply idle_of; mounted_now|]. split; [done|]. split; [decided|]. split; [apply clean_checked; decided|].
  split; [vm_compute; auto|]. vm_compute. repeat constructor.
Qed.
(** Files that take less than a block give space back, as a link is taken to need
    a block: then a file can be kept after one of higher priority that takes as
    much space was turned down (filelogic.py 245-251). *)
Theorem C81_small_refuted :
  ∃ C w p q x y n n', any_order C ∧ idle C w ∧ w_last w = Some 10%Z
  ∧ clean C (w_fs w) (w_ldb w) (w_rdb w) 10 (excluded_now C (w_fs w)) ∧ plain_blocks C
  ∧ let '(_, w', r) := sync_main C (ret tt) w in
    r = Ok tt ∧ w_ldb w' !! p = Some x ∧ w_ldb w' !! q = Some y ∧ ld_dir x = false
    ∧ is_link (l_at C (w_fs w') p) = true ∧ is_file (l_at C (w_fs w') q) = true ∧ removelast q = []
    ∧ r_at C (w_fs w') p = Some n ∧ r_at C (w_fs w') q = Some n'
    ∧ (adj (c_account C) (ld_prio y) (c_blocks C q n') < adj (c_account C) (ld_prio x) (c_blocks C p n))%Qc
    ∧ (c_blocks C q n' = c_blocks C p n)%Z.
Proof.
  set (C := exSize 25000 4096 {[ e "b"; e "n2" ]}).
  exists C, exN, (e "b"), (e "n2"), (LData false 1%Qc false), (LData false 0%Qc false), (File (lit "bb") 5), (File (lit "n2") 14).
  split; [done|]. split; [apply idle_of; mounted_now|]. split; [done|].
  split. { assert (excluded_now C (w_fs exN) = XN) as -> by decided. apply clean_checked. decided. }
  split. { split; [|done]. intros p []; cbn; [case_bool_decide|..]; lia. }
  set (chk := λ (r : res ()) w', is_ok r && (row_is w' (e "b") (LData false 1%Qc false) && (row_is w' (e "n2") (LData false 0%Qc false)
     && (is_link (l_at C (w_fs w') (e "b")) && (is_file (l_at C (w_fs w') (e "n2"))
     && (bool_decide (r_at C (w_fs w') (e "b") = Some (File (lit "bb") 5)) && bool_decide (r_at C (w_fs w') (e "n2") = Some (File (lit "n2") 14)))))))).
  assert (let '(_, w', r) := sync_main C (ret tt) exN in chk r w' = true) as Hx.
  { apply (run_witness C (ret tt) exN chk). vm_compute. reflexivity. }
  destruct (sync_main C (ret tt) exN) as [[tr w'] r]. unfold chk in Hx.
  apply andb_true_iff in Hx as [H1%is_ok_spec [H2%bool_decide_eq_true [H3%bool_decide_eq_true [H4 [H5 [H6%bool_decide_eq_true H7%bool_decide_eq_true]%andb_true_iff]%andb_true_iff]%andb_true_iff]%andb_true_iff]%andb_true_iff].
  split_and!; try done.
Qed.
Print Assumptions C81_small_refuted.
