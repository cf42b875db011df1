(** C39-C44, C63, C65, C69: what a whole sync does in unfavourable states. *)
From Coq Require Import QArith Qcanon.
From Verif Require Import SyncEx SyncProofs.
From stdpp Require Import options.

(** ** C39 An interrupted sync loses nothing: not true.
    A file that is no longer kept locally is removed before it is replaced by
    a link.  If the sync ends in between, the next one takes it for deleted by
    the user and deletes the remote file too, without the trash. *)
Theorem C39_dropped_refuted :
  ∃ C C' w w1 c, idle C w ∧ c_trash C = true ∧ (c_end C < c_now C')%Z
    ∧ w1 ∈ (sync_main C (ret tt) w).1.1
    ∧ let '(_, w', r) := sync_main C' (ret tt) (reboot w1) in
      r = Ok tt ∧ destroyed c (w_fs w) (w_fs w').
Proof.
  destruct (crash_witness (at_ exC 0 20 21) (at_ exC 0 40 41) (ret tt) exM id 2
    (λ _ r w', is_ok r && lost (lit "aa") (w_fs w')) ltac:(vm_compute; reflexivity)) as (w1 & Hin & H).
  exists (at_ exC 0 20 21), (at_ exC 0 40 41), exM, w1, (lit "aa").
  split; [apply idle_of; mounted_now|]. split; [done|]. split; [done|]. split; [exact Hin|]. clear Hin. unfold id in H.
  destruct (sync_main (at_ exC 0 40 41) (ret tt) (reboot w1)) as [[tr w'] r]. apply andb_true_iff in H as [H1%is_ok_spec H2].
  split; [exact H1|]. split; [|by apply lost_spec]. exists (pL ++ e "a"), 5%Z. vm_compute. reflexivity.
Qed.
Print Assumptions C39_dropped_refuted.
(** Likewise, a half-written local copy of a remote file is newer than the last
    sync, and the next one uploads it over the good file. *)
Theorem C39_torn_refuted :
  ∃ C C' w w1 c, idle C w ∧ c_trash C = true ∧ (c_end C < c_now C')%Z
    ∧ w1 ∈ (sync_main C (ret tt) w).1.1
    ∧ let '(_, w', r) := sync_main C' (ret tt) (reboot w1) in
      r = Ok tt ∧ destroyed c (w_fs w) (w_fs w').
Proof.
  destruct (crash_witness exC (at_ exC 100000 40 41) (ret tt) exM id 4
    (λ _ r w', is_ok r && lost (lit "bb") (w_fs w')) ltac:(vm_compute; reflexivity)) as (w1 & Hin & H).
  exists exC, (at_ exC 100000 40 41), exM, w1, (lit "bb").
  split; [apply idle_of; mounted_now|]. split; [done|]. split; [done|]. split; [exact Hin|]. clear Hin. unfold id in H.
  destruct (sync_main (at_ exC 100000 40 41) (ret tt) (reboot w1)) as [[tr w'] r]. apply andb_true_iff in H as [H1%is_ok_spec H2].
  split; [exact H1|]. split; [|by apply lost_spec]. exists (pR ++ e "b"), 5%Z. vm_compute. reflexivity.
Qed.
Print Assumptions C39_torn_refuted.

(** ** C40 Changes made during a sync are picked up later: not true.
    A file that is edited while a sync runs, after its changes were looked up,
    is overwritten by that same sync. *)
Theorem C40_edit_refuted :
  ∃ C (user : M fs unit) w c p t,
    idle C w ∧ is_Some (w_ldb w !! p) ∧ (c_now C <= t <= c_end C)%Z
    ∧ (user (w_fs w)).1.2 !! (c_L C ++ p) = Some (File c t)
    ∧ let '(_, w', r) := sync_main C user w in
      r = Ok tt ∧ ∀ k t, w_fs w' !! k ≠ Some (File c t).
Proof.
  exists exC, (write_file 20 (pL ++ e "a") (lit "edited")), exM, (lit "edited"), (e "a"), 20%Z.
  split; [apply idle_of; mounted_now|]. split; [decided|]. split; [done|]. split; [vm_compute; reflexivity|].
  pose proof (run_witness exC (write_file 20 (pL ++ e "a") (lit "edited")) exM
    (λ r w', is_ok r && lost (lit "edited") (w_fs w')) ltac:(vm_compute; reflexivity)) as H.
  destruct (sync_main exC _ exM) as [[tr w'] r]. apply andb_true_iff in H as [H1%is_ok_spec H2].
  split; [exact H1|]. by apply lost_spec.
Qed.
Print Assumptions C40_edit_refuted.
(** ** C41 An unmounted remote changes nothing.
    The mount point is empty or missing: the sync fails with the error for a
    missing remote directory and nothing at all is changed, at any time. *)
Theorem C41_unmounted C (user : M fs unit) w :
  wf_fs (w_fs w) → valid_comps (c_R C) → valid_name (c_id C) → is_Some (w_last w) →
  (** no component of the path of the remote directory is a file or a link *)
  dirs_ok (w_fs w) (c_R C) →
  w_fs w !! (c_R C ++ [lit ".zielen"]) = None →
  sync_main C user w = ([], w, Err RemoteErr).
Proof. intros. by apply sync_unmounted. Qed.
Print Assumptions C41_unmounted.
Example C41_ex :
  let w := set_fs (filter (λ kv, ¬ (pR `prefix_of` kv.1 ∧ kv.1 ≠ pR)) fsM) exM in
  wf_fs (w_fs w) ∧ dir_at (w_fs w) pR ∧ dirs_ok (w_fs w) pR ∧ w_fs w !! (pR ++ [lit ".zielen"]) = None
  ∧ (sync_main exC (ret tt) w).2 = Err RemoteErr.
Proof.
  split; [decided|]. split; [decided|]. split.
  { intros q Hq [s E]. destruct q as [|x [|y q]]; [done| |done]. injection E as <- _. right. decided. }
  split; [vm_compute; reflexivity|]. apply is_err_spec. vm_compute. reflexivity.
Qed.

(** ** C42 Delete versus modify: the modified version is destroyed.
    Deleted locally, modified in the remote directory; with the trash. *)
Theorem C42_local_deletion_refuted :
  ∃ C w p c t, idle C w ∧ c_trash C = true
    ∧ is_Some (w_ldb w !! p) ∧ w_fs w !! (c_L C ++ p) = None
    ∧ w_fs w !! (c_R C ++ p) = Some (File c t) ∧ (∀ last, w_last w = Some last → last < t)%Z
    ∧ let '(_, w', _) := sync_main C (ret tt) w in ∀ k t, w_fs w' !! k ≠ Some (File c t).
Proof.
  exists exC, (upd (pR ++ e "a") (File (lit "mod") 15) (del (pL ++ e "a") exM)), (e "a"), (lit "mod"), 15%Z.
  split; [apply idle_of; mounted_now|]. split; [done|]. split; [decided|]. split; [vm_compute; reflexivity|].
  split; [vm_compute; reflexivity|]. split; [by intros last [= <-]|].
  pose proof (run_witness exC (ret tt) (upd (pR ++ e "a") (File (lit "mod") 15) (del (pL ++ e "a") exM))
    (λ r w', lost (lit "mod") (w_fs w')) ltac:(vm_compute; reflexivity)) as H.
  destruct (sync_main exC _ _) as [[tr w'] r]. by apply lost_spec.
Qed.
Print Assumptions C42_local_deletion_refuted.
(** Deleted in the remote directory, by another client, and modified locally. *)
Theorem C42_remote_deletion_refuted :
  ∃ C w p c t, idle C w
    ∧ is_Some (w_ldb w !! p) ∧ w_fs w !! (c_R C ++ p) = None ∧ w_rdb w !! p = None
    ∧ w_fs w !! (c_L C ++ p) = Some (File c t) ∧ (∀ last, w_last w = Some last → last < t)%Z
    ∧ let '(_, w', _) := sync_main C (ret tt) w in ∀ k t, w_fs w' !! k ≠ Some (File c t).
Proof.
  set (w := world_of (<[pL ++ e "a" := File (lit "mod") 15%Z]> (delete (pR ++ e "a") fsM)) ldbM (delete (e "a") rdbM)).
  exists exC, w, (e "a"), (lit "mod"), 15%Z.
  split; [apply idle_of; mounted_now|]. split; [decided|]. split; [vm_compute; reflexivity|].
  split; [vm_compute; reflexivity|]. split; [vm_compute; reflexivity|]. split; [by intros last [= <-]|].
  pose proof (run_witness exC (ret tt) w (λ r w', lost (lit "mod") (w_fs w')) ltac:(vm_compute; reflexivity)) as H.
  destruct (sync_main exC _ _) as [[tr w'] r]. by apply lost_spec.
Qed.
Print Assumptions C42_remote_deletion_refuted.

(** ** C43 Two clients may delete the same file: not true.
    The second client's sync fails with KeyError. *)
Definition fs2 : fs := list_to_map ((pI, Dir 1) :: (pI ++ e "b", File (lit "bb") 5) :: map_to_list (delete (pL ++ e "a") fsM))%Z.
Theorem C43_two_deletions_refuted :
  ∃ A B wA ldbB p, c_R A = c_R B ∧ idle A wA ∧ idle B (other wA ldbB)
    ∧ is_Some (w_ldb wA !! p) ∧ is_Some (ldbB !! p) ∧ is_Some (w_rdb wA !! p) ∧ is_Some (w_fs wA !! (c_R A ++ p))
    ∧ w_fs wA !! (c_L A ++ p) = None ∧ w_fs wA !! (c_L B ++ p) = None
    ∧ (sync_main A (ret tt) wA).2 = Ok tt
    ∧ (sync_main B (ret tt) (other (sync_main A (ret tt) wA).1.2 ldbB)).2 = Err KeyErr.
Proof.
  exists exC, exC2, (world_of fs2 ldbM rdbM), (list_to_map [known true (e "a"); known true (e "b")]), (e "a").
  split; [done|]. split; [apply idle_of; mounted_now|]. split; [apply idle_of; mounted_now|].
  split; [decided|]. split; [decided|]. split; [decided|]. split; [decided|].
  split; [vm_compute; reflexivity|]. split; [vm_compute; reflexivity|].
  split; [apply is_ok_spec; vm_compute; reflexivity|]. apply is_err_spec. vm_compute. reflexivity.
Qed.
Print Assumptions C43_two_deletions_refuted.

(** In general, a client that still knows a file which is neither in its local
    directory nor in the remote database is stuck: every further sync fails,
    and none of them changes anything but the copy of the exclude file. *)
Fixpoint attempts (l : list (conf * M fs unit)) (w : world) : list (res unit * world) :=
  match l with
  | [] => []
  | (C, user) :: l =>
      let '(_, w', r) := sync_main C user w in (r, w') :: attempts l (reboot w')
  end.
Theorem C43_stuck C w p l :
  idle C w → util_ok C (w_fs w) → is_Some (w_last w) →
  is_Some (w_ldb w !! p) → w_rdb w !! p = None → w_fs w !! (c_L C ++ p) = None →
  ¬ util_dir C `prefix_of` c_L C ++ p →
  Forall (λ cu, c_L cu.1 = c_L C ∧ c_R cu.1 = c_R C ∧ c_id cu.1 = c_id C) l →
  Forall (λ rw, rw.1 = Err KeyErr ∧ untouched C w rw.2) (attempts l w).
Proof.
  intros Hi Hu Hl Hp Hr Hn Hne Hc.
  assert (exclude_file C ≠ c_L C ++ p) as Hx.
  { intros E. apply Hne. rewrite <-E, exclude_file_app. unfold util_dir. by apply prefix_app, prefix_app_r. }
  assert (∀ w0, idle C w0 → util_ok C (w_fs w0) → untouched C w w0 →
    Forall (λ rw, rw.1 = Err KeyErr ∧ untouched C w rw.2) (attempts l w0)) as G; [|by apply G].
  induction Hc as [|[C' user] l (EL & ER & EI) Hc IH]; intros w0 [Hm0 Hb0] Hu0 (Hf & Hl0 & Hr0 & Hla); [constructor|].
  simpl in EL, ER, EI. simpl.
  assert (exclude_file C' = exclude_file C) as Ex by (unfold exclude_file, exclude_dir, util_dir; by rewrite ER, EI).
  assert (v_ldb w0 = w_ldb w0 ∧ v_rdb w0 = w_rdb w0 ∧ FMProofs.fresh w0) as (E1 & E2 & Hfr).
  { rewrite <-Hb0. repeat split. }
  assert (mounted C' (w_fs w0)) as Hm' by (destruct Hm0; split; by rewrite ?EL, ?ER).
  assert (util_ok C' (w_fs w0)) as Hu'.
  { destruct Hu0 as [H1 H2 H3]. split; [|by rewrite EI|by rewrite Ex]. unfold exclude_dir, util_dir. by rewrite ER. }
  pose proof (stuck_wp C' user w0 p Hm' Hu' Hfr) as [_ H].
  - by rewrite Hla.
  - by rewrite E1, Hl0.
  - by rewrite E2, Hr0.
  - rewrite EL, Hf; done.
  - by rewrite Ex, EL.
  - destruct (sync_main C' user w0) as [[tr w'] r]. simpl in H. destruct H as (-> & (H1 & H2 & H3 & H4) & H5 & H6).
    assert (untouched C w w') as Hw'.
    { split; [|by rewrite H2, H3, H4]. intros k Hk. rewrite H1 by (by rewrite Ex). by apply Hf. }
    constructor; [done|]. apply IH.
    + split; [|done]. destruct H5; split; simpl; by rewrite <-?EL, <-?ER.
    + destruct H6 as [G1 G2 G3]. split; [|by rewrite <-EI|by rewrite <-Ex]. revert G1. unfold exclude_dir, util_dir. by rewrite ER.
    + done.
Qed.
Print Assumptions C43_stuck.
Example C43_ex :
  let w := world_of (delete (pR ++ e "a") (delete (pL ++ e "a") fsM)) ldbM (delete (e "a") rdbM) in
  idle exC w ∧ util_ok exC (w_fs w) ∧ is_Some (w_ldb w !! e "a") ∧ w_rdb w !! e "a" = None ∧ w_fs w !! (pL ++ e "a") = None
  ∧ ¬ util_dir exC `prefix_of` pL ++ e "a".
Proof.
  split; [apply idle_of; mounted_now|]. split; [split; [decided|decided|left; vm_compute; reflexivity]|].
  split; [decided|]. split; [vm_compute; reflexivity|]. split; [vm_compute; reflexivity|]. decided.
Qed.

(** ** C42 Delete versus modify, with two clients.
    One has edited the file and synced; the other one has deleted it.  The sync of
    the second client fails with KeyError, the next sync of the first one deletes
    the edited version, and the second client never syncs again. *)
Definition client_in (shared own : world) : world := reboot (World (w_fs shared) (w_ldb own) (w_rdb shared) (w_last own) ∅ ∅ ∅ ∅ None).
Definition fs3 : fs := list_to_map ((pI, Dir 1) :: (pI ++ e "b", File (lit "bb") 5) :: (pI ++ e "a", File (lit "mod") 15) :: map_to_list (delete (pL ++ e "a") fsM))%Z.
Definition ed0 : world := world_of fs3 (list_to_map [known true (e "a"); known true (e "b")]) rdbM.
(** What is to be computed. *)
Definition ed_check (r1 : res unit) (w1 : world) (r2 : res unit) (w2 : world) (r3 : res unit) (w3 : world) : bool :=
  let m := w_fs w3 in
  is_ok r1 && node_is (w_fs w1) (pR ++ e "a") (Some (File (lit "mod") 15%Z)) && is_err KeyErr r2 && is_ok r3 && lost (lit "mod") m
  && bool_decide (wf_fs m) && bool_decide (dir_at m pL) && bool_decide (dir_at m pR) && bool_decide (dir_at m (exclude_dir exC))
  && node_is m (exclude_file exC) (Some (File (c_patterns exC) 50%Z)) && bool_decide (is_Some (w_last w2)) && bool_decide (is_Some (w_ldb w2 !! e "a"))
  && bool_decide (w_rdb w3 !! e "a" = None) && node_is m (pL ++ e "a") None.
Lemma all_errors (P : world → Prop) (l : list (res unit * world)) : Forall (λ rw, rw.1 = Err KeyErr ∧ P rw.2) l → Forall (λ rw, rw.1 = Err KeyErr) l.
Proof. intros H. eapply Forall_impl; [exact H|]. intros rw [Hrw _]. exact Hrw. Qed.
Theorem C42_edit_lost_refuted :
  ∃ A B B' wB ldbA p c t,
    c_R A = c_R B ∧ c_L B' = c_L B ∧ c_R B' = c_R B ∧ c_id B' = c_id B
    ∧ idle B wB ∧ is_Some (w_ldb wB !! p) ∧ w_fs wB !! (c_L B ++ p) = Some (File c t) ∧ is_Some (w_fs wB !! (c_R B ++ p))
    ∧ idle A (other wB ldbA) ∧ is_Some (ldbA !! p) ∧ w_fs wB !! (c_L A ++ p) = None
    ∧ let w1 := (sync_main B (ret tt) wB).1.2 in
      let w2 := (sync_main A (ret tt) (other w1 ldbA)).1.2 in
      let w3 := (sync_main B' (ret tt) (client_in w2 w1)).1.2 in
      (sync_main B (ret tt) wB).2 = Ok tt ∧ w_fs w1 !! (c_R B ++ p) = Some (File c t)
      ∧ (sync_main A (ret tt) (other w1 ldbA)).2 = Err KeyErr
      ∧ (sync_main B' (ret tt) (client_in w2 w1)).2 = Ok tt ∧ (∀ k t, w_fs w3 !! k ≠ Some (File c t))
      ∧ ∀ l, Forall (λ cu, c_L cu.1 = c_L A ∧ c_R cu.1 = c_R A ∧ c_id cu.1 = c_id A) l →
          Forall (λ rw, rw.1 = Err KeyErr) (attempts l (client_in w3 w2)).
Proof.
  exists (at_ exC 100000 50 51), exC2, (at_ exC2 100000 80 81), ed0, ldbM, (e "a"), (lit "mod"), 15%Z.
  split; [reflexivity|]. split; [reflexivity|]. split; [reflexivity|]. split; [reflexivity|].
  split; [apply idle_of; mounted_now|]. split; [decided|]. split; [vm_compute; reflexivity|]. split; [decided|].
  split; [apply idle_of; mounted_now|]. split; [decided|]. split; [vm_compute; reflexivity|].
  assert (let x1 := sync_main exC2 (ret tt) ed0 in let x2 := sync_main (at_ exC 100000 50 51) (ret tt) (other x1.1.2 ldbM) in
    let x3 := sync_main (at_ exC2 100000 80 81) (ret tt) (client_in x2.1.2 x1.1.2) in
    ed_check x1.2 x1.1.2 x2.2 x2.1.2 x3.2 x3.1.2 = true) as H by (vm_compute; reflexivity).
  cbv zeta in H |- *. destruct (sync_main exC2 (ret tt) ed0) as [[tr1 w1] r1]. cbn [fst snd] in H |- *.
  destruct (sync_main (at_ exC 100000 50 51) (ret tt) (other w1 ldbM)) as [[tr2 w2] r2]. cbn [fst snd] in H |- *.
  destruct (sync_main (at_ exC2 100000 80 81) (ret tt) (client_in w2 w1)) as [[tr3 w3] r3]. cbn [fst snd] in H |- *.
  unfold ed_check in H. cbv zeta in H. rewrite !andb_true_iff in H.
  destruct H as (((((((((((((H1%is_ok_spec & H2%node_is_spec) & H3%is_err_spec) & H4%is_ok_spec) & H5) & H6) & H7) & H8) & H9) & H10%node_is_spec) & H11) & H12) & H13) & H14%node_is_spec).
  apply bool_decide_eq_true in H6, H7, H8, H9, H11, H12, H13.
  split; [exact H1|]. split; [exact H2|]. split; [exact H3|]. split; [exact H4|]. split; [by apply lost_spec|].
  intros l Hl. apply (all_errors (untouched exC (client_in w3 w2))).
  apply (C43_stuck exC (client_in w3 w2) (e "a") l).
  - split; [|reflexivity]. split; [exact H6|exact H7|exact H8|discriminate].
  - split; [exact H9|decided|]. right. eexists _, _. exact H10.
  - exact H11.
  - exact H12.
  - exact H13.
  - exact H14.
  - decided.
  - exact Hl.
Qed.
Print Assumptions C42_edit_lost_refuted.

(** ** C44 New directories are synced: not true for an empty one.
    It is not created in the remote directory, and the sync fails. *)
Theorem C44_empty_dir_refuted :
  ∃ C w p t, idle C w ∧ w_ldb w !! p = None ∧ p ∉ c_glob C (c_patterns C) (w_fs w) (c_L C)
    ∧ w_fs w !! (c_L C ++ p) = Some (Dir t) ∧ w_fs w !! (c_R C ++ p) = None
    ∧ let '(_, w', r) := sync_main C (ret tt) w in
      r = Err KeyErr ∧ w_fs w' !! (c_R C ++ p) = None.
Proof.
  exists exC, (upd (pL ++ e "n") (Dir 15) exM), (e "n"), 15%Z.
  split; [apply idle_of; mounted_now|]. split; [vm_compute; reflexivity|]. split; [decided|].
  split; [vm_compute; reflexivity|]. split; [vm_compute; reflexivity|].
  pose proof (run_witness exC (ret tt) (upd (pL ++ e "n") (Dir 15) exM)
    (λ r w', is_err KeyErr r && node_is (w_fs w') (pR ++ e "n") None) ltac:(vm_compute; reflexivity)) as H.
  destruct (sync_main exC _ _) as [[tr w'] r]. apply andb_true_iff in H as [H1%is_err_spec H2%node_is_spec].
  split; [exact H1|exact H2].
Qed.
Print Assumptions C44_empty_dir_refuted.

(** ** C63 Replacing a link by a file does not touch the link's target: not
    true.  The new content is written through the remote link. *)
Theorem C63_link_target_refuted :
  ∃ C w p q c t c', idle C w ∧ p ≠ q
    ∧ w_fs w !! (c_R C ++ p) = Some (Link (rel_path q) t)
    ∧ w_fs w !! (c_R C ++ q) = Some (File c' t) ∧ w_fs w !! (c_L C ++ q) = Some (File c' t)
    ∧ w_fs w !! (c_L C ++ p) = Some (File c 15%Z) ∧ w_last w = Some 10%Z ∧ c ≠ c'
    ∧ let '(_, w', r) := sync_main C (ret tt) w in
      r = Ok tt ∧ w_fs w' !! (c_R C ++ q) = Some (File c 15%Z) ∧ ∀ k t, w_fs w' !! k ≠ Some (File c' t).
Proof.
  set (w := world_of (<[pL ++ e "s" := File (lit "mine") 15%Z]> (<[pR ++ e "s" := Link (lit "a") 5%Z]> fsM))
    (<[e "s" := LData false 1%Qc true]> ldbM) (<[e "s" := RData false 9]> rdbM)).
  exists exC, w, (e "s"), (e "a"), (lit "mine"), 5%Z, (lit "aa").
  split; [apply idle_of; mounted_now|]. split; [done|].
  do 4 (split; [vm_compute; reflexivity|]). split; [done|]. split; [done|].
  pose proof (run_witness exC (ret tt) w
    (λ r w', is_ok r && (node_is (w_fs w') (pR ++ e "a") (Some (File (lit "mine") 15)) && lost (lit "aa") (w_fs w')))
    ltac:(vm_compute; reflexivity)) as H.
  destruct (sync_main exC _ _) as [[tr w'] r]. apply andb_true_iff in H as [H1%is_ok_spec [H2%node_is_spec H3]%andb_true_iff].
  split; [exact H1|]. split; [exact H2|]. by apply lost_spec.
Qed.
Print Assumptions C63_link_target_refuted.

(** ** C65 Deleting a link always uses the trash: not true after an
    interrupted sync, which leaves the file recorded as kept locally. *)
Theorem C65_trash_bypassed_refuted :
  ∃ C C' w w1 p c t t', idle C w ∧ c_trash C = true ∧ c_trash C' = true ∧ (c_end C < c_now C')%Z
    ∧ w1 ∈ (sync_main C (ret tt) w).1.1
    ∧ w_fs w1 !! (c_L C ++ p) = Some (Link (abs_path (c_R C ++ p)) t) ∧ w_fs w1 !! (c_R C ++ p) = Some (File c t')
    ∧ let '(_, w', r) := sync_main C' (ret tt) (del (c_L C ++ p) (reboot w1)) in
      r = Ok tt ∧ ∀ k t, w_fs w' !! k ≠ Some (File c t).
Proof.
  destruct (crash_witness (at_ exC 0 20 21) (at_ exC 0 40 41) (ret tt) exM (del (pL ++ e "a")) 3
    (λ w1 r w', (node_is (w_fs w1) (pL ++ e "a") (Some (Link (lit "/r/a") 20))
                && node_is (w_fs w1) (pR ++ e "a") (Some (File (lit "aa") 5)))
                && (is_ok r && lost (lit "aa") (w_fs w'))) ltac:(vm_compute; reflexivity)) as (w1 & Hin & H).
  exists (at_ exC 0 20 21), (at_ exC 0 40 41), exM, w1, (e "a"), (lit "aa"), 20%Z, 5%Z.
  split; [apply idle_of; mounted_now|]. split; [done|]. split; [done|]. split; [done|]. split; [exact Hin|]. clear Hin.
  cbn [c_L c_R at_ exC]. destruct (sync_main (at_ exC 0 40 41) (ret tt) _) as [[tr w'] r].
  apply andb_true_iff in H as [[H1%node_is_spec H2%node_is_spec]%andb_true_iff [H3%is_ok_spec H4]%andb_true_iff].
  split; [exact H1|]. split; [exact H2|]. split; [exact H3|]. by apply lost_spec.
Qed.
Print Assumptions C65_trash_bypassed_refuted.

(** ** C69 An interrupted sync can be repeated: not true.
    After a local file was removed because another client deleted it, an
    interruption leaves a state in which every later sync fails. *)
Theorem C69_wedged_refuted :
  ∃ C C' w w1, idle C w ∧ (c_end C < c_now C')%Z
    ∧ (sync_main C (ret tt) w).2 = Ok tt
    ∧ w1 ∈ (sync_main C (ret tt) w).1.1
    ∧ (sync_main C' (ret tt) (reboot w1)).2 = Err KeyErr.
Proof.
  set (w := world_of (delete (pR ++ e "a") fsM) ldbM (delete (e "a") rdbM)).
  destruct (crash_witness exC (at_ exC 100000 40 41) (ret tt) w id 2 (λ _ r w', is_err KeyErr r) ltac:(vm_compute; reflexivity)) as (w1 & Hin & H).
  exists exC, (at_ exC 100000 40 41), w, w1.
  split; [apply idle_of; mounted_now|]. split; [done|]. split; [apply is_ok_spec; vm_compute; reflexivity|]. split; [exact Hin|].
  clear Hin. unfold id in H. destruct (sync_main (at_ exC 100000 40 41) (ret tt) (reboot w1)) as [[tr w'] r]. by apply is_err_spec.
Qed.
Print Assumptions C69_wedged_refuted.
