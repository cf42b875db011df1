(** C103: two clients that sync at the same time. *)
From Coq Require Import QArith Qcanon.
From Verif Require Import SyncEx Concurrent.
From stdpp Require Import options.

(** ** C103 A conflict is found when two clients sync at the same time: not true.
    Both clients have edited the same file.  The sync of [B] runs while that of
    [A], which has looked for changes, has not uploaded anything.  Both succeed,
    [A]'s version replaces [B]'s in the remote directory without a conflict
    copy, and at its next sync [B] loses its own version as well.  What else [B]
    has uploaded, [q], is still there: only its version of [p] is lost. *)
Definition at1 : fs := list_to_map ([(pI, Dir 1); (pI ++ e "b", File (lit "bb") 5); (pI ++ e "a", File (lit "theirs") 16); (pI ++ e "c", File (lit "new") 17); (pL ++ e "a", File (lit "mine") 15)] ++ map_to_list (delete (pL ++ e "a") fsM))%Z.
Definition atA : world := world_of at1 ldbM rdbM.
Definition atB : world := world_of at1 (list_to_map [known true (e "a"); known true (e "b")]) rdbM.
Definition atc : conf := at_ exC 100000 45 46.
Definition atd : conf := at_ exC2 100000 80 81.
Definition at_check (d : res (pset * pset * (pset * pset * pset) * (pset * pset))) (w0 : world) (r1 : res unit) (w1 : world) (r2 : res unit) (w2 : world) (r3 : res unit) (w3 : world) : bool :=
  is_ok d && bool_decide (v_rdb w0 = w_rdb w0) && is_ok r1 && node_is (w_fs w1) (pR ++ e "a") (Some (File (lit "theirs") 16%Z))
  && is_ok r2 && node_is (w_fs w2) (pR ++ e "a") (Some (File (lit "mine") 15%Z))
  && node_is (w_fs w2) (pR ++ e "c") (Some (File (lit "new") 17%Z)) && bool_decide (is_Some (w_rdb w2 !! e "c")) && is_ok r3 && lost (lit "theirs") (w_fs w3)
  && bool_decide (w_rdb w3 !! e "a" = w_rdb w2 !! e "a").
Theorem C103_at_once_refuted :
  ∃ A B B' wA wB p q cA tA cB tB n,
    c_R A = c_R B ∧ c_L B' = c_L B ∧ c_R B' = c_R B ∧ c_id B' = c_id B
    ∧ w_fs wA = w_fs wB ∧ w_rdb wA = w_rdb wB ∧ idle A wA ∧ idle B wB ∧ is_Some (w_ldb wA !! p) ∧ is_Some (w_ldb wB !! p)
    ∧ w_fs wA !! (c_L A ++ p) = Some (File cA tA) ∧ w_fs wA !! (c_L B ++ p) = Some (File cB tB) ∧ cA ≠ cB
    ∧ w_fs wA !! (c_L B ++ q) = Some n ∧ w_fs wA !! (c_R B ++ q) = None ∧ w_rdb wA !! q = None
    ∧ let w0 := (sync_detect A wA).1.2 in
      let w1 := (sync_main B (ret tt) (seen_by w0 wB)).1.2 in
      let w2 := (sync_with A (other_sync B wB) wA).1.2 in
      let w3 := (sync_main B' (ret tt) (seen_by w2 w1)).1.2 in
      (∃ d, (sync_detect A wA).2 = Ok d) ∧ v_rdb w0 = w_rdb w0
      ∧ (sync_main B (ret tt) (seen_by w0 wB)).2 = Ok tt ∧ w_fs w1 !! (c_R B ++ p) = Some (File cB tB)
      ∧ (sync_with A (other_sync B wB) wA).2 = Ok tt ∧ w_fs w2 !! (c_R B ++ p) = Some (File cA tA)
      ∧ w_fs w2 !! (c_R B ++ q) = Some n ∧ is_Some (w_rdb w2 !! q)
      ∧ (sync_main B' (ret tt) (seen_by w2 w1)).2 = Ok tt ∧ (∀ k t, w_fs w3 !! k ≠ Some (File cB t))
      ∧ w_rdb w3 !! p = w_rdb w2 !! p.
Proof.
  exists atc, exC2, atd, atA, atB, (e "a"), (e "c"), (lit "mine"), 15%Z, (lit "theirs"), 16%Z, (File (lit "new") 17%Z).
  split; [reflexivity|]. split; [reflexivity|]. split; [reflexivity|]. split; [reflexivity|]. split; [reflexivity|]. split; [reflexivity|].
  split; [apply idle_of; mounted_now|]. split; [apply idle_of; mounted_now|]. split; [decided|]. split; [decided|].
  split; [vm_compute; reflexivity|]. split; [vm_compute; reflexivity|]. split; [decided|].
  split; [vm_compute; reflexivity|]. split; [vm_compute; reflexivity|]. split; [vm_compute; reflexivity|].
  assert (let x0 := sync_detect atc atA in let x1 := sync_main exC2 (ret tt) (seen_by x0.1.2 atB) in
    let x2 := sync_with atc (other_sync exC2 atB) atA in let x3 := sync_main atd (ret tt) (seen_by x2.1.2 x1.1.2) in
    at_check x0.2 x0.1.2 x1.2 x1.1.2 x2.2 x2.1.2 x3.2 x3.1.2 = true) as H by (vm_compute; reflexivity).
  cbv zeta in H |- *. destruct (sync_detect atc atA) as [[tr0 w0] r0]. cbn [fst snd] in H |- *.
  destruct (sync_main exC2 (ret tt) (seen_by w0 atB)) as [[tr1 w1] r1]. cbn [fst snd] in H |- *.
  destruct (sync_with atc (other_sync exC2 atB) atA) as [[tr2 w2] r2]. cbn [fst snd] in H |- *.
  destruct (sync_main atd (ret tt) (seen_by w2 w1)) as [[tr3 w3] r3]. cbn [fst snd] in H |- *.
  unfold at_check in H. rewrite !andb_true_iff in H.
  destruct H as ((((((((((H1 & H2) & H3%is_ok_spec) & H4%node_is_spec) & H5%is_ok_spec) & H6%node_is_spec) & H9%node_is_spec) & H10) & H7%is_ok_spec) & H8) & H11).
  apply bool_decide_eq_true in H2, H10, H11. split; [destruct r0 as [d|]; [by exists d|discriminate H1]|].
  split; [exact H2|]. split; [exact H3|]. split; [exact H4|]. split; [exact H5|]. split; [exact H6|]. split; [exact H9|]. split; [exact H10|]. split; [exact H7|].
  split; [by apply lost_spec|]. exact H11.
Qed.
Print Assumptions C103_at_once_refuted.
(** The same syncs one after the other keep both versions: one is a conflict copy. *)
Example C103_example :
  let w1 := (sync_main exC2 (ret tt) atB).1.2 in
  let w2 := (sync_main atc (ret tt) (seen_by w1 atA)).1.2 in
  let w3 := (sync_main atd (ret tt) (seen_by w2 w1)).1.2 in
  lost (lit "theirs") (w_fs w3) = false ∧ lost (lit "mine") (w_fs w3) = false.
Proof. vm_compute. split; reflexivity. Qed.

(** Likewise if [A] has deleted the file that [B] has edited: [B]'s version is
    deleted from the remote directory, and by [B]'s next sync from its own
    directory.  It is not in the trash either. *)
Definition dt1 : fs := delete (pL ++ e "a") (delete (pI ++ e "c") at1).
Definition dtA : world := world_of dt1 ldbM rdbM.
Definition dtB : world := world_of dt1 (w_ldb atB) rdbM.
Definition dt_check (d : res (pset * pset * (pset * pset * pset) * (pset * pset))) (w0 : world) (r1 : res unit) (w1 : world) (r2 : res unit) (w2 : world) (r3 : res unit) (w3 : world) : bool :=
  is_ok d && bool_decide (v_rdb w0 = w_rdb w0) && is_ok r1 && node_is (w_fs w1) (pR ++ e "a") (Some (File (lit "theirs") 16%Z))
  && is_ok r2 && node_is (w_fs w2) (pR ++ e "a") None && is_ok r3 && lost (lit "theirs") (w_fs w3).
Theorem C103_deleted_refuted :
  ∃ A B B' wA wB p cB tB,
    c_R A = c_R B ∧ c_L B' = c_L B ∧ c_R B' = c_R B ∧ c_id B' = c_id B ∧ c_trash A = true
    ∧ w_fs wA = w_fs wB ∧ w_rdb wA = w_rdb wB ∧ idle A wA ∧ idle B wB ∧ is_Some (w_ldb wA !! p) ∧ is_Some (w_ldb wB !! p)
    ∧ w_fs wA !! (c_L A ++ p) = None ∧ w_fs wA !! (c_L B ++ p) = Some (File cB tB)
    ∧ let w0 := (sync_detect A wA).1.2 in
      let w1 := (sync_main B (ret tt) (seen_by w0 wB)).1.2 in
      let w2 := (sync_with A (other_sync B wB) wA).1.2 in
      let w3 := (sync_main B' (ret tt) (seen_by w2 w1)).1.2 in
      (∃ d, (sync_detect A wA).2 = Ok d) ∧ v_rdb w0 = w_rdb w0
      ∧ (sync_main B (ret tt) (seen_by w0 wB)).2 = Ok tt ∧ w_fs w1 !! (c_R B ++ p) = Some (File cB tB)
      ∧ (sync_with A (other_sync B wB) wA).2 = Ok tt ∧ w_fs w2 !! (c_R B ++ p) = None
      ∧ (sync_main B' (ret tt) (seen_by w2 w1)).2 = Ok tt ∧ (∀ k t, w_fs w3 !! k ≠ Some (File cB t)).
Proof.
  exists atc, exC2, atd, dtA, dtB, (e "a"), (lit "theirs"), 16%Z.
  split; [reflexivity|]. split; [reflexivity|]. split; [reflexivity|]. split; [reflexivity|]. split; [reflexivity|]. split; [reflexivity|]. split; [reflexivity|].
  split; [apply idle_of; mounted_now|]. split; [apply idle_of; mounted_now|]. split; [decided|]. split; [decided|].
  split; [vm_compute; reflexivity|]. split; [vm_compute; reflexivity|].
  assert (let x0 := sync_detect atc dtA in let x1 := sync_main exC2 (ret tt) (seen_by x0.1.2 dtB) in
    let x2 := sync_with atc (other_sync exC2 dtB) dtA in let x3 := sync_main atd (ret tt) (seen_by x2.1.2 x1.1.2) in
    dt_check x0.2 x0.1.2 x1.2 x1.1.2 x2.2 x2.1.2 x3.2 x3.1.2 = true) as H by (vm_compute; reflexivity).
  cbv zeta in H |- *. destruct (sync_detect atc dtA) as [[tr0 w0] r0]. cbn [fst snd] in H |- *.
  destruct (sync_main exC2 (ret tt) (seen_by w0 dtB)) as [[tr1 w1] r1]. cbn [fst snd] in H |- *.
  destruct (sync_with atc (other_sync exC2 dtB) dtA) as [[tr2 w2] r2]. cbn [fst snd] in H |- *.
  destruct (sync_main atd (ret tt) (seen_by w2 w1)) as [[tr3 w3] r3]. cbn [fst snd] in H |- *.
  unfold dt_check in H. rewrite !andb_true_iff in H.
  destruct H as (((((((H1 & H2) & H3%is_ok_spec) & H4%node_is_spec) & H5%is_ok_spec) & H6%node_is_spec) & H7%is_ok_spec) & H8).
  apply bool_decide_eq_true in H2. split; [destruct r0 as [d|]; [by exists d|discriminate H1]|].
  split; [exact H2|]. split; [exact H3|]. split; [exact H4|]. split; [exact H5|]. split; [exact H6|]. split; [exact H7|]. by apply lost_spec.
Qed.
Print Assumptions C103_deleted_refuted.
