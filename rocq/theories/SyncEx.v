(** Worlds and helpers for the statements about whole syncs. *)
From Coq Require Import QArith Qcanon.
From Verif Require Export ExWorld FSDec.
From stdpp Require Import options.

(** No file has the content. *)
Definition lost (c : list N) (m : fs) : bool :=
  forallb (λ kn, match kn.2 with File c' _ => negb (bool_decide (c' = c)) | _ => true end) (map_to_list m).
Lemma lost_spec c m : lost c m = true → ∀ k t, m !! k ≠ Some (File c t).
Proof.
  intros H k t Hk. apply elem_of_map_to_list, elem_of_list_In in Hk. unfold lost in H. rewrite forallb_forall in H.
  apply H in Hk. simpl in Hk. by rewrite bool_decide_true in Hk.
Qed.
Definition is_ok {A} (r : res A) : bool := match r with Ok _ => true | Err _ => false end.
Lemma is_ok_spec (r : res unit) : is_ok r = true → r = Ok tt.
Proof. by destruct r as [[]|]. Qed.
Definition is_err {A} (x : exn) (r : res A) : bool := match r with Ok _ => false | Err y => bool_decide (x = y) end.
Lemma is_err_spec {A} x (r : res A) : is_err x r = true → r = Err x.
Proof. destruct r as [|y]; [done|]. simpl. intros H%bool_decide_eq_true. by subst. Qed.

Definition node_is (m : fs) (k : path) (o : option node) : bool := bool_decide (m !! k = o).
Lemma node_is_spec m k o : node_is m k o = true → m !! k = o.
Proof. apply bool_decide_eq_true. Qed.

(** The same profile with another storage limit, at another time. *)
Definition at_ (C : conf) (limit now fin : Z) : conf := {|
  c_L := c_L C; c_R := c_R C; c_limit := limit; c_account := c_account C; c_inflate := c_inflate C; c_trash := c_trash C;
  c_cleanup := c_cleanup C; c_id := c_id C; c_patterns := c_patterns C; c_glob := c_glob C; c_block := c_block C; c_blocks := c_blocks C;
  c_now := now; c_end := fin; c_dt := c_dt C; c_iter := c_iter C; c_rows := c_rows C; c_tty := c_tty C |}.
(** The user writes or deletes a file between two commands. *)
Definition upd (p : path) (n : node) (w : world) : world := set_fs (<[p := n]> (w_fs w)) w.
Definition del (p : path) (w : world) : world := set_fs (delete p (w_fs w)) w.

(** A small profile in a clean state: [a] is kept locally, [b] is a link. *)
Definition fsM : fs := list_to_map (
  [(pL, Dir 1); (pR, Dir 1)]
  ++ map (λ qn, (pL ++ qn.1, qn.2)) [(e "a", File (lit "aa") 5); (e "b", Link (lit "/r/b") 6)]
  ++ map (λ qn, (pR ++ qn.1, qn.2))
  [(zielen_dir, Dir 1); (zielen_dir ++ e "exclude", Dir 1); (zielen_dir ++ e "Trash", Dir 1); (e "a", File (lit "aa") 5); (e "b", File (lit "bb") 5)])%Z.
Definition ldbM : lmap := list_to_map [known true (e "a"); known false (e "b")].
Definition rdbM : rmap := list_to_map (map (λ p, (p, RData false 9)) [e "a"; e "b"])%Z.
Definition world_of (f : fs) (l : lmap) (r : rmap) : world := World f l r (Some 10%Z) l r ∅ ∅ None.
Definition exM : world := world_of fsM ldbM rdbM.

(** A profile between two commands, with its remote directory mounted. *)
Record idle (C : conf) (w : world) : Prop := {
  id_mounted : mounted C (w_fs w);
  id_boot : reboot w = w
}.
Lemma idle_of C f l r : mounted C f → idle C (world_of f l r).
Proof. intros H. by split. Qed.
Ltac decided := apply (bool_decide_unpack _); vm_compute; exact I.
Ltac mounted_now := split; [decided|decided|decided|discriminate].

(** A crash of one sync at its [n]th state, then a change by the user, then
    another sync. *)
Lemma crash_witness C C' (u : M fs unit) w (k : world → world) n (P : world → res unit → world → bool) :
  match (sync_main C u w).1.1 !! n with
  | Some w1 => let x := sync_main C' (ret tt) (k (reboot w1)) in P w1 x.2 x.1.2
  | None => false
  end = true →
  ∃ w1, w1 ∈ (sync_main C u w).1.1 ∧ let '(_, w', r) := sync_main C' (ret tt) (k (reboot w1)) in P w1 r w' = true.
Proof.
  intros H. destruct ((sync_main C u w).1.1 !! n) as [w1|] eqn:E; [|discriminate H]. exists w1.
  split; [by eapply elem_of_list_lookup_2|]. cbv zeta in H.
  destruct (sync_main C' (ret tt) (k (reboot w1))) as [[tr w'] r]. exact H.
Qed.
Lemma run_witness C (u : M fs unit) w (P : res unit → world → bool) :
  (let x := sync_main C u w in P x.2 x.1.2) = true → let '(_, w', r) := sync_main C u w in P r w' = true.
Proof. cbv zeta. by destruct (sync_main C u w) as [[tr w'] r]. Qed.
Definition destroyed (c : list N) (m m' : fs) : Prop :=
  (∃ k t, m !! k = Some (File c t)) ∧ ∀ k t, m' !! k ≠ Some (File c t).

(** Two clients: [exC] with the files in /h and this one with those in /i. *)
Definition pI : path := e "i".
Definition exC2 : conf := {|
  c_L := pI; c_R := pR; c_limit := 100000; c_account := true; c_inflate := true; c_trash := true;
  c_cleanup := None; c_id := lit "you"; c_patterns := lit "x"; c_glob := ex_glob;
  c_block := 4096; c_blocks := c_blocks exC;
  c_now := 40; c_end := 41; c_dt := ex_dt; c_iter := id; c_rows := id; c_tty := false |}.
(** The other client's state of the same files and remote database. *)
Definition other (w : world) (l : lmap) : world := world_of (w_fs w) l (w_rdb w).
