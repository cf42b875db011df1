(** Properties of a whole sync of a state without clashes (Merge.v): C36 (both
    sides are merged), C37 (excluded entries), C38 (a second sync), C39 (a sync
    that is cut off). *)
From Coq Require Import QArith Qcanon.
From Verif Require Export MergeEx.
From stdpp Require Import options.

(** ** A state without clashes *)
(** [d/a] is kept locally and [b] is a link; [m] was edited here, [rm] on the
    other side; [nd/f] is new here, [n2] on the other side; [del] and [del2]
    were deleted here, [gl] on the other side; [x] is excluded and [u] is a link
    that cannot be copied. *)
Definition ldbN : lmap := list_to_map
  [(e "d", LData true 1%Qc true); known true (e "d" ++ e "a"); known false (e "b"); known true (e "m"); known false (e "rm");
   known false (e "del"); known true (e "del2"); known true (e "gl")].
Definition rdbN : rmap := list_to_map
  ((e "d", RData true 9) :: map (λ p, (p, RData false 9)) [e "d" ++ e "a"; e "b"; e "m"; e "rm"; e "del"; e "del2"])%Z.
Definition listN : list (path * node) := (
  [(pL, Dir 1); (pR, Dir 1)]
  ++ map (λ qn, (pL ++ qn.1, qn.2))
  [(e "d", Dir 4); (e "d" ++ e "a", File (lit "a") 5); (e "b", Link (lit "/r/b") 6); (e "nd", Dir 15); (e "nd" ++ e "f", File (lit "new") 15);
   (e "x", File (lit "x") 15); (e "u", Link (lit "/etc") 3); (e "m", File (lit "m2") 15);
   (e "rm", Link (lit "/r/rm") 6); (e "gl", File (lit "gl") 5)]
  ++ map (λ qn, (pR ++ qn.1, qn.2))
  [(zielen_dir, Dir 1); (zielen_dir ++ e "exclude", Dir 1); (zielen_dir ++ e "Trash", Dir 1);
   (zielen_dir ++ e "Trash" ++ e "old", File (lit "old") 11);
   (e "d", Dir 4); (e "d" ++ e "a", File (lit "a") 5); (e "b", File (lit "bb") 5); (e "m", File (lit "m") 5);
   (e "rm", File (lit "rm2") 16); (e "n2", File (lit "n2") 14); (e "del", File (lit "del") 5); (e "del2", File (lit "del2") 5)])%Z.
Definition fsN : fs := list_to_map listN.
Definition exN : world := world_of fsN ldbN rdbN.
Definition XN : pset := {[ e "x" ]}.

Lemma exN_clean : clean exC (w_fs exN) (w_ldb exN) (w_rdb exN) 10 XN.
Proof. apply clean_checked. decided. Qed.
Lemma exN_X : c_glob exC (c_patterns exC) (with_excl exC (c_patterns exC) (w_fs exN)) (c_L exC) = XN.
Proof. decided. Qed.
Lemma exN_idle : idle exC exN.
Proof. apply idle_of. mounted_now. Qed.

(** The paths that the exclude patterns match when the sync starts. *)
Definition excluded_now (C : conf) (m : fs) : pset := c_glob C (c_patterns C) (with_excl C (c_patterns C) m) (c_L C).
(** The order in which python goes through a set or sqlite through a table may
    be any. *)
Definition any_order (C : conf) : Prop := (∀ l, c_iter C l ≡ₚ l) ∧ (∀ l, c_rows C l ≡ₚ l).

Lemma idle_sync C w last_sync :
  any_order C → idle C w → w_last w = Some last_sync → clean C (w_fs w) (w_ldb w) (w_rdb w) last_sync (excluded_now C (w_fs w)) →
  wp (sync_main C (ret tt)) (safe C w last_sync (excluded_now C (w_fs w)) w)
    (λ r w', r = Ok tt ∧ outcome C (w_fs w) (w_ldb w) last_sync (excluded_now C (w_fs w)) (w_fs w')
      ∧ trash_holds C (w_fs w) (w_ldb w) (w_fs w') ∧ recorded C w last_sync (excluded_now C (w_fs w)) w'
      ∧ settled C w last_sync (excluded_now C (w_fs w)) (lrow C w (excluded_now C (w_fs w))) (w_fs w') (w_ldb w')) w.
Proof.
  intros [Hi Hr] [_ Hb] Hl Hc. apply sync_wp; try done; rewrite <- Hb; done.
Qed.

(** ** C36: the two sides are merged *)
(** Missing: states with clashes (C28, C42, C60), with relative links that are
    copied as links, and the two below. *)
Theorem C36_merge_partial C w last_sync :
  any_order C → idle C w → w_last w = Some last_sync →
  let X := excluded_now C (w_fs w) in
  clean C (w_fs w) (w_ldb w) (w_rdb w) last_sync X →
  let merged := merged C (w_fs w) (w_ldb w) last_sync X in
  let '(_, w', r) := sync_main C (ret tt) w in
  r = Ok tt
  ∧ (∀ p, like (r_at C (w_fs w') p) (merged p))
  ∧ (∀ p, shows C (w_fs w) (w_ldb w) last_sync X p (l_at C (w_fs w') p))
  ∧ (∀ p, ld_dir <$> w_ldb w' !! p = is_Dir <$> merged p)
  ∧ (∀ p, rd_dir <$> w_rdb w' !! p = is_Dir <$> merged p)
  ∧ (∀ p d, w_rdb w' !! p = Some d →
      let uploaded := new_l C (w_fs w) (w_ldb w) X p ∨ edited_l C (w_fs w) (w_ldb w) last_sync p in
      (uploaded → rd_last d = c_now C) ∧ (¬ uploaded → rd_last d = default (c_now C) (rd_last <$> w_rdb w !! p)))
  ∧ w_last w' = Some (c_end C)
  ∧ trash_holds C (w_fs w) (w_ldb w) (w_fs w')
  ∧ w_fs w' !! exclude_file C = Some (File (c_patterns C) (c_now C))
  ∧ (∀ k, util_dir C `prefix_of` k → ¬ trash_dir C `prefix_of` k → k ≠ exclude_file C → w_fs w' !! k = w_fs w !! k)
  ∧ (∀ k, ¬ below k (c_L C) → ¬ below k (c_R C) → w_fs w' !! k = w_fs w !! k).
Proof.
  intros Ho Hi Hl X Hc M. destruct (idle_sync C w last_sync Ho Hi Hl Hc) as [_ Hw].
  destruct (sync_main C (ret tt) w) as [[tr w'] r]. cbn [fst snd] in Hw. destruct Hw as (-> & Hoc & Hth & Hre & Hse).
  split; [done|]. split; [apply (oc_remote _ _ _ _ _ _ Hoc)|]. split; [apply (oc_local _ _ _ _ _ _ Hoc)|].
  split; [apply (re_ldb _ _ _ _ _ Hre)|]. split; [apply (re_rdb _ _ _ _ _ Hre)|].
  split. { intros p d Hd. destruct (re_since _ _ _ _ _ Hre p d Hd) as [[Hu E]|[Hu E]]; [done|]. split; [done|]. intros _. rewrite E. unfold stamp. by destruct (w_rdb w !! p). }
  split; [apply (re_last _ _ _ _ _ Hre)|]. split; [done|].
  split. { rewrite (oc_rest _ _ _ _ _ _ Hoc); [by rewrite decide_True|unfold exclude_file, exclude_dir; rewrite <-app_assoc; by eexists|].
    intros [s E]. unfold exclude_file, exclude_dir, trash_dir in E. rewrite <-!app_assoc in E. apply app_inv_head in E. by injection E. }
  split. { intros k Hk Ht Hn. rewrite (oc_rest _ _ _ _ _ _ Hoc) by done. by rewrite decide_False. }
  apply (oc_out _ _ _ _ _ _ Hoc).
Qed.
Print Assumptions C36_merge_partial.
Example C36_merge_example :
  any_order exC ∧ idle exC exN ∧ w_last exN = Some 10%Z ∧ excluded_now exC (w_fs exN) = XN
  ∧ clean exC (w_fs exN) (w_ldb exN) (w_rdb exN) 10 XN
  ∧ Forall (λ pn, merged exC (w_fs exN) (w_ldb exN) 10 XN pn.1 = pn.2)
    [(e "d", Some (Dir 4)); (e "m", Some (File (lit "m2") 15)); (e "rm", Some (File (lit "rm2") 16)); (e "nd", Some (Dir 15));
     (e "nd" ++ e "f", Some (File (lit "new") 15)); (e "n2", Some (File (lit "n2") 14)); (e "del", None); (e "del2", None);
     (e "gl", None); (e "x", None); (e "u", None)]%Z
  ∧ trashed exC (w_fs exN) (w_ldb exN) (e "del") ∧ overdue exC (File (lit "old") 11)
  ∧ w_fs exN !! (trash_dir exC ++ e "old") = Some (File (lit "old") 11)
  ∧ new_l exC (w_fs exN) (w_ldb exN) XN (e "nd" ++ e "f") ∧ is_Some (w_rdb exN !! e "b")
  ∧ ¬ (new_l exC (w_fs exN) (w_ldb exN) XN (e "b") ∨ edited_l exC (w_fs exN) (w_ldb exN) 10 (e "b")).
Proof.
  split; [done|]. split; [apply exN_idle|]. split; [done|]. split; [apply exN_X|]. split; [apply exN_clean|]. decided.
Qed.

(** The first file of an empty profile: with "InflatePriority" (the default) the
    sync fails, and so does every later one. *)
Definition fsE : fs := list_to_map
  [(pL, Dir 1); (pR, Dir 1); (pR ++ zielen_dir, Dir 1); (pR ++ zielen_dir ++ e "exclude", Dir 1); (pR ++ zielen_dir ++ e "Trash", Dir 1);
   (pL ++ e "f", File (lit "first") 15)]%Z.
Definition exE : world := world_of fsE ∅ ∅.
Theorem C36_first_file_refuted :
  ∃ C w, any_order C ∧ idle C w ∧ w_ldb w = ∅ ∧ w_rdb w = ∅
    ∧ (∀ p n, l_at C (w_fs w) p = Some n → ∃ c t, p = e "f" ∧ n = File c t) ∧ (∀ p, r_at C (w_fs w) p = None)
    ∧ let '(_, w', r) := sync_main C (ret tt) w in
      r = Err IntegrityErr ∧ (∀ p, r_at C (w_fs w') p = None)
      ∧ let '(_, w'', r') := sync_main C (ret tt) (reboot w') in r' = Err IntegrityErr.
Proof.
  assert (∀ m p, r_at exC m p = None ∨ p ∈ paths exC m ∅ ∅ ∅) as Hr.
  { intros m p. destruct (r_at exC m p) eqn:E; [right|by left]. apply r_paths. by eexists. }
  exists exC, exE. split; [done|]. split; [apply idle_of; mounted_now|]. split; [done|]. split; [done|]. split; [|split].
  - intros p n Hn. assert (p ∈ paths exC fsE ∅ ∅ ∅) as Hp by (apply l_paths; by eexists).
    assert (paths exC fsE ∅ ∅ ∅ ⊆ [[]; e "f"]) as Hs by decided. apply Hs in Hp.
    apply elem_of_cons in Hp as [->|Hp]; [done|]. apply elem_of_list_singleton in Hp as ->.
    injection Hn as <-. eauto.
  - intros p. destruct (Hr fsE p) as [?|Hp]; [done|].
    assert (Forall (λ p, r_at exC fsE p = None) (paths exC fsE ∅ ∅ ∅)) as Hs by decided. rewrite Forall_forall in Hs. by apply Hs.
  - assert (let x := sync_main exC (ret tt) exE in
      is_err IntegrityErr x.2 && bool_decide (Forall (λ p, r_at exC (w_fs x.1.2) p = None) (paths exC (w_fs x.1.2) ∅ ∅ ∅))
      && is_err IntegrityErr (sync_main exC (ret tt) (reboot x.1.2)).2 = true) as Hx by (vm_compute; done).
    cbv zeta in Hx. destruct (sync_main exC (ret tt) exE) as [[tr w'] r]. cbn [fst snd] in Hx.
    apply andb_true_iff in Hx as [Hx H3]. apply andb_true_iff in Hx as [H1 H2]. apply bool_decide_eq_true in H2.
    split; [by apply is_err_spec|]. split.
    + intros p. destruct (Hr (w_fs w') p) as [?|Hp]; [done|]. rewrite Forall_forall in H2. by apply H2.
    + destruct (sync_main exC (ret tt) (reboot w')) as [[tr'' w''] r'']. by apply is_err_spec.
Qed.
Print Assumptions C36_first_file_refuted.

(** ** C37: excluded entries and links that cannot be copied *)
(** Missing: such entries in a directory that is new here or has been deleted on
    the other side (refuted below), and excluded paths that are in use. *)
Theorem C37_stray_partial C w last_sync :
  any_order C → idle C w → w_last w = Some last_sync →
  let X := excluded_now C (w_fs w) in
  clean C (w_fs w) (w_ldb w) (w_rdb w) last_sync X →
  ∀ p, is_Some (l_at C (w_fs w) p) → w_ldb w !! p = None → p ∈ X ∨ ¬ safe_entry (w_fs w) (c_L C) p →
  let '(tr, w', r) := sync_main C (ret tt) w in
  (∀ w1, w1 ∈ tr → w_fs w1 !! (c_L C ++ p) = w_fs w !! (c_L C ++ p))
  ∧ w_fs w' !! (c_L C ++ p) = w_fs w !! (c_L C ++ p) ∧ w_fs w' !! (c_R C ++ p) = None.
Proof.
  intros Ho Hi Hl X Hc p Hp Hk Hx. destruct (idle_sync C w last_sync Ho Hi Hl Hc) as [Htr Hw].
  destruct (sync_main C (ret tt) w) as [[tr w'] r]. cbn [fst snd] in Hw, Htr. destruct Hw as (-> & Hoc & Hth & Hre & Hse).
  assert (stray C (w_fs w) (w_ldb w) X p) as Hs. { split; [done|]. split; [|done]. unfold Merge.known. rewrite Hk. by intros [? ?]. }
  assert (p ≠ []) as Hp0. { destruct Hp as [n Hn]. by apply l_at_some in Hn as [? _]. }
  assert (¬ zielen_dir `prefix_of` p) as Hz.
  { intros Hz. apply (cl_no_util _ _ _ _ _ _ Hc) in Hz. rewrite Hz in Hp. by destruct Hp. }
  fold X in Hoc. pose proof (merged_not_stray _ _ _ _ _ _ Hc p Hs) as Hm. split; [|split].
  - intros w1 Hw1. rewrite Forall_forall in Htr. destruct (Htr w1 Hw1) as [Hin _]. rewrite (it_stray _ _ _ _ _ Hin p Hs). by rewrite l_at_ne.
  - pose proof (oc_local _ _ _ _ _ _ Hoc p) as E. unfold shows in E. rewrite Hm, decide_True in E by done. by rewrite !l_at_ne in E.
  - pose proof (oc_remote _ _ _ _ _ _ Hoc p) as E. rewrite Hm in E. rewrite <- (r_at_ne _ _ p Hp0 Hz). destruct (r_at C (w_fs w') p) as [[]|]; done.
Qed.
Print Assumptions C37_stray_partial.
Example C37_stray_example :
  any_order exC ∧ idle exC exN ∧ w_last exN = Some 10%Z ∧ excluded_now exC (w_fs exN) = XN
  ∧ clean exC (w_fs exN) (w_ldb exN) (w_rdb exN) 10 XN
  ∧ (is_Some (l_at exC (w_fs exN) (e "x")) ∧ w_ldb exN !! e "x" = None ∧ e "x" ∈ XN)
  ∧ is_Some (l_at exC (w_fs exN) (e "u")) ∧ w_ldb exN !! e "u" = None ∧ ¬ safe_entry (w_fs exN) (c_L exC) (e "u").
Proof.
  split; [done|]. split; [apply exN_idle|]. split; [done|]. split; [apply exN_X|]. split; [apply exN_clean|]. decided.
Qed.

(** A profile whose only pattern is the path [p]. *)
Definition glob_at (p : path) (_ : list N) (m : fs) (s : path) : pset := if bool_decide (is_Some (m !! (s ++ p))) then {[ p ]} else ∅.
Definition with_glob (C : conf) (p : path) : conf := {|
  c_L := c_L C; c_R := c_R C; c_limit := c_limit C; c_account := c_account C; c_inflate := c_inflate C; c_trash := c_trash C;
  c_cleanup := c_cleanup C; c_id := c_id C; c_patterns := c_patterns C; c_glob := glob_at p; c_block := c_block C; c_blocks := c_blocks C;
  c_now := c_now C; c_end := c_end C; c_dt := c_dt C; c_iter := c_iter C; c_rows := c_rows C; c_tty := c_tty C |}.
Definition exX : conf := with_glob exC (e "nd" ++ e "x").
(** A new directory with an excluded file, and one with a link. *)
Definition exU : world := upd (pL ++ e "nd" ++ e "x") (File (lit "x") 15) (upd (pL ++ e "nd") (Dir 15) exM).
Definition exV : world := upd (pL ++ e "nd" ++ e "u") (Link (lit "/etc") 15) (upd (pL ++ e "nd") (Dir 15) exM).
(** The directory is known and another client has deleted it. *)
Definition exY : world := upd (pL ++ e "nd" ++ e "x") (File (lit "mine") 15) (upd (pL ++ e "nd") (Dir 15)
  (world_of fsM (<[e "nd" := LData true 1%Qc true]> ldbM) rdbM)).

(** An excluded file in a new directory is uploaded. *)
Theorem C37_upload_refuted :
  ∃ C w p c t, any_order C ∧ idle C w ∧ excluded_now C (w_fs w) = {[ p ]} ∧ w_ldb w !! p = None
    ∧ l_at C (w_fs w) p = Some (File c t) ∧ r_at C (w_fs w) p = None
    ∧ let '(_, w', r) := sync_main C (ret tt) w in r = Ok tt ∧ r_at C (w_fs w') p = Some (File c t).
Proof.
  exists exX, exU, (e "nd" ++ e "x"), (lit "x"), 15%Z. split; [done|]. split; [apply idle_of; mounted_now|].
  split; [decided|]. split; [done|]. split; [done|]. split; [done|].
  assert (let '(_, w', r) := sync_main exX (ret tt) exU in is_ok r && bool_decide (r_at exX (w_fs w') (e "nd" ++ e "x") = Some (File (lit "x") 15%Z)) = true) as Hx.
  { apply (run_witness exX (ret tt) exU (λ r w', is_ok r && bool_decide (r_at exX (w_fs w') (e "nd" ++ e "x") = Some (File (lit "x") 15%Z)))). vm_compute. reflexivity. }
  destruct (sync_main exX (ret tt) exU) as [[tr w'] r]. apply andb_true_iff in Hx as [H1 H2]. apply bool_decide_eq_true in H2.
  split; [by apply is_ok_spec|done].
Qed.
Print Assumptions C37_upload_refuted.
(** ... and so is a link that leads out of the directory. *)
Theorem C37_unsafe_upload_refuted :
  ∃ C w p t k, any_order C ∧ idle C w ∧ ¬ safe_entry (w_fs w) (c_L C) p ∧ w_ldb w !! p = None
    ∧ l_at C (w_fs w) p = Some (Link t k) ∧ r_at C (w_fs w) p = None
    ∧ let '(_, w', r) := sync_main C (ret tt) w in r = Ok tt ∧ r_at C (w_fs w') p = Some (Link t k).
Proof.
  exists exC, exV, (e "nd" ++ e "u"), (lit "/etc"), 15%Z. split; [done|]. split; [apply idle_of; mounted_now|].
  split; [decided|]. split; [done|]. split; [done|]. split; [done|].
  assert (let '(_, w', r) := sync_main exC (ret tt) exV in is_ok r && bool_decide (r_at exC (w_fs w') (e "nd" ++ e "u") = Some (Link (lit "/etc") 15%Z)) = true) as Hx.
  { apply (run_witness exC (ret tt) exV (λ r w', is_ok r && bool_decide (r_at exC (w_fs w') (e "nd" ++ e "u") = Some (Link (lit "/etc") 15%Z)))). vm_compute. reflexivity. }
  destruct (sync_main exC (ret tt) exV) as [[tr w'] r]. apply andb_true_iff in Hx as [H1 H2]. apply bool_decide_eq_true in H2.
  split; [by apply is_ok_spec|done].
Qed.
Print Assumptions C37_unsafe_upload_refuted.
(** An excluded file is destroyed when another client deletes its directory. *)
Theorem C37_deleted_refuted :
  ∃ C w p c t, any_order C ∧ idle C w ∧ excluded_now C (w_fs w) = {[ p ]} ∧ w_ldb w !! p = None
    ∧ l_at C (w_fs w) p = Some (File c t) ∧ r_at C (w_fs w) p = None
    ∧ let '(_, w', r) := sync_main C (ret tt) w in r = Ok tt ∧ destroyed c (w_fs w) (w_fs w').
Proof.
  exists exX, exY, (e "nd" ++ e "x"), (lit "mine"), 15%Z. split; [done|]. split; [apply idle_of; mounted_now|].
  split; [decided|]. split; [done|]. split; [done|]. split; [done|].
  assert (let '(_, w', r) := sync_main exX (ret tt) exY in is_ok r && lost (lit "mine") (w_fs w') = true) as Hx.
  { apply (run_witness exX (ret tt) exY (λ r w', is_ok r && lost (lit "mine") (w_fs w'))). vm_compute. reflexivity. }
  destruct (sync_main exX (ret tt) exY) as [[tr w'] r]. apply andb_true_iff in Hx as [H1 H2].
  split; [by apply is_ok_spec|]. split; [|by apply lost_spec]. by exists (pL ++ e "nd" ++ e "x"), 15%Z.
Qed.
Print Assumptions C37_deleted_refuted.

(** After an excluded file of a new directory has been uploaded, what the user
    writes to it is destroyed by the next sync. *)
Theorem C37_overwritten_refuted :
  ∃ C C' w p n, any_order C ∧ any_order C' ∧ idle C w ∧ excluded_now C (w_fs w) = {[ p ]} ∧ w_ldb w !! p = None
    ∧ r_at C (w_fs w) p = None
    ∧ let '(_, w1, r) := sync_main C (ret tt) w in
      let w2 := upd (c_L C ++ p) n (reboot w1) in
      r = Ok tt ∧ excluded_now C' (w_fs w2) = {[ p ]}
      ∧ let '(_, w3, r') := sync_main C' (ret tt) w2 in
        r' = Ok tt ∧ ∃ c t, n = File c t ∧ destroyed c (w_fs w2) (w_fs w3).
Proof.
  exists exX, (at_ exX 100000 40 41), exU, (e "nd" ++ e "x"), (File (lit "newer") 35).
  split; [done|]. split; [done|]. split; [apply idle_of; mounted_now|].
  split; [decided|]. split; [done|]. split; [done|].
  assert (let x := sync_main exX (ret tt) exU in
    let w2 := upd (pL ++ e "nd" ++ e "x") (File (lit "newer") 35) (reboot x.1.2) in
    let y := sync_main (at_ exX 100000 40 41) (ret tt) w2 in
    is_ok x.2 && bool_decide (excluded_now (at_ exX 100000 40 41) (w_fs w2) = {[ e "nd" ++ e "x" ]}) && is_ok y.2
    && bool_decide (w_fs w2 !! (pL ++ e "nd" ++ e "x") = Some (File (lit "newer") 35%Z)) && lost (lit "newer") (w_fs y.1.2) = true) as Hx by (vm_compute; done).
  cbv zeta in Hx. destruct (sync_main exX (ret tt) exU) as [[tr w1] r]. cbn [fst snd] in Hx. cbv zeta.
  change (c_L exX) with pL. set (w2 := upd _ _ _) in *. destruct (sync_main (at_ exX 100000 40 41) (ret tt) w2) as [[tr3 w3] r3]. cbn [fst snd] in Hx.
  apply andb_true_iff in Hx as [Hx H5]. apply andb_true_iff in Hx as [Hx H4]. apply andb_true_iff in Hx as [Hx H3]. apply andb_true_iff in Hx as [H1 H2].
  apply bool_decide_eq_true in H2, H4.
  split; [by apply is_ok_spec|]. split; [done|]. split; [by apply is_ok_spec|]. exists (lit "newer"), 35%Z. split; [done|]. split; [eauto|by apply lost_spec].
Qed.
Print Assumptions C37_overwritten_refuted.

(** ** C38: a second sync *)
(** Missing: states with clashes, files with modification times in the future,
    and patterns that match other paths after the first sync (refuted below). *)
Theorem C38_again_partial C C' w last_sync :
  any_order C → any_order C' → idle C w → w_last w = Some last_sync →
  let X := excluded_now C (w_fs w) in
  clean C (w_fs w) (w_ldb w) (w_rdb w) last_sync X →
  (c_now C <= c_end C)%Z →
  (∀ p c t, l_at C (w_fs w) p = Some (File c t) ∨ r_at C (w_fs w) p = Some (File c t) → (t <= c_end C)%Z) →
  (∀ p d, w_rdb w !! p = Some d → (rd_last d <= c_end C)%Z) →
  c_L C' = c_L C → c_R C' = c_R C → c_id C' = c_id C →
  let '(_, w1, r1) := sync_main C (ret tt) w in
  excluded_now C' (w_fs w1) = X →
  let '(_, w2, r2) := sync_main C' (ret tt) (reboot w1) in
  r1 = Ok tt ∧ r2 = Ok tt
  ∧ (∀ p, like (r_at C (w_fs w2) p) (r_at C (w_fs w1) p))
  ∧ (∀ p, like (view C (w_fs w2) p) (view C (w_fs w1) p))
  ∧ (∀ p, ld_dir <$> w_ldb w2 !! p = ld_dir <$> w_ldb w1 !! p) ∧ (∀ p, rd_dir <$> w_rdb w2 !! p = rd_dir <$> w_rdb w1 !! p).
Proof.
  intros Ho Ho' Hi Hl X Hc Hnow Hmt Hrt EL ER Eid. pose proof (idle_sync C w last_sync Ho Hi Hl Hc) as [_ Hw].
  destruct (sync_main C (ret tt) w) as [[tr w1] r1]. cbn [fst snd] in Hw. destruct Hw as (-> & Hoc & Hth & Hre & Hse). fold X in Hoc, Hre. intros EX.
  destruct Ho as [Hit Hrows], Hi as [Hmo Hb].
  assert (v_ldb w = w_ldb w) as Hvl by by rewrite <- Hb. assert (v_rdb w = w_rdb w) as Hvr by by rewrite <- Hb.
  assert (FMProofs.fresh w) as Hfresh by by rewrite <- Hb.
  assert (∀ p c t, merged C (w_fs w) (w_ldb w) last_sync X p = Some (File c t) → (t <= c_end C)%Z) as Hmt'.
  { intros p c t Hm. apply (Hmt p c t). destruct (merged_inv _ _ _ _ _ _ Hc p _ Hm) as [(_ & _ & ?)|[(_ & _ & ?)|(_ & _ & ?)]]; auto. }
  pose proof (clean_again C w last_sync X Hc Hit Hrows Hvl Hvr Hfresh Hl w1 Hoc Hre Hnow Hmt' Hrt) as Hc1.
  assert (clean C' (w_fs w1) (w_ldb w1) (w_rdb w1) (c_end C) (excluded_now C' (w_fs w1))) as Hc2.
  { rewrite EX. apply (clean_conf C C'); [done..| | |done]; intros p.
    - by apply (new_again C w last_sync X Hc Hit Hrows Hvl Hvr Hfresh Hl w1 Hoc Hre Hnow Hmt' Hrt).
    - by apply (gone_l_again C w last_sync X Hc Hit Hrows Hvl Hvr Hfresh Hl w1 Hoc Hre Hnow Hmt' Hrt). }
  assert (idle C' (reboot w1)) as Hi1. { split; [|done]. apply Hc2. }
  destruct (idle_sync C' (reboot w1) (c_end C) Ho' Hi1 (re_last _ _ _ _ _ Hre) Hc2) as [_ Hw2].
  destruct (sync_main C' (ret tt) (reboot w1)) as [[tr2 w2] r2]. cbn [fst snd] in Hw2. destruct Hw2 as (-> & Hoc2 & _ & Hre2 & _).
  pose proof (merged_again C w last_sync X Hc Hit Hrows Hvl Hvr Hfresh Hl w1 Hoc Hre Hnow Hmt' Hrt) as HM. pose proof (stray_again C w last_sync X Hc Hit Hrows Hvl Hvr Hfresh Hl w1 Hoc Hre Hnow Hmt' Hrt) as HS.
  change (w_fs (reboot w1)) with (w_fs w1) in *. change (w_ldb (reboot w1)) with (w_ldb w1) in *. rewrite EX in Hoc2, Hre2, Hc2.
  pose proof (view_outcome _ _ _ _ _ _ _ Hc Hoc) as HV1. pose proof (view_outcome _ _ _ _ _ _ _ Hc2 Hoc2) as HV2.
  destruct (conf_same C C' EL ER) as (Er & Ev & Es & Em).
  split; [done|]. split; [done|]. split; [|split; [|split]].
  - intros p. pose proof (oc_remote _ _ _ _ _ _ Hoc2 p) as H2. rewrite Em, Er in H2. eapply like_trans; [exact H2|].
    eapply like_trans; [apply HM|]. apply like_sym, (oc_remote _ _ _ _ _ _ Hoc).
  - intros p. specialize (HV1 p). specialize (HV2 p). rewrite Em, !Ev in HV2. destruct (decide (stray C' _ _ X p)) as [Hs|Hs].
    + done.
    + rewrite Es, HS in Hs. rewrite decide_False in HV1 by done. eapply like_trans; [exact HV2|].
      eapply like_trans; [apply HM|]. by apply like_sym.
  - intros p. rewrite (re_ldb _ _ _ _ _ Hre p), (re_ldb _ _ _ _ _ Hre2 p). cbn [reboot w_fs w_ldb]. rewrite Em. symmetry; apply like_kind, HM.
  - intros p. rewrite (re_rdb _ _ _ _ _ Hre p), (re_rdb _ _ _ _ _ Hre2 p). cbn [reboot w_fs w_ldb]. rewrite Em. symmetry; apply like_kind, HM.
Qed.
Print Assumptions C38_again_partial.
Example C38_again_example :
  any_order exC ∧ any_order (at_ exC 8 40 41) ∧ idle exC exN ∧ w_last exN = Some 10%Z ∧ excluded_now exC (w_fs exN) = XN
  ∧ clean exC (w_fs exN) (w_ldb exN) (w_rdb exN) 10 XN
  ∧ (c_now exC <= c_end exC)%Z
  ∧ (∀ p c t, l_at exC (w_fs exN) p = Some (File c t) ∨ r_at exC (w_fs exN) p = Some (File c t) → (t <= c_end exC)%Z)
  ∧ (∀ p d, w_rdb exN !! p = Some d → (rd_last d <= c_end exC)%Z)
  ∧ let '(_, w1, _) := sync_main exC (ret tt) exN in excluded_now (at_ exC 8 40 41) (w_fs w1) = XN.
Proof.
  split; [done|]. split; [done|]. split; [apply exN_idle|]. split; [done|]. split; [apply exN_X|]. split; [apply exN_clean|]. split; [done|].
  split; [|split].
  - assert (Forall (λ kn, ((λ n, match n with File _ t => t | Link _ t => t | Dir t => t end) kn.2 <= 21)%Z) listN) as Hf by decided.
    rewrite Forall_forall in Hf. intros p c t Hn. assert (∃ k, fsN !! k = Some (File c t)) as [k Hk].
    { unfold l_at, r_at in Hn. destruct Hn as [Hn|Hn]; case_decide; [discriminate Hn|by eexists|discriminate Hn|by eexists]. }
    apply elem_of_list_to_map_2 in Hk. exact (Hf _ Hk).
  - intros p d Hd. assert (Forall (λ pd : path * rdata, (rd_last pd.2 <= 21)%Z) (map_to_list rdbN)) as Hf by decided. rewrite Forall_forall in Hf.
    apply (Hf (p, d)). by apply elem_of_map_to_list.
  - assert (let x := sync_main exC (ret tt) exN in bool_decide (excluded_now (at_ exC 8 40 41) (w_fs x.1.2) = XN) = true) as Hx by (vm_compute; reflexivity).
    cbv zeta in Hx. destruct (sync_main exC (ret tt) exN) as [[tr w1] r]. by apply bool_decide_eq_true in Hx.
Qed.

(** A file that appears in the remote directory under an excluded name: the
    first sync brings it to the local directory, the second one removes it from
    the remote directory. *)
Definition exQ : world := upd (pR ++ e "x") (File (lit "theirs") 15) exM.
Theorem C38_removed_refuted :
  ∃ C C' w p c t, any_order C ∧ any_order C' ∧ idle C w ∧ r_at C (w_fs w) p = Some (File c t)
    ∧ let '(_, w1, r1) := sync_main C (ret tt) w in
      let '(_, w2, r2) := sync_main C' (ret tt) (reboot w1) in
      r1 = Ok tt ∧ r2 = Ok tt ∧ r_at C (w_fs w1) p = Some (File c t) ∧ r_at C' (w_fs w2) p = None.
Proof.
  exists exC, (at_ exC 100000 40 41), exQ, (e "x"), (lit "theirs"), 15%Z. split; [done|]. split; [done|].
  split; [apply idle_of; mounted_now|]. split; [done|].
  assert (let x := sync_main exC (ret tt) exQ in let y := sync_main (at_ exC 100000 40 41) (ret tt) (reboot x.1.2) in
    is_ok x.2 && is_ok y.2 && bool_decide (r_at exC (w_fs x.1.2) (e "x") = Some (File (lit "theirs") 15%Z))
    && bool_decide (r_at (at_ exC 100000 40 41) (w_fs y.1.2) (e "x") = None) = true) as Hx by (vm_compute; reflexivity).
  cbv zeta in Hx. destruct (sync_main exC (ret tt) exQ) as [[tr w1] r1]. cbn [fst snd] in Hx.
  destruct (sync_main (at_ exC 100000 40 41) (ret tt) (reboot w1)) as [[tr2 w2] r2]. cbn [fst snd] in Hx.
  apply andb_true_iff in Hx as [Hx H4]. apply andb_true_iff in Hx as [Hx H3]. apply andb_true_iff in Hx as [H1 H2].
  apply bool_decide_eq_true in H3, H4. split; [by apply is_ok_spec|]. split; [by apply is_ok_spec|]. done.
Qed.
Print Assumptions C38_removed_refuted.

(** ** C39: a sync that is cut off *)
(** Whatever is on disk when a sync of a clean state is cut off: each file of the
    merge is in one of the two directories, untouched; each file that goes to the
    trash is in its old place or there; the entries that are none
    of the program's business and everything outside the two directories are as
    before; and the databases are as before unless everything is done.
    Missing: states with clashes, and what the next sync makes of it (refuted in
    Prop_Sync.v). *)
Theorem C39_intact_partial C w last_sync :
  any_order C → idle C w → w_last w = Some last_sync →
  let X := excluded_now C (w_fs w) in
  clean C (w_fs w) (w_ldb w) (w_rdb w) last_sync X →
  let '(tr, _, _) := sync_main C (ret tt) w in
  ∀ w1, w1 ∈ tr →
    (∀ p c t, merged C (w_fs w) (w_ldb w) last_sync X p = Some (File c t) →
      w_fs w1 !! (c_R C ++ p) = Some (File c t) ∨ w_fs w1 !! (c_L C ++ p) = Some (File c t))
    ∧ (∀ p, stray C (w_fs w) (w_ldb w) X p → w_fs w1 !! (c_L C ++ p) = w_fs w !! (c_L C ++ p))
    ∧ ((∀ d, c_cleanup C = Some d → (0 <= d)%Z) → ∀ p x s c t,
        trashed C (w_fs w) (w_ldb w) p → last p = Some x → r_at C (w_fs w) (p ++ s) = Some (File c t) →
        w_fs w1 !! (c_R C ++ p ++ s) = Some (File c t) ∨ ∃ t', w_fs w1 !! (trash_dir C ++ x :: s) = Some (File c t'))
    ∧ (∀ k, ¬ below k (c_L C) → ¬ below k (c_R C) → w_fs w1 !! k = w_fs w !! k)
    ∧ ((w_ldb w1 = w_ldb w ∧ w_rdb w1 = w_rdb w ∧ w_last w1 = w_last w)
       ∨ ((∀ p, like (r_at C (w_fs w1) p) (merged C (w_fs w) (w_ldb w) last_sync X p))
          ∧ ∀ p, shows C (w_fs w) (w_ldb w) last_sync X p (l_at C (w_fs w1) p))).
Proof.
  intros Ho Hi Hl X Hc. destruct (idle_sync C w last_sync Ho Hi Hl Hc) as [Htr _].
  destruct (sync_main C (ret tt) w) as [[tr w'] r]. cbn [fst snd] in Htr. intros w1 Hw1. rewrite Forall_forall in Htr.
  destruct (Htr w1 Hw1) as [Hin Hst]. fold X in Hin, Hst. split; [|split; [|split; [|split]]].
  - apply (it_kept _ _ _ _ _ Hin).
  - intros p Hs. rewrite (it_stray _ _ _ _ _ Hin p Hs). rewrite l_at_ne; [done|]. destruct Hs as [[n Hn] _]. by apply l_at_some in Hn as [? _].
  - apply (it_trash _ _ _ _ _ Hin).
  - apply (it_out _ _ _ _ _ Hin).
  - destruct Hst as [?|Hoc]; [by left|right]. split; [apply (oc_remote _ _ _ _ _ _ Hoc)|apply (oc_local _ _ _ _ _ _ Hoc)].
Qed.
Print Assumptions C39_intact_partial.
Example C39_intact_example :
  any_order exC ∧ idle exC exN ∧ w_last exN = Some 10%Z ∧ excluded_now exC (w_fs exN) = XN
  ∧ clean exC (w_fs exN) (w_ldb exN) (w_rdb exN) 10 XN
  ∧ merged exC (w_fs exN) (w_ldb exN) 10 XN (e "m") = Some (File (lit "m2") 15) ∧ stray exC (w_fs exN) (w_ldb exN) XN (e "x")
  ∧ (∀ d, c_cleanup exC = Some d → (0 <= d)%Z) ∧ trashed exC (w_fs exN) (w_ldb exN) (e "del") ∧ r_at exC (w_fs exN) (e "del" ++ []) = Some (File (lit "del") 5)
  ∧ 20 ≤ length (sync_main exC (ret tt) exN).1.1.
Proof.
  split; [done|]. split; [apply exN_idle|]. split; [done|]. split; [apply exN_X|]. split; [apply exN_clean|]. decided.
Qed.
