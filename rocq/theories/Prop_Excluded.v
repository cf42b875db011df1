(** C80: files that are in use and then are excluded (manual, "EXCLUDING";
    commands/sync.py 114-131). *)
From Coq Require Import QArith Qcanon.
From Verif Require Export Prop_Local.
From stdpp Require Import options.

Lemma idle_sync_x C w last_sync :
  any_order C → idle C w → w_last w = Some last_sync → clean_x C (w_fs w) (w_ldb w) (w_rdb w) last_sync (excluded_now C (w_fs w)) →
  wp (sync_main C (ret tt)) (safe_x C w last_sync (excluded_now C (w_fs w)) w)
    (done_x C w last_sync (excluded_now C (w_fs w)) (lrow C w (excluded_now C (w_fs w)))) w.
Proof.
  intros [Hi Hr] [_ Hb] Hl Hc. apply sync_wp_x; try done; rewrite <- Hb; done.
Qed.

(** ** A sync of one client *)
(** The files of the merge at or below an excluded path that was in use are
    copied to the local directory; what the patterns of all clients match leaves
    the remote directory and both databases, and everything else is merged as ever.
    At any instant each file of the merge is in one of the directories.
    [m1] is the state in which the patterns are compared.
    Missing: states with clashes; what the other clients' syncs do later
    (refuted below). *)
Theorem C80_sync_partial C w last_sync :
  any_order C → idle C w → w_last w = Some last_sync →
  let X := excluded_now C (w_fs w) in
  clean_x C (w_fs w) (w_ldb w) (w_rdb w) last_sync X →
  let merged := merged C (w_fs w) (w_ldb w) last_sync X in
  let '(tr, w', r) := sync_main C (ret tt) w in
  r = Ok tt
  ∧ (∀ w1 p c t, w1 ∈ tr → merged p = Some (File c t) →
      w_fs w1 !! (c_R C ++ p) = Some (File c t) ∨ w_fs w1 !! (c_L C ++ p) = Some (File c t))
  ∧ (∀ p, shows C (w_fs w) (w_ldb w) last_sync X p (l_at C (w_fs w') p))
  ∧ (∀ p q c t, q ∈ X → is_Some (w_ldb w !! q) → q `prefix_of` p → merged p = Some (File c t) → l_at C (w_fs w') p = Some (File c t))
  ∧ (∃ m1, (∀ k, ¬ below k (c_R C) ∨ exclude_dir C `prefix_of` k → m1 !! k = w_fs w' !! k)
      ∧ let leaves p := ∃ q, q ∈ X ∧ is_Some (w_ldb w !! q) ∧ agreed C m1 q ∧ q `prefix_of` p in
        (∀ p, leaves p → r_at C (w_fs w') p = None ∧ w_ldb w' !! p = None ∧ w_rdb w' !! p = None)
        ∧ (∀ p, ¬ leaves p → like (r_at C (w_fs w') p) (merged p)
            ∧ ld_dir <$> w_ldb w' !! p = is_Dir <$> merged p ∧ rd_dir <$> w_rdb w' !! p = is_Dir <$> merged p))
  ∧ w_fs w' !! exclude_file C = Some (File (c_patterns C) (c_now C))
  ∧ (∀ x, x ≠ c_id C → w_fs w' !! (exclude_dir C ++ [x]) = w_fs w !! (exclude_dir C ++ [x]))
  ∧ (∀ k, ¬ below k (c_L C) → ¬ below k (c_R C) → w_fs w' !! k = w_fs w !! k)
  ∧ trash_holds C (w_fs w) (w_ldb w) (w_fs w') ∧ w_last w' = Some (c_end C).
Proof.
  intros Ho Hi Hl X Hc M. destruct (idle_sync_x C w last_sync Ho Hi Hl Hc) as [Htr Hw].
  destruct (sync_main C (ret tt) w) as [[tr w'] r]. cbn [fst snd] in Hw, Htr. destruct Hw as (-> & m1 & Hp & Hth & Hre & Hse). fold X in Hp, Hre, Hse, Htr.
  pose proof (pa_merge _ _ _ _ _ _ _ Hp) as Hoc. pose proof (cl_apart _ _ _ _ _ _ Hc) as Hap.
  assert (∀ p, let_go C (w_ldb w) X m1 p → p ≠ [] ∧ ¬ zielen_dir `prefix_of` p) as Hgo.
  { intros p Hg. pose proof (let_go_aside C w X m1 p Hg) as Ha. destruct Ha as (q & Hq & Hk & [s ->]).
    destruct Hk as [x Hx]. destruct (cl_rows_l _ _ _ _ _ _ Hc q (ld_dir x)) as [(Hq0 & _ & Hz) _]; [cbv beta; by rewrite Hx|].
    destruct q as [|a q]; [done|]. split; [done|]. intros [t E]. apply Hz. cbn in E. injection E as -> _. by exists q. }
  assert (∀ k, ¬ below k (c_R C) ∨ exclude_dir C `prefix_of` k → w_fs w' !! k = m1 !! k) as Hsame.
  { intros k Hk. apply (pa_rest _ _ _ _ _ _ _ Hp).
    - intros [s ->]. destruct Hk as [Hk|[s' E]].
      + apply Hk. unfold trash_dir, util_dir. rewrite <-!app_assoc. by apply below_app_ne.
      + unfold trash_dir, exclude_dir in E. rewrite <-!app_assoc in E. apply app_inv_head in E. by injection E.
    - intros p [Hp0 Hz]%Hgo ->. destruct Hk as [Hk|[s' E]]; [apply Hk; by apply below_app_ne|].
      apply Hz. unfold exclude_dir, util_dir in E. rewrite <-!app_assoc in E. apply app_inv_head in E. rewrite E. by eexists. }
  assert (∀ k, c_L C `prefix_of` k → ¬ below k (c_R C)) as HL. { intros k [s ->]. by apply apart_not_below. }
  assert (∀ p, l_at C (w_fs w') p = l_at C m1 p) as El.
  { intros p. unfold l_at. case_decide; [done|]. apply Hsame. left. apply HL. by eexists. }
  split; [done|]. split.
  { intros w1 p c t Hw1 Hm. rewrite Forall_forall in Htr. destruct (Htr w1 Hw1) as [Hin _]. by apply (it_kept _ _ _ _ _ Hin). }
  split; [intros p; rewrite El; apply (oc_local _ _ _ _ _ _ Hoc)|].
  split. { intros p q c t Hq Hk Hqp Hm. rewrite El. apply (pa_copied _ _ _ _ _ _ _ Hp); [by exists q|done]. }
  split.
  { exists m1. split; [intros k Hk; symmetry; by apply Hsame|]. split.
    - intros p Hg. split; [|by apply (ry_gone _ _ _ _ _ _ Hre)]. unfold r_at. case_decide; [done|]. by apply (pa_gone _ _ _ _ _ _ _ Hp).
    - intros p Hg. split; [|split; [by apply (ry_ldb _ _ _ _ _ _ Hre)|by apply (ry_rdb _ _ _ _ _ _ Hre)]].
      pose proof (oc_remote _ _ _ _ _ _ Hoc p) as E. unfold r_at in *. case_decide as Hd; [done|]. rewrite (pa_rest _ _ _ _ _ _ _ Hp); [done|..].
      + intros [s E']. unfold trash_dir, util_dir in E'. rewrite <-!app_assoc in E'. apply app_inv_head in E'. apply Hd. right. rewrite E'. by eexists.
      + intros q Hq E'. apply app_inv_head in E' as ->. done. }
  assert (∀ x, exclude_dir C `prefix_of` exclude_dir C ++ [x] ∧ util_dir C `prefix_of` exclude_dir C ++ [x] ∧ ¬ trash_dir C `prefix_of` exclude_dir C ++ [x]) as Hx.
  { intros x. split; [by eexists|]. split; [unfold exclude_dir; rewrite <-app_assoc; by eexists|].
    intros [s E]. unfold exclude_dir, trash_dir in E. rewrite <-!app_assoc in E. apply app_inv_head in E. by injection E. }
  split. { destruct (Hx (c_id C)) as (H1 & H2 & H3). rewrite Hsame by by right. change (exclude_file C) with (exclude_dir C ++ [c_id C]). rewrite (oc_rest _ _ _ _ _ _ Hoc) by done. by rewrite decide_True. }
  split. { intros x Hne. destruct (Hx x) as (H1 & H2 & H3). rewrite Hsame by by right. rewrite (oc_rest _ _ _ _ _ _ Hoc) by done.
    rewrite decide_False; [done|]. intros E. unfold exclude_file in E. apply app_inv_head in E. by injection E. }
  split. { intros k Hk1 Hk2. rewrite Hsame by by left. by apply (oc_out _ _ _ _ _ _ Hoc). }
  split; [done|]. apply (ry_last _ _ _ _ _ _ Hre).
Qed.
Print Assumptions C80_sync_partial.

(** Two profiles of the same files, and patterns that match the file [a]. *)
Definition pat (C : conf) (s : list N) : conf := {|
  c_L := c_L C; c_R := c_R C; c_limit := c_limit C; c_account := c_account C; c_inflate := c_inflate C; c_trash := c_trash C;
  c_cleanup := c_cleanup C; c_id := c_id C; c_patterns := s; c_glob := c_glob C; c_block := c_block C; c_blocks := c_blocks C;
  c_now := c_now C; c_end := c_end C; c_dt := c_dt C; c_iter := c_iter C; c_rows := c_rows C; c_tty := c_tty C |}.
Definition fsS : fs := <[exclude_dir exC ++ e "me" := File (lit "x") 1%Z]> (<[exclude_dir exC ++ e "you" := File (lit "x") 1%Z]>
  (<[pI := Dir 1%Z]> (<[pI ++ e "a" := Link (lit "/r/a") 6%Z]> (<[pI ++ e "b" := Link (lit "/r/b") 6%Z]> fsM)))).
Definition ldbS : lmap := list_to_map [known false (e "a"); known false (e "b")].
Definition exSA : conf := pat exC (lit "a").
Definition exSB : conf := pat exC2 (lit "a").
Definition exS : world := world_of fsS ldbM rdbM.
(** The other one, given the state of the files and of the remote database. *)
Definition theirs (w : world) (l : lmap) (t : option Z) : world := reboot (World (w_fs w) l (w_rdb w) t ∅ ∅ ∅ ∅ None).
Definition XS : pset := {[ e "a" ]}.
Definition exS1 : world := (sync_main exSA (ret tt) exS).1.2.
(** The first client's sync leaves the file in the remote directory, because
    the second one does not exclude it yet; the second one's removes it. *)
Example C80_sync_example :
  any_order exSA ∧ any_order exSB ∧ idle exSA exS ∧ w_last exS = Some 10%Z ∧ excluded_now exSA (w_fs exS) = XS
  ∧ clean_x exSA (w_fs exS) (w_ldb exS) (w_rdb exS) 10 XS ∧ is_Some (w_ldb exS !! e "a")
  ∧ ¬ agreed exSA (w_fs exS1) (e "a") ∧ r_at exSA (w_fs exS1) (e "a") = Some (File (lit "aa") 5%Z)
  ∧ idle exSB (theirs exS1 ldbS (Some 10%Z)) ∧ excluded_now exSB (w_fs exS1) = XS
  ∧ clean_x exSB (w_fs exS1) ldbS (w_rdb exS1) 10 XS
  ∧ l_at exSB (w_fs exS1) (e "a") = Some (Link (lit "/r/a") 6%Z)
  ∧ let '(_, w', r) := sync_main exSB (ret tt) (theirs exS1 ldbS (Some 10%Z)) in
    is_ok r && bool_decide (r_at exSB (w_fs w') (e "a") = None)
    && bool_decide (l_at exSB (w_fs w') (e "a") = Some (File (lit "aa") 5%Z)) = true.
Proof.
  split; [done|]. split; [done|]. split; [apply idle_of; mounted_now|]. split; [done|]. split; [decided|].
  split; [apply clean_x_checked; decided|]. split; [decided|].
  split. { intros H. assert (w_fs exS1 !! (exclude_dir exSA ++ e "you") = Some (File (lit "x") 1%Z)) as E by decided.
    apply H in E. revert E. assert (e "a" ∉ c_glob exSA (lit "x") (w_fs exS1) (c_L exSA)) as E by decided. done. }
  split; [decided|]. split; [apply idle_of; mounted_now|]. split; [decided|]. split; [apply clean_x_checked; decided|]. split; [decided|].
  vm_compute. reflexivity.
Qed.

(** ** The other client *)
(** Once the second client's sync has removed the file, the next syncs of the
    first one fail: its database still has the file, which the remote directory
    has no more (filelogic.py 774-785 does not remove excluded files; 205-215 looks each
    file of the database up in the remote directory). *)
Theorem C80_stuck_refuted :
  ∃ A B A' w lb p,
    any_order A ∧ any_order B ∧ any_order A' ∧ idle A w ∧ w_last w = Some 10%Z
    ∧ clean_x A (w_fs w) (w_ldb w) (w_rdb w) 10 (excluded_now A (w_fs w)) ∧ excluded_now A (w_fs w) = {[ p ]}
    ∧ let '(_, w1, r1) := sync_main A (ret tt) w in
      clean_x B (w_fs w1) lb (w_rdb w1) 10 (excluded_now B (w_fs w1)) ∧ excluded_now B (w_fs w1) = {[ p ]}
      ∧ let '(_, w2, r2) := sync_main B (ret tt) (theirs w1 lb (Some 10%Z)) in
        let '(_, w3, r3) := sync_main A' (ret tt) (theirs w2 (w_ldb w1) (w_last w1)) in
        let '(_, w4, r4) := sync_main A' (ret tt) (reboot w3) in
        r1 = Ok tt ∧ r2 = Ok tt ∧ r3 = Err KeyErr ∧ r4 = Err KeyErr.
Proof.
  exists exSA, exSB, (at_ exSA 100000 60 61), exS, ldbS, (e "a").
  split; [done|]. split; [done|]. split; [done|]. split; [apply idle_of; mounted_now|]. split; [done|].
  assert (excluded_now exSA (w_fs exS) = XS) as E by decided. rewrite E. split; [apply clean_x_checked; decided|]. split; [done|].
  assert (is_ok (sync_main exSA (ret tt) exS).2 = true) as H1 by (vm_compute; reflexivity).
  assert (clean_x exSB (w_fs exS1) ldbS (w_rdb exS1) 10 XS) as H2 by (apply clean_x_checked; decided).
  assert (excluded_now exSB (w_fs exS1) = XS) as H3 by decided.
  assert (let x2 := sync_main exSB (ret tt) (theirs exS1 ldbS (Some 10%Z)) in
    let x3 := sync_main (at_ exSA 100000 60 61) (ret tt) (theirs x2.1.2 (w_ldb exS1) (w_last exS1)) in
    let x4 := sync_main (at_ exSA 100000 60 61) (ret tt) (reboot x3.1.2) in
    is_ok x2.2 && is_err KeyErr x3.2 && is_err KeyErr x4.2 = true) as Hx by (vm_compute; reflexivity).
  unfold exS1 in *. cbv zeta in Hx. destruct (sync_main exSA (ret tt) exS) as [[tr w1] r1]. cbn [fst snd] in *.
  rewrite H3. split; [done|]. split; [done|].
  destruct (sync_main exSB (ret tt) (theirs w1 ldbS (Some 10%Z))) as [[tr2 w2] r2]. cbn [fst snd] in *.
  destruct (sync_main (at_ exSA 100000 60 61) (ret tt) (theirs w2 (w_ldb w1) (w_last w1))) as [[tr3 w3] r3]. cbn [fst snd] in *.
  destruct (sync_main (at_ exSA 100000 60 61) (ret tt) (reboot w3)) as [[tr4 w4] r4]. cbn [fst snd] in *.
  apply andb_true_iff in Hx as [Hx H6]. apply andb_true_iff in Hx as [H4 H5].
  split; [by apply is_ok_spec|]. split; [by apply is_ok_spec|]. split; by apply is_err_spec.
Qed.
Print Assumptions C80_stuck_refuted.

(** ** C73: the storage limit *)
(** The files that are not excluded fit in the limit together with the excluded
    ones as they were before the sync.
    Missing: states with clashes; the excluded files that are copied (refuted below). *)
Theorem C73_excluded_partial C w last_sync :
  any_order C → idle C w → w_last w = Some last_sync →
  let X := excluded_now C (w_fs w) in
  clean_x C (w_fs w) (w_ldb w) (w_rdb w) last_sync X →
  (∀ p n, 0 <= c_blocks C p n)%Z → (0 <= c_block C)%Z →
  let '(_, w', r) := sync_main C (ret tt) w in
  r = Ok tt ∧
  let kept := filter (λ p, ¬ set_Exists (λ q, is_Some (w_ldb w !! q) ∧ q `prefix_of` p) X) (copies C w') in
  (kept ≠ ∅ →
    local_usage C (w_fs w') kept + local_usage C (w_fs w) X + Z.of_nat (size (linked_ C w')) * c_block C <= c_limit C)%Z.
Proof.
  intros Ho Hi Hl X Hc Hn Hb. destruct (idle_sync_x C w last_sync Ho Hi Hl Hc) as [_ Hw].
  destruct (sync_main C (ret tt) w) as [[tr w'] r]. cbn [fst snd] in Hw. destruct Hw as (-> & m1 & _ & _ & _ & Hse).
  split; [done|]. intros kept Hne. apply (sx_limit _ _ _ _ _ _ _ Hse); [|apply elem_of_linked|done|by left|done].
  intros p. unfold kept. rewrite elem_of_filter, elem_of_copies. fold X.
  assert (set_Exists (λ q, is_Some (w_ldb w !! q) ∧ q `prefix_of` p) X ↔ set_aside (w_ldb w) X p) as ->; [|tauto].
  unfold set_Exists, set_aside, Merge.known. done.
Qed.
Print Assumptions C73_excluded_partial.
(** An excluded file of which there was only a link is counted as that link
    (filelogic.py 870-879 runs before the files are copied): the copies exceed
    the limit. *)
Definition exSL : conf := {|
  c_L := pI; c_R := pR; c_limit := 5000; c_account := true; c_inflate := true; c_trash := true;
  c_cleanup := None; c_id := lit "you"; c_patterns := lit "a"; c_glob := ex_glob;
  c_block := 512; c_blocks := λ _ n, match n with File c _ => Z.of_nat (length c) * 2048 | Link _ _ => 0 | Dir _ => 512 end%Z;
  c_now := 40; c_end := 41; c_dt := ex_dt; c_iter := id; c_rows := id; c_tty := false |}.
Definition exSW : world := world_of fsS (list_to_map [(e "a", LData false 0%Qc false); known false (e "b")]) rdbM.
Theorem C73_excluded_refuted :
  ∃ C w, any_order C ∧ idle C w ∧ w_last w = Some 10%Z
  ∧ clean_x C (w_fs w) (w_ldb w) (w_rdb w) 10 (excluded_now C (w_fs w)) ∧ (∀ p n, 0 <= c_blocks C p n)%Z
  ∧ let '(_, w', r) := sync_main C (ret tt) w in
    r = Ok tt ∧ copies C w' ∖ excluded_now C (w_fs w) ≠ ∅
    ∧ (c_limit C < local_usage C (w_fs w') (copies C w' ∪ excluded_now C (w_fs w)))%Z.
Proof.
  exists exSL, exSW. split; [done|]. split; [apply idle_of; mounted_now|]. split; [done|].
  assert (excluded_now exSL (w_fs exSW) = XS) as -> by decided.
  split; [apply clean_x_checked; decided|]. split; [intros p []; cbn; lia|].
  assert (let '(_, w', r) := sync_main exSL (ret tt) exSW in
    is_ok r && (bool_decide (copies exSL w' ∖ XS ≠ ∅) && (c_limit exSL <? local_usage exSL (w_fs w') (copies exSL w' ∪ XS))%Z) = true) as Hx.
  { apply (run_witness exSL (ret tt) exSW (λ r w', is_ok r && (bool_decide (copies exSL w' ∖ XS ≠ ∅) && (c_limit exSL <? local_usage exSL (w_fs w') (copies exSL w' ∪ XS))%Z))).
    vm_compute. reflexivity. }
  destruct (sync_main exSL (ret tt) exSW) as [[tr w'] r].
  apply andb_true_iff in Hx as [H1%is_ok_spec [H2%bool_decide_eq_true H3%Z.ltb_lt]%andb_true_iff]. done.
Qed.
Print Assumptions C73_excluded_refuted.
Example C73_excluded_example :
  any_order exSL ∧ idle exSL exSW ∧ w_last exSW = Some 10%Z ∧ excluded_now exSL (w_fs exSW) = XS
  ∧ clean_x exSL (w_fs exSW) (w_ldb exSW) (w_rdb exSW) 10 XS ∧ (∀ p n, 0 <= c_blocks exSL p n)%Z ∧ (0 <= c_block exSL)%Z
  ∧ let '(_, w', r) := sync_main exSL (ret tt) exSW in copies exSL w' ∖ XS = {[ e "b" ]}.
Proof.
  split; [done|]. split; [apply idle_of; mounted_now|]. split; [done|]. split; [decided|]. split; [apply clean_x_checked; decided|].
  split; [intros p []; cbn; lia|]. split; [done|].
  assert (bool_decide (copies exSL (sync_main exSL (ret tt) exSW).1.2 ∖ XS = {[ e "b" ]}) = true) as Hx by (vm_compute; reflexivity).
  destruct (sync_main exSL (ret tt) exSW) as [[tr w'] r]. by apply bool_decide_eq_true in Hx.
Qed.

(** ** C74, C75 and C81: flags, priorities and what is kept *)
(** The flags of the files that stay in use are as without excluded files, and so
    are those of the excluded ones that another client does not exclude. *)
Theorem C74_excluded_partial C w last_sync :
  any_order C → idle C w → w_last w = Some last_sync →
  clean_x C (w_fs w) (w_ldb w) (w_rdb w) last_sync (excluded_now C (w_fs w)) →
  let '(_, w', r) := sync_main C (ret tt) w in
  r = Ok tt ∧ ∀ p x, w_ldb w' !! p = Some x →
    match l_at C (w_fs w') p with
    | Some (File _ _) => ld_local x = true ↔ is_Some (l_at C (w_fs w) p)
    | Some (Link _ _) => ld_local x = true ↔
        ∃ x0 t k, w_ldb w !! p = Some x0 ∧ ld_local x0 = true ∧ l_at C (w_fs w) p = Some (Link t k)
    | _ => True
    end.
Proof.
  intros Ho Hi Hl Hc. destruct (idle_sync_x C w last_sync Ho Hi Hl Hc) as [_ Hw].
  destruct (sync_main C (ret tt) w) as [[tr w'] r]. cbn [fst snd] in Hw. destruct Hw as (-> & m1 & _ & _ & _ & Hse).
  split; [done|]. intros p x Hx. destruct (l_at C (w_fs w') p) as [[c t|t k|t]|] eqn:E; [|..|done].
  - by apply (sx_file _ _ _ _ _ _ _ Hse p x c t).
  - by apply (sx_link _ _ _ _ _ _ _ Hse p x t k).
  - done.
Qed.
Print Assumptions C74_excluded_partial.
Theorem C75_excluded_partial C w last_sync :
  any_order C → idle C w → w_last w = Some last_sync →
  clean_x C (w_fs w) (w_ldb w) (w_rdb w) last_sync (excluded_now C (w_fs w)) →
  let '(_, w', r) := sync_main C (ret tt) w in
  r = Ok tt ∧ ∀ p x, w_ldb w' !! p = Some x → ld_dir x = false →
    match w_ldb w !! p with
    | Some x0 => ld_prio x = ld_prio x0
    | None =>
        (c_inflate C = true ∧ is_Some (l_at C (w_fs w) p) ∧ highest (w_ldb w) (ld_prio x))
        ∨ (¬ (c_inflate C = true ∧ is_Some (l_at C (w_fs w) p)) ∧ ld_prio x = 0%Qc)
    end.
Proof.
  intros Ho Hi Hl Hc. set (X := excluded_now C (w_fs w)) in *. destruct (idle_sync_x C w last_sync Ho Hi Hl Hc) as [_ Hw].
  destruct (sync_main C (ret tt) w) as [[tr w'] r]. cbn [fst snd] in Hw. destruct Hw as (-> & m1 & Hoc & _ & Hre & Hse). fold X in Hre, Hse.
  split; [done|]. intros p x Hx Hd. destruct (sx_prio _ _ _ _ _ _ _ Hse p x Hx Hd) as (x1 & H & ->). unfold lrow in H.
  destruct (w_ldb w !! p) as [x0|] eqn:E; [by subst|]. destruct H as (_ & H1 & H2).
  assert (¬ let_go C (w_ldb w) X m1 p) as Hg.
  { intros Hg. destruct (ry_gone _ _ _ _ _ _ Hre p Hg) as [Hno _]. by rewrite Hx in Hno. }
  pose proof (ry_ldb _ _ _ _ _ _ Hre p Hg) as Hm. rewrite Hx in Hm. cbn in Hm.
  assert (¬ stray C (w_fs w) (w_ldb w) X p) as Hns.
  { intros Hs. rewrite (merged_not_stray _ _ _ _ _ _ Hc) in Hm by done. done. }
  destruct (decide (c_inflate C = true ∧ is_Some (l_at C (w_fs w) p))) as [[Hf Ha]|Hn].
  - left. split; [done|]. split; [done|]. apply sl_max_highest, H1; [done|]. split; [done|]. split; [|done].
    unfold Merge.known. rewrite E. by intros [].
  - right. split; [done|]. apply H2. intros [Hf [Ha _]]. by apply Hn.
Qed.
Print Assumptions C75_excluded_partial.
(** The link to "a", which is excluded here only, becomes a copy that is marked as
    one; so does "b", which is not excluded. *)
Example C74_C75_excluded_example :
  any_order exSL ∧ idle exSL exSW ∧ w_last exSW = Some 10%Z ∧ excluded_now exSL (w_fs exSW) = XS
  ∧ clean_x exSL (w_fs exSW) (w_ldb exSW) (w_rdb exSW) 10 XS
  ∧ Forall (λ p, (is_link (l_at exSL (w_fs exSW) p), flag exSW p) = (true, Some false)) [e "a"; e "b"]
  ∧ let '(_, w', _) := sync_main exSL (ret tt) exSW in
    Forall (λ p, (is_file (l_at exSL (w_fs w') p), flag w' p, prio w' p) = (true, Some true, prio exSW p)) [e "a"; e "b"].
Proof.
  split; [done|]. split; [apply idle_of; mounted_now|]. split; [done|]. split; [decided|]. split; [apply clean_x_checked; decided|].
  split; vm_compute; repeat constructor.
Qed.
