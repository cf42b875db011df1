(** C77: a new client joins a remote directory that is in use
    ([init --add-remote]). *)
From Coq Require Import QArith Qcanon.
From Verif Require Export JoinProofs SyncEx.
From stdpp Require Import options.

(** ** Specification *)
(** The rows of the remote database: the old ones keep their times, and the new
    ones are of entries that are shown to the new client. *)
Record rows_grown (C : conf) (m0 : fs) (rdb0 rdb : rmap) : Prop := {
  rg_old : ∀ q d, rdb0 !! q = Some d → ∃ d', rdb !! q = Some d' ∧ rd_last d' = rd_last d
    ∧ (rd_dir d' = rd_dir d ∨ (rd_dir d' = true ∧ dir_at m0 (c_R C ++ q)));
  rg_new : ∀ q d, rdb0 !! q = None → rdb !! q = Some d → shown C m0 q ∧ (rd_dir d = true ↔ dir_at m0 (c_R C ++ q))
}.
(** The state of the computer before the first attempt, and after attempts that
    were interrupted before the profile was complete. *)
Definition joining (m0 : fs) (rdb0 : rmap) : world := World m0 ∅ rdb0 None ∅ rdb0 ∅ ∅ None.
Record same_place (C C' : conf) : Prop := {
  sp_L : c_L C' = c_L C; sp_R : c_R C' = c_R C; sp_id : c_id C' = c_id C; sp_iter : ∀ l, c_iter C' l ≡ₚ l
}.
Inductive join_attempts (C0 : conf) (m0 : fs) (rdb0 : rmap) : world → Prop :=
  | ja_first : join_attempts C0 m0 rdb0 (joining m0 rdb0)
  | ja_cut C fits w w1 : join_attempts C0 m0 rdb0 w → same_place C0 C → w1 ∈ (init_main C true fits w).1.1 → w_last w1 = None →
      join_attempts C0 m0 rdb0 (reboot w1).
(** Nothing that was there before is touched, but for the client's own pattern
    file; the local directory has nothing but directories and links, for entries
    of the remote directory. *)
Record only_links (C : conf) (m0 m : fs) : Prop := {
  ol_out : ∀ k, ¬ below k (c_L C) → ¬ below k (c_R C) → m !! k = m0 !! k;
  ol_remote : ∀ q, ¬ zielen_dir `prefix_of` q → m !! (c_R C ++ q) = m0 !! (c_R C ++ q);
  ol_util : ∀ k n, util_dir C `prefix_of` k → k ≠ exclude_file C → m0 !! k = Some n → m !! k = Some n;
  ol_new : ∀ k n, util_dir C `prefix_of` k → k ≠ exclude_file C → m0 !! k = None → m !! k = Some n → is_Dir n = true;
  ol_local : ∀ q n, q ≠ [] → m !! (c_L C ++ q) = Some n → shown C m0 q ∧
    match n with
    | Dir _ => dir_at m0 (c_R C ++ q)
    | Link t _ => nondir (m0 !! (c_R C ++ q)) ∧ t = abs_path (c_R C ++ q)
    | File _ _ => False
    end
}.

(** ** Proofs *)
Section grown.
  Set Default Proof Using "Type*".
  Context (C : conf) (m0 : fs) (H0 : joinable C m0).
  Lemma rows_grown_refl rdb : rows_grown C m0 rdb rdb.
  Proof using Type. split; [intros q d E; exists d; auto|intros q d E1 E2; congruence]. Qed.
  Lemma parents_dir files dirs q : (∀ q, q ∈ files ++ dirs → shown C m0 q) → q ∈ parents (files ++ dirs) → dir_at m0 (c_R C ++ q).
  Proof.
    intros Hs (Hq & c & Hc & ->)%elem_of_parents. pose proof (Hs c Hc) as (Hcn & _ & [n E] & _).
    apply (jo_wf _ _ H0) in E as (_ & _ & E). by rewrite parent_app in E.
  Qed.
  Lemma rows_grown_add rdb0 rdb files dirs now :
    (∀ q, q ∈ files ↔ shown C m0 q ∧ nondir (m0 !! (c_R C ++ q))) → (∀ q, q ∈ dirs ↔ shown C m0 q ∧ dir_at m0 (c_R C ++ q)) →
    rows_grown C m0 rdb0 rdb → rows_grown C m0 rdb0 (sr_add rdb files dirs now).
  Proof.
    intros Hf Hd [Ho Hn].
    assert (∀ q, q ∈ files ++ dirs → shown C m0 q) as Hs by (intros q [?%Hf|?%Hd]%elem_of_app; naive_solver).
    pose proof (parents_dir files dirs) as Hp. split.
    - intros q d E. destruct (Ho q d E) as (d' & E' & H1 & H2). rewrite sr_add_lookup, E'. eexists. split; [done|].
      case_bool_decide as Hq; [|done]. destruct d' as [b l]. split; [done|]. right. split; [done|]. by apply Hp.
    - intros q d E. rewrite sr_add_lookup. destruct (rdb !! q) as [d'|] eqn:E'.
      + intros [= <-]. destruct (Hn q d' E E') as [H1 H2]. split; [done|]. case_bool_decide as Hq; [|done]. split; [|done].
        intros _. by apply Hp.
      + case_bool_decide as Hq; [|done]. intros [= <-]. split; [by apply Hs|]. cbn [rd_dir]. rewrite orb_true_iff, !bool_decide_eq_true.
        split.
        * intros [?%Hd|?]; [naive_solver|by apply Hp].
        * intros Hx. left. apply Hd. split; [by apply Hs|done].
  Qed.
End grown.
Lemma joinable_place C C' m0 : same_place C C' → joinable C m0 → joinable C' m0.
Proof.
  intros [E1 E2 E3 _] [? ? ? ? ? ? ? ? ?]. split; rewrite ?E1, ?E2, ?E3; done.
Qed.
Lemma underway_place C C' m0 m : same_place C C' → underway C m0 m → underway C' m0 m.
Proof.
  intros [E1 E2 E3 _] [H1 H2 H3 H4 H5 H6]. split; unfold stands, shown, exclude_file, exclude_dir, trash_dir, util_dir in *; rewrite ?E1, ?E2, ?E3; done.
Qed.
Lemma rows_grown_place C C' m0 rdb0 rdb : same_place C C' → rows_grown C m0 rdb0 rdb ↔ rows_grown C' m0 rdb0 rdb.
Proof.
  intros [E1 E2 E3 _]. split; intros [H1 H2]; (split; unfold shown in *; rewrite ?E2 in *; done).
Qed.
Lemma underway_links_only C m0 m : joinable C m0 → underway C m0 m → only_links C m0 m.
Proof.
  intros H0 U. split.
  - intros k H1 H2. apply (uw_out _ _ _ U); [done|]. intros Hp. apply H2. by apply (util_below C).
  - intros q Hq. by apply (remote_same C m0).
  - apply U.
  - intros k n H1 H2 H3 H4. by apply (uw_new _ _ _ U k).
  - intros q n Hq E. apply (uw_local _ _ _ U) in E; [|done]. destruct n; cbn in E; [done|naive_solver|naive_solver].
Qed.

(** What holds between two attempts, and at the end. *)
Record between (C : conf) (m0 : fs) (rdb0 : rmap) (w : world) : Prop := {
  bt_fs : underway C m0 (w_fs w);
  bt_rdb : rows_grown C m0 rdb0 (w_rdb w);
  bt_ldb : w_last w = None → w_ldb w = ∅
}.
Record joined (C : conf) (m0 : fs) (rdb0 : rmap) (w : world) : Prop := {
  jd_fs : underway C m0 (w_fs w);
  jd_file : ∀ q, shown C m0 q → nondir (m0 !! (c_R C ++ q)) → ∃ k, w_fs w !! (c_L C ++ q) = Some (Link (abs_path (c_R C ++ q)) k);
  jd_dir : ∀ q, shown C m0 q → dir_at m0 (c_R C ++ q) → ∃ k, w_fs w !! (c_L C ++ q) = Some (Dir k);
  jd_excl : w_fs w !! exclude_file C = Some (File (c_patterns C) (c_now C));
  jd_util : dir_at (w_fs w) (exclude_dir C) ∧ dir_at (w_fs w) (trash_dir C);
  jd_rows : ∃ files dirs, (∀ q, q ∈ files ↔ shown C m0 q ∧ nondir (m0 !! (c_R C ++ q)))
    ∧ (∀ q, q ∈ dirs ↔ shown C m0 q ∧ dir_at m0 (c_R C ++ q)) ∧ w_ldb w = sl_add ∅ files dirs 0%Qc false
    ∧ ∃ rdb, rows_grown C m0 rdb0 rdb ∧ w_rdb w = sr_add rdb files dirs (c_now C);
  jd_last : w_last w = Some (c_end C);
  jd_reboot : v_ldb w = w_ldb w ∧ v_rdb w = w_rdb w
}.
Lemma join_main_wp C m0 rdb0 w fits : joinable C m0 → (∀ l, c_iter C l ≡ₚ l) →
  between C m0 rdb0 w → w_last w = None → w = reboot w →
  wp (init_main C true fits) (between C m0 rdb0) (λ r w', r = Ok tt ∧ joined C m0 rdb0 w') w.
Proof.
  intros H0 Hit [B1 B2 B3] Hl Hb. specialize (B3 Hl). unfold init_main. apply wp_bind.
  eapply wp_trace_mono; [apply (join_files_wp C m0 H0 Hit w); [done|by rewrite Hb|rewrite Hb; exact B3|]|].
  2:{ intros w1 (A1 & A2 & A3 & A4). split; [done|by rewrite A3|]. intros _. by rewrite A2. }
  intros w1 [(U1 & A2 & A3 & A4) F1 D1 E1 T1 (files & dirs & Hf & Hd & HL & HR)] Hx.
  assert (v_rdb w = w_rdb w) as Ev by by rewrite Hb. rewrite Ev in HR.
  assert (rows_grown C m0 rdb0 (v_rdb w1)) as HG by (rewrite HR; by apply rows_grown_add).
  unfold sync_finish.
  apply wp_bind, wp_put; [split; cbn; [done|done|intros _; by rewrite A2]|].
  apply wp_bind, wp_put; [split; cbn; [done|done|intros _; by rewrite A2]|].
  apply wp_bind, wp_put; [split; cbn; [done|done|done]|].
  apply wp_put; [split; cbn; done|].
  split; [done|]. split; cbn [w_fs w_ldb w_rdb w_last v_ldb v_rdb commit_l commit_r set_last]; try done.
  exists files, dirs. split_and!; try done. exists (w_rdb w). done.
Qed.
Lemma attempts_between C0 m0 rdb0 w : joinable C0 m0 → join_attempts C0 m0 rdb0 w →
  between C0 m0 rdb0 w ∧ w_last w = None ∧ w = reboot w.
Proof.
  intros H0 Ha. induction Ha as [|C fits w w1 Ha (IH1 & IH2 & IH3) Hs Hw Hl].
  - split; [|done]. split; cbn; [by apply underway_start|apply rows_grown_refl|done].
  - assert (between C m0 rdb0 w) as Bt.
    { destruct IH1 as [B1 B2 B3]. split; [by eapply underway_place|by apply (rows_grown_place _ _ _ _ _ Hs)|done]. }
    destruct (join_main_wp C m0 rdb0 w fits (joinable_place _ _ _ Hs H0) (sp_iter _ _ Hs) Bt IH2 IH3) as [Ht _].
    rewrite Forall_forall in Ht. specialize (Ht w1 Hw).
    destruct Ht as [T1 T2 T3]. split; [|done]. pose proof Hs as [S1 S2 S3 _]. split; cbn.
    + destruct T1 as [Q1 Q2 Q3 Q4 Q5 Q6]. split; unfold stands, shown, exclude_file, exclude_dir, trash_dir, util_dir in *; rewrite ?S1, ?S2, ?S3 in *; done.
    + by apply (rows_grown_place _ _ _ _ _ Hs).
    + done.
Qed.

(** ** C77 A new client joins *)
(** At every moment, in every attempt. *)
Theorem C77_join_safe C m0 rdb0 w fits :
  joinable C m0 → (∀ l, c_iter C l ≡ₚ l) → join_attempts C m0 rdb0 w →
  let '(states, w', _) := init_main C true fits w in
  only_links C m0 (w_fs w') ∧ rows_grown C m0 rdb0 (w_rdb w')
  ∧ ∀ w1, w1 ∈ states → only_links C m0 (w_fs w1) ∧ rows_grown C m0 rdb0 (w_rdb w1).
Proof.
  intros H0 Hit Ha. destruct (attempts_between C m0 rdb0 w H0 Ha) as (Bt & Hl & Hb).
  destruct (join_main_wp C m0 rdb0 w fits H0 Hit Bt Hl Hb) as [Ht Hw].
  destruct (init_main C true fits w) as [[tr w'] r]. cbn [fst snd] in *. rewrite Forall_forall in Ht.
  destruct Hw as [_ [J1 _ _ _ _ (files & dirs & Hf & Hd & _ & rdb & HG & HR) _ _]]. split_and!.
  - by apply underway_links_only.
  - rewrite HR. by apply rows_grown_add.
  - intros w1 Hw1. destruct (Ht w1 Hw1) as [T1 T2 _]. split; [by apply underway_links_only|done].
Qed.
Print Assumptions C77_join_safe.

(** At the end, however many attempts it took: the local directory has a
    directory for each remote directory and a link for each remote file, and
    nothing else; the database of the profile lists them. *)
Theorem C77_join C m0 rdb0 w fits :
  joinable C m0 → (∀ l, c_iter C l ≡ₚ l) → join_attempts C m0 rdb0 w →
  let '(_, w', r) := init_main C true fits w in
  r = Ok tt ∧ w_last w' = Some (c_end C) ∧ w_fs w' !! exclude_file C = Some (File (c_patterns C) (c_now C))
  ∧ (∀ q, q ≠ [] →
      (¬ shown C m0 q → w_fs w' !! (c_L C ++ q) = None ∧ w_ldb w' !! q = None)
      ∧ (shown C m0 q → is_Some (w_rdb w' !! q)
         ∧ (dir_at m0 (c_R C ++ q) → dir_at (w_fs w') (c_L C ++ q) ∧ ld_dir <$> w_ldb w' !! q = Some true)
         ∧ (nondir (m0 !! (c_R C ++ q)) → (∃ k, w_fs w' !! (c_L C ++ q) = Some (Link (abs_path (c_R C ++ q)) k))
              ∧ w_ldb w' !! q = Some (LData false 0%Qc false)))).
Proof.
  intros H0 Hit Ha. destruct (attempts_between C m0 rdb0 w H0 Ha) as (Bt & Hl & Hb).
  destruct (join_main_wp C m0 rdb0 w fits H0 Hit Bt Hl Hb) as [_ Hw].
  destruct (init_main C true fits w) as [[tr w'] r]. cbn [fst snd] in *.
  destruct Hw as [-> [J1 J2 J3 J4 _ (files & dirs & Hf & Hd & HL & rdb & HG & HR) J5 _]]. split_and!; try done.
  assert (∀ q, q ∈ files ++ dirs ↔ shown C m0 q) as Hall.
  { intros q. rewrite elem_of_app, Hf, Hd. split; [naive_solver|]. intros Hs. pose proof Hs as (Hq & _ & [n E] & _).
    destruct n as [| |t]; [left|left|right]; (split; [done|]); [by rewrite E|by rewrite E|]. apply dir_at_lookup; [by apply app_ne|eauto]. }
  assert (∀ q, q ∈ files → q ∉ dirs ∧ ¬ ∃ r, r ∈ files ++ dirs ∧ below r q) as Hfile.
  { intros q (Hs & Hn)%Hf. split.
    - intros (_ & Hx)%Hd. apply dir_at_lookup in Hx as [t Hx]; [|apply app_ne, Hs]. by rewrite Hx in Hn.
    - intros (r & Hr%Hall & (x & s & ->)).
      assert (dir_at m0 (c_R C ++ q)) as Hx.
      { eapply shown_up; [done|exact Hr|by eexists| |apply Hs]. intros E. apply (f_equal length) in E. rewrite app_length in E. simpl in E. lia. }
      apply dir_at_lookup in Hx as [t Hx]; [|apply app_ne, Hs]. by rewrite Hx in Hn. }
  intros q Hq. split.
  - intros Hs. split.
    + apply eq_None_not_Some. intros [n E]. apply Hs. apply (uw_local _ _ _ J1) in E; [|done]. destruct n; cbn in E; [done|naive_solver|naive_solver].
    + rewrite HL. apply not_elem_of_dom. rewrite dom_sl_add, dom_empty_L, union_empty_l_L, elem_of_list_to_set. by rewrite Hall.
  - intros Hs. assert (is_Some (w_ldb w' !! q)) as [d Ed].
    { rewrite HL. apply elem_of_dom. rewrite dom_sl_add, dom_empty_L, union_empty_l_L, elem_of_list_to_set. by apply Hall. }
    split_and!.
    + rewrite HR. apply elem_of_dom. rewrite dom_sr_add, elem_of_union, elem_of_list_to_set. right. by apply Hall.
    + intros Hx. split; [destruct (J3 q Hs Hx) as [k E]; apply dir_at_lookup; [by apply app_ne|eauto]|].
      rewrite HL, sl_add_dir. rewrite bool_decide_true by by apply Hall. rewrite bool_decide_true; [done|]. by apply Hd.
    + intros Hx. split; [by apply J2|]. assert (q ∈ files) as Hqf by by apply Hf. destruct (Hfile q Hqf) as [H1 H2].
      rewrite HL in Ed |- *. destruct (sl_add_file _ _ _ _ _ _ _ H2 Ed) as [?|(_ & _ & ->)]; [done|].
      rewrite bool_decide_false in Ed by done. done.
Qed.
Print Assumptions C77_join.

(** ** Example *)
Lemma util_part_dirs C m : wf_fs m → util_ok C m → dir_at m (trash_dir C) → util_part (c_R C) (c_id C) m.
Proof.
  intros Hwf Hu Ht.
  assert (∀ k, dir_at m k → dirs_ok m k) as Hok by (intros k Hk q Hq Hp; right; by eapply wf_dir_anc).
  split.
  - pose proof (uo_dir _ _ Hu) as Hd. unfold exclude_dir, util_dir in Hd. rewrite <-app_assoc in Hd. by apply Hok.
  - unfold trash_dir, util_dir in Ht. rewrite <-app_assoc in Ht. by apply Hok.
  - pose proof (uo_file _ _ Hu) as Hf. rewrite exclude_file_app in Hf. rewrite <-!app_assoc. exact Hf.
Qed.
(** An empty local directory; in the remote one a directory, files, and a link
    that leads out. *)
Definition listJ : list (path * node) :=
  [(pL, Dir 1); (pR, Dir 1); (pR ++ zielen_dir, Dir 1); (exclude_dir exC, Dir 1); (trash_dir exC, Dir 1);
   (exclude_dir exC ++ e "other", File (lit "pat") 2); (trash_dir exC ++ e "old", File (lit "t") 2);
   (pR ++ e "d", Dir 4); (pR ++ e "d" ++ e "a", File (lit "aa") 5); (pR ++ e "f", File (lit "ff") 6); (pR ++ e "u", Link (lit "/etc") 3)]%Z.
Definition mJ : fs := list_to_map listJ.
Definition rdbJ : rmap := list_to_map [(e "d", RData true 7%Z); (e "d" ++ e "a", RData false 8%Z); (e "f", RData false 8%Z)].
Definition joinable_check (C : conf) (m : fs) : bool :=
  bool_decide (wf_fs m) && bool_decide (dir_at m (c_L C)) && bool_decide (dir_at m (c_R C))
  && bool_decide (Forall (λ kn, c_L C `prefix_of` kn.1 → kn.1 = c_L C) (map_to_list m))
  && bool_decide (dir_at m (exclude_dir C)) && bool_decide (dir_at m (trash_dir C))
  && match m !! exclude_file C with None | Some (File _ _) => true | _ => false end.
Lemma joinable_checked C m : c_L C ≠ [] → c_R C ≠ [] → apart (c_L C) (c_R C) → valid_name (c_id C) → joinable_check C m = true → joinable C m.
Proof.
  intros HL HR HA Hid H. unfold joinable_check in H. rewrite !andb_true_iff, !bool_decide_eq_true in H.
  destruct H as ((((((H1 & H2) & H3) & H4) & H5) & H6) & H7). split; try done.
  - intros q Hq. apply eq_None_not_Some. intros [n E]. rewrite Forall_forall in H4. apply elem_of_map_to_list in E.
    apply (H4 (_, n)) in E; [|by eexists]. cbn in E. rewrite <-(app_nil_r (c_L C)) in E at 2. by apply app_inv_head in E.
  - apply util_part_dirs; [done| |done]. split; [done|done|]. destruct (m !! exclude_file C) as [[]|]; [right; eauto|done|done|by left].
Qed.
Lemma mJ_joinable : joinable exC mJ.
Proof. apply joinable_checked; [done|done|decided|decided|vm_compute; reflexivity]. Qed.
(** The first attempt is interrupted after [n] steps. *)
Definition cutJ (n : nat) : world := reboot (default (joining mJ rdbJ) ((init_main exC true true (joining mJ rdbJ)).1.1 !! n)).
Lemma cutJ_attempts n : w_last (cutJ n) = None → join_attempts exC mJ rdbJ (cutJ n).
Proof.
  unfold cutJ. destruct (_ !! n) as [w1|] eqn:E; cbn [default]; [|intros _; apply ja_first].
  intros Hl. eapply (ja_cut _ _ _ exC true); [apply ja_first|split; done|by eapply elem_of_list_lookup_2|exact Hl].
Qed.
Example C77_example :
  joinable exC mJ ∧ (∀ l, c_iter exC l ≡ₚ l) ∧ join_attempts exC mJ rdbJ (cutJ 1)
  ∧ shown exC mJ (e "d") ∧ shown exC mJ (e "d" ++ e "a") ∧ shown exC mJ (e "f") ∧ ¬ shown exC mJ (e "u")
  ∧ forallb (λ n, let x := init_main exC true true (cutJ n) in
     is_ok x.2 && node_is (w_fs x.1.2) (pL ++ e "f") (Some (Link (lit "/r/f") 20)) && node_is (w_fs x.1.2) (pR ++ e "f") (Some (File (lit "ff") 6))
     && node_is (w_fs x.1.2) (pL ++ e "d" ++ e "a") (Some (Link (lit "/r/d/a") 20)) && node_is (w_fs x.1.2) (pL ++ e "u") None
     && node_is (w_fs x.1.2) (pR ++ e "u") (Some (Link (lit "/etc") 3))) [0; 1; 3; 4] = true.
Proof.
  split; [exact mJ_joinable|]. split; [done|]. split; [apply cutJ_attempts; vm_compute; reflexivity|].
  assert (∀ q n, q ≠ [] → ¬ zielen_dir `prefix_of` q → mJ !! (pR ++ q) = Some n → is_Link n = false → shown exC mJ q) as Hs.
  { intros q n H1 H2 H3 H4. split_and!; [done|done|by eexists|]. intros t k E. change (c_R exC) with pR in E. rewrite H3 in E. injection E as ->. done. }
  split; [apply (Hs _ (Dir 4)); [done|decided|vm_compute; reflexivity|done]|].
  split; [apply (Hs _ (File (lit "aa") 5)); [done|decided|vm_compute; reflexivity|done]|].
  split; [apply (Hs _ (File (lit "ff") 6)); [done|decided|vm_compute; reflexivity|done]|].
  split; [|vm_compute; reflexivity].
  intros (_ & _ & _ & Hx). destruct (Hx (lit "/etc") 3%Z) as [Ha _]; [vm_compute; reflexivity|]. by vm_compute in Ha.
Qed.
