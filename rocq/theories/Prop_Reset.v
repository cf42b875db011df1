(** C47-C50: what [reset] does to the files. *)
From Coq Require Import QArith Qcanon.
From Verif Require Import InitProofs ResetProofs SyncEx.
From stdpp Require Import options.

(** ** Specification *)
(** A path of the user, in the remote directory. *)
Definition user (q : path) : Prop := q ≠ [] ∧ ¬ zielen_dir `prefix_of` q.
(** Where the text [t] of the link at [q] in the local directory leads. *)
Definition leads_to (C : conf) (q : path) (t : list N) : path :=
  walk (if isabs t then [] else c_L C ++ parent q) (split_on c_slash t).
(** [q] is a local link that leads into the remote directory. *)
Definition into_remote (C : conf) (m : fs) (q : path) : Prop :=
  q ≠ [] ∧ ∃ t k, m !! (c_L C ++ q) = Some (Link t k) ∧ c_R C `prefix_of` leads_to C q t.
(** No local link has ".." in its text. *)
Definition plain_links (C : conf) (m : fs) : Prop :=
  ∀ q t k, q ≠ [] → m !! (c_L C ++ q) = Some (Link t k) → lit ".." ∉ split_on c_slash t.

(** The directories are mounted and apart from each other, and the program's
    own directory is in order. *)
Record in_use (C : conf) (w : world) : Prop := {
  iu_idle : idle C w;
  iu_R : c_R C ≠ [];
  iu_apart : apart (c_R C) (c_L C);
  iu_id : valid_name (c_id C);
  iu_util : dirs_ok (w_fs w) (exclude_dir C);
  iu_file : ¬ dir_at (w_fs w) (exclude_file C);
  iu_dir : ∀ n, w_fs w !! (c_R C ++ zielen_dir) = Some n → is_Dir n = true
}.
(** The remote directory holds no links and is as the remote database says; in
    the local one nothing else stands at the place of a remote file or
    directory than a version of it or a link to it.  The last condition leaves
    out links [d/d] in a directory [d] that are the user's own. *)
Record in_step (C : conf) (w : world) : Prop := {
  is_links : ∀ q l t, ¬ zielen_dir `prefix_of` q → w_fs w !! (c_R C ++ q) ≠ Some (Link l t);
  is_listed : ∀ q, is_Some (w_rdb w !! q) ↔ user q ∧ is_Some (w_fs w !! (c_R C ++ q));
  is_files : ∀ q c t, user q → w_fs w !! (c_R C ++ q) = Some (File c t) →
    w_fs w !! (c_L C ++ q) = None ∨ (∃ c' t', w_fs w !! (c_L C ++ q) = Some (File c' t'))
    ∨ ∃ k, w_fs w !! (c_L C ++ q) = Some (Link (abs_path (c_R C ++ q)) k);
  is_dirs : ∀ q t, user q → w_fs w !! (c_R C ++ q) = Some (Dir t) →
    w_fs w !! (c_L C ++ q) = None ∨ dir_at (w_fs w) (c_L C ++ q);
  is_echo : ∀ q x t l k, user q → last q = Some x → w_fs w !! (c_R C ++ q) = Some (Dir t) →
    w_fs w !! (c_L C ++ q ++ [x]) = Some (Link l k) →
    l = abs_path (c_R C ++ q ++ [x]) ∧ ∃ c t, w_fs w !! (c_R C ++ q ++ [x]) = Some (File c t)
}.
(** Nothing is lost: every remote file is in one of the directories. *)
Definition all_kept (C : conf) (m m' : fs) : Prop :=
  (∀ q c t, user q → m !! (c_R C ++ q) = Some (File c t) →
     m' !! (c_R C ++ q) = Some (File c t) ∨ m' !! (c_L C ++ q) = Some (File c t))
  (** what stands only in the local directory stays, except for links into the remote one *)
  ∧ (∀ q, q ≠ [] → ¬ (user q ∧ is_Some (m !! (c_R C ++ q))) →
       m' !! (c_L C ++ q) = m !! (c_L C ++ q) ∨ (m' !! (c_L C ++ q) = None ∧ into_remote C m q))
  ∧ (∀ k, ¬ below k (c_L C) → ¬ below k (c_R C) → m' !! k = m !! k).
(** All remote files are back. *)
Record all_back (C : conf) (keep : bool) (m m' : fs) : Prop := {
  ab_files : ∀ q c t, user q → m !! (c_R C ++ q) = Some (File c t) → m' !! (c_L C ++ q) = Some (File c t);
  ab_links : ∀ q, ¬ into_remote C m' q;
  ab_local : ∀ q, q ≠ [] → ¬ (user q ∧ is_Some (m !! (c_R C ++ q))) → ¬ into_remote C m q → m' !! (c_L C ++ q) = m !! (c_L C ++ q);
  ab_remote : ∀ q, q ≠ [] → c_R C ++ q ≠ exclude_file C → m' !! (c_R C ++ q) = if keep then m !! (c_R C ++ q) else None;
  ab_exclude : m' !! exclude_file C = None;
  ab_out : ∀ k, ¬ below k (c_L C) → ¬ below k (c_R C) → m' !! k = m !! k
}.
(** The states that interrupted attempts with "--keep-remote" can leave. *)
Inductive resets (C0 : conf) (w0 : world) : world → Prop :=
  | rs_first : resets C0 w0 w0
  | rs_cut C fits w w1 : resets C0 w0 w → c_L C = c_L C0 → c_R C = c_R C0 → c_id C = c_id C0 → (∀ l, c_iter C l ≡ₚ l) →
      w1 ∈ (reset_main C true false fits w).1.1 → resets C0 w0 (reboot w1).

(** ** Proofs *)
Lemma user_ok q : user q ↔ q ≠ [] ∧ ¬ zielen_dir `prefix_of` q.
Proof. done. Qed.
Lemma into_doomed C m q : plain_links C m → into_remote C m q ↔ doomed C m q.
Proof.
  intros Hp. unfold into_remote, doomed, leads_to, as_written. split; intros (Hq & t & k & E & H); (split; [done|]); exists t, k; (split; [done|]);
    pose proof (path_comps_nodots t (Hp q t k Hq E)) as Hw; destruct (isabs t); rewrite ?Hw in *; done.
Qed.
Lemma not_user_spec (C : conf) (m : fs) q : q ≠ [] → ¬ (user q ∧ is_Some (m !! (c_R C ++ q))) ↔ zielen_dir `prefix_of` q ∨ m !! (c_R C ++ q) = None.
Proof.
  intros Hq. unfold user. rewrite <-not_eq_None_Some. split.
  - intros Hn. destruct (decide (zielen_dir `prefix_of` q)) as [?|Hz]; [by left|right].
    destruct (m !! (c_R C ++ q)); [exfalso; by apply Hn|done].
  - intros [?|?] [[_ ?] ?]; done.
Qed.
Lemma ready_to_reset C w : in_use C w → in_step C w → resettable C (w_fs w) (dom (w_rdb w)).
Proof.
  intros U S. split; try apply U; try apply S.
  - intros q Hq. apply elem_of_dom, (is_listed _ _ S) in Hq as [[? ?] ?]. done.
  - intros q c t Hq Hz E. apply elem_of_dom, (is_listed _ _ S). split; [done|by eexists].
  - intros q c t Hq Hz. by apply (is_files _ _ S).
  - intros q t Hq Hz. by apply (is_dirs _ _ S).
  - intros q x t l k Hq Hz. by apply (is_echo _ _ S).
Qed.
Lemma resetting_kept C m0 keep m : plain_links C m0 → resetting C m0 keep m → all_kept C m0 m.
Proof.
  intros Hp P. split; [|split].
  - intros q c t [Hq Hz]. by apply (rg_safe _ _ _ _ P).
  - intros q Hq Hn. apply not_user_spec in Hn; [|done]. destruct (rg_local _ _ _ _ P q Hq Hn) as [?|[? Hd]]; [by left|right].
    split; [done|]. by apply into_doomed.
  - apply P.
Qed.
Lemma done_back C m0 db keep m : resettable C m0 db → plain_links C m0 → reset_done C m0 keep m → all_back C keep m0 m.
Proof.
  intros H Hp D. pose proof (dn_ing _ _ _ _ D) as P. split.
  - intros q c t [Hq Hz]. by apply (dn_files _ _ _ _ D).
  - intros q Hi. apply (dn_links _ _ _ _ D q). apply into_doomed; [|done]. intros q' t k Hq' E. eapply (Hp q'); [done|]. by eapply again_link.
  - intros q Hq Hn Hi. apply not_user_spec in Hn; [|done]. apply (dn_local _ _ _ _ D); [done|done|]. intros Hd. apply Hi. by apply into_doomed.
  - intros q Hq Hne. destruct keep.
    + rewrite (dn_kept _ _ _ _ D), decide_False; done.
    + by apply (dn_gone _ _ _ _ D).
  - rewrite exclude_file_app. destruct keep.
    + rewrite (dn_kept _ _ _ _ D) by done. by rewrite decide_True by by rewrite exclude_file_app.
    + by apply (dn_gone _ _ _ _ D).
  - apply P.
Qed.
Lemma reset_states C w keep : in_use C w → in_step C w → (∀ l, c_iter C l ≡ₚ l) →
  wp (reset_main C keep false true) (on_reset C (w_fs w) keep w) (λ r w', r = Ok tt ∧ after_reset C (w_fs w) keep w w') w.
Proof.
  intros U S Hit. pose proof (id_boot _ _ (iu_idle _ _ U)) as Hb.
  eapply (reset_main_wp C (w_fs w) (dom (w_rdb w))); [by apply ready_to_reset| |done| | |done|done].
  - intros p. rewrite Hit, elem_of_elements. rewrite <-Hb at 1. cbn [v_rdb reboot]. unfold sr_get. rewrite dom_s_query, elem_of_dom.
    unfold is_Some. split; [naive_solver|]. intros [d Hd]. exists d. split; [done|]. split; [apply prefix_nil|done].
  - by rewrite <-Hb.
  - by rewrite <-Hb.
Qed.
Lemma reset_full C w keep : mounted C (w_fs w) → v_rscan w = ∅ → 
  wp (reset_main C keep false false) (λ _, False) (λ r w', r = Err AvailableSpaceErr ∧ w_fs w' = w_fs w ∧ w_ldb w' = w_ldb w ∧ w_rdb w' = w_rdb w) w.
Proof.
  intros Hm Hr. unfold reset_main, retrieve. apply wp_bind, wp_bind.
  eapply wp_run; [apply remote_scan_known; [done|by left]|constructor|]. cbv beta iota. cbn [negb]. by apply wp_throw.
Qed.

(** ** C47 Reset retrieves everything.
    Partial: without ".." in links ([C47_dotdot_refuted]), and with the remote
    directory as its database says ([C47_unlisted_refuted], [C48_rerun_refuted]). *)
Theorem C47_reset_partial C w keep :
  in_use C w → in_step C w → plain_links C (w_fs w) → (∀ l, c_iter C l ≡ₚ l) →
  let '(_, w', r) := reset_main C keep false true w in
  r = Ok tt ∧ all_back C keep (w_fs w) (w_fs w').
Proof.
  intros U S Hp Hit. pose proof (reset_states C w keep U S Hit) as [_ H].
  destruct (reset_main C keep false true w) as [[tr w'] r]. cbn [fst snd] in H. destruct H as (-> & D & _). split; [done|].
  eapply done_back; [by apply ready_to_reset|done|done].
Qed.
Print Assumptions C47_reset_partial.
(** Without enough space nothing is changed. *)
Theorem C47_no_space C w keep : mounted C (w_fs w) → reboot w = w →
  let '(states, w', r) := reset_main C keep false false w in
  r = Err AvailableSpaceErr ∧ states = [] ∧ w_fs w' = w_fs w ∧ w_ldb w' = w_ldb w ∧ w_rdb w' = w_rdb w.
Proof.
  intros Hm Hb. pose proof (reset_full C w keep Hm) as [H1 H2]; [by rewrite <-Hb|].
  destruct (reset_main C keep false false w) as [[tr w'] r]. cbn [fst snd] in *. destruct H2 as (-> & ? & ? & ?). split_and!; try done.
  destruct tr as [|x tr]; [done|]. by inversion_clear H1.
Qed.
Print Assumptions C47_no_space.

(** ** C48 An interrupted reset loses nothing.
    Partial: this holds at the time of the interruption, but later runs are
    another matter ([C48_rerun_refuted], [C48_sync_refuted]), unless the
    remote directory is kept. *)
Theorem C48_crash_partial C w keep w1 :
  in_use C w → in_step C w → plain_links C (w_fs w) → (∀ l, c_iter C l ≡ₚ l) →
  w1 ∈ (reset_main C keep false true w).1.1 →
  all_kept C (w_fs w) (w_fs w1) ∧ w_ldb w1 = w_ldb w ∧ w_rdb w1 = w_rdb w.
Proof.
  intros U S Hp Hit Hin. pose proof (reset_states C w keep U S Hit) as [H _]. rewrite Forall_forall in H. apply H in Hin as (P & ? & ? & _).
  split; [by eapply resetting_kept|done].
Qed.
Print Assumptions C48_crash_partial.

Lemma in_step_of C w : reboot w = w → resettable C (w_fs w) (dom (w_rdb w)) →
  (∀ q, user q → is_Some (w_fs w !! (c_R C ++ q)) → is_Some (w_rdb w !! q)) → in_use C w ∧ in_step C w.
Proof.
  intros Hb H Hl. split.
  - split; try apply H. split; [apply H|done].
  - split; try apply H.
    + intros q. rewrite <-elem_of_dom. split.
      * intros Hq. by apply (rs_db _ _ _ H) in Hq as (? & ? & ?).
      * intros [Hu Hs]. apply elem_of_dom. by apply Hl.
    + intros q c t [Hq Hz]. by apply (rs_files _ _ _ H).
    + intros q t [Hq Hz]. by apply (rs_dirs _ _ _ H).
    + intros q x t l k [Hq Hz]. by apply (rs_echo _ _ _ H).
Qed.
Lemma resets_states C0 w0 w : in_use C0 w0 → in_step C0 w0 → resets C0 w0 w →
  w = w0 ∨ (resetting C0 (w_fs w0) true (w_fs w) ∧ w_rdb w = w_rdb w0 ∧ reboot w = w).
Proof.
  intros U S. pose proof (ready_to_reset _ _ U S) as H0.
  induction 1 as [|C fits w w1 A IH EL ER EI Hit Hin]; [by left|]. right.
  assert (reboot w = w ∧ w_rdb w = w_rdb w0 ∧ resettable C (w_fs w) (dom (w_rdb w0))) as (Hb & Er & H1).
  { destruct IH as [->|(P & E1 & E2)].
    - split; [apply U|]. split; [done|]. clear Hin. destruct C0, C. simpl in *. subst. destruct H0 as [M]. destruct M. split; try done.
    - split_and!; [done|done|]. eapply resetting_again; [exact EL|exact ER|exact EI|exact H0|exact P]. }
  destruct fits.
  2:{ pose proof (reset_full C w true (rs_m _ _ _ H1)) as [H2 _]; [by rewrite <-Hb|]. rewrite Forall_forall in H2. by apply H2 in Hin. }
  assert (in_use C w ∧ in_step C w) as [U1 S1].
  { apply in_step_of; [done|by rewrite Er|]. intros q Hu. rewrite Er. destruct Hu as [Hq Hz]. intros Hs. apply (is_listed _ _ S). split; [done|].
    rewrite <-ER. destruct IH as [->|(P & _)]; [done|]. rewrite ER in *. by rewrite (again_user C0 (w_fs w0) (w_fs w) q P) in Hs. }
  pose proof (reset_states C w true U1 S1 Hit) as [H2 _]. rewrite Forall_forall in H2. apply H2 in Hin as (P1 & _ & E1 & _).
  cbn [w_fs w_rdb reboot]. split_and!; [|congruence|done].
  destruct IH as [->|(P & _)].
  - clear H2 S1 U1 H1. destruct C0, C. simpl in *. subst. destruct P1. split; try done.
  - eapply resetting_trans; [exact EL|exact ER|exact EI|exact H0|exact P|exact P1].
Qed.
Theorem C48_resume_partial C w0 w :
  in_use C w0 → in_step C w0 → plain_links C (w_fs w0) → (∀ l, c_iter C l ≡ₚ l) → resets C w0 w →
  all_kept C (w_fs w0) (w_fs w) ∧
  let '(_, w', r) := reset_main C true false true w in
  r = Ok tt ∧ all_back C true (w_fs w0) (w_fs w').
Proof.
  intros U S Hp Hit A. pose proof (ready_to_reset _ _ U S) as H0. destruct (resets_states C w0 w U S A) as [->|(P & E & Hb)].
  - split; [|by apply C47_reset_partial]. split; [|split]; auto.
  - split; [by eapply resetting_kept|].
    pose proof (resetting_again C C eq_refl eq_refl eq_refl _ _ H0 _ P) as H1. rewrite <-E in H1.
    assert (in_use C w ∧ in_step C w) as [U1 S1].
    { apply in_step_of; [done|done|]. intros q [Hq Hz] Hs. rewrite E. apply (is_listed _ _ S). split; [done|].
      by rewrite (again_user C (w_fs w0) (w_fs w) q P) in Hs. }
    pose proof (reset_states C w true U1 S1 Hit) as [_ H]. destruct (reset_main C true false true w) as [[tr w'] r]. cbn [fst snd] in H.
    destruct H as (-> & D & _). split; [done|]. apply (done_back C _ _ _ _ H0 Hp).
    pose proof (dn_ing _ _ _ _ D) as P1.
    pose proof (resetting_trans C C eq_refl eq_refl eq_refl _ _ H0 _ _ P P1) as P2. split.
    + done.
    + intros q c t Hq Hz Ef. apply (dn_files _ _ _ _ D); [done|done|]. by rewrite (again_user C (w_fs w0) (w_fs w) q P).
    + apply D.
    + intros q Hq Hor Hn. destruct (rg_local _ _ _ _ P2 q Hq Hor) as [?|[_ ?]]; done.
    + done.
    + intros _ q. rewrite (dn_kept _ _ _ _ D) by done. destruct (decide _); [done|]. by apply (rg_keep _ _ _ _ P).
Qed.
Print Assumptions C48_resume_partial.

(** ** C49 Reset keeps unsynced local changes.
    Partial: what stands in the local directory only.  Versions of remote files
    are overwritten ([C49_overwrite_refuted]). *)
Theorem C49_local_partial C w keep q :
  in_use C w → in_step C w → plain_links C (w_fs w) → (∀ l, c_iter C l ≡ₚ l) →
  q ≠ [] → w_fs w !! (c_R C ++ q) = None → ¬ into_remote C (w_fs w) q →
  let '(states, w', r) := reset_main C keep false true w in
  w_fs w' !! (c_L C ++ q) = w_fs w !! (c_L C ++ q) ∧ ∀ w1, w1 ∈ states → w_fs w1 !! (c_L C ++ q) = w_fs w !! (c_L C ++ q).
Proof.
  intros U S Hp Hit Hq E Hi. pose proof (C47_reset_partial C w keep U S Hp Hit) as H.
  pose proof (λ w1, C48_crash_partial C w keep w1 U S Hp Hit) as H1.
  destruct (reset_main C keep false true w) as [[tr w'] r]. cbn [fst snd] in *. destruct H as [_ B].
  assert (¬ (user q ∧ is_Some (w_fs w !! (c_R C ++ q)))) as Hn by (rewrite E; by intros [_ [? ?]]).
  split; [by apply (ab_local _ _ _ _ B)|]. intros w1 Hin. destruct (H1 w1 Hin) as ((_ & Hl & _) & _). by destruct (Hl q Hq Hn) as [?|[_ ?]].
Qed.
Print Assumptions C49_local_partial.

(** ** C50 Reset without retrieval.
    Partial: without ".." in links ([C50_left_refuted], [C50_removed_refuted]). *)
Theorem C50_no_retrieve_partial C w keep fits :
  in_use C w → plain_links C (w_fs w) → (∀ l, c_iter C l ≡ₚ l) →
  let '(states, w', r) := reset_main C keep true fits w in
  r = Ok tt
  ∧ (∀ q, into_remote C (w_fs w) q → w_fs w' !! (c_L C ++ q) = None) ∧ w_fs w' !! exclude_file C = None
  ∧ (∀ k, (∀ q, k = c_L C ++ q → ¬ into_remote C (w_fs w) q) → k ≠ exclude_file C →
       w_fs w' !! k = w_fs w !! k ∧ ∀ w1, w1 ∈ states → w_fs w1 !! k = w_fs w !! k).
Proof.
  intros U Hp Hit. pose proof (id_boot _ _ (iu_idle _ _ U)) as Hb.
  pose proof (detach_wp C w keep fits Hit (id_mounted _ _ (iu_idle _ _ U))) as [H1 H2]; [by rewrite <-Hb|apply U..|].
  destruct (reset_main C keep true fits w) as [[tr w'] r]. cbn [fst snd] in *. destruct H2 as (-> & [_ D] & Hx & Hd & _).
  split_and!; [done| |done|].
  - intros q Hi. by apply Hd, into_doomed.
  - intros k Hk Hne.
    assert (∀ m, detaching C (w_fs w) m → m !! k = w_fs w !! k) as G.
    { intros m [_ G]. destruct (G k) as [?|[_ [?|(p & -> & Hdp)]]]; [done|done|]. exfalso. apply (Hk p); [done|]. by apply into_doomed. }
    split.
    + destruct (D k) as [?|[_ [?|(p & -> & Hdp)]]]; [done|done|]. exfalso. apply (Hk p); [done|]. by apply into_doomed.
    + intros w1 Hin. rewrite Forall_forall in H1. apply H1 in Hin as [Hin _]. by apply G.
Qed.
Print Assumptions C50_no_retrieve_partial.

(** ** Examples and counterexamples *)
(** [in_step] as a computation. *)
Definition is_user (q : path) : bool := negb (bool_decide (q = [])) && negb (bool_decide (zielen_dir `prefix_of` q)).
Lemma is_user_spec q : is_user q = true ↔ user q.
Proof. unfold is_user, user. by rewrite andb_true_iff, !negb_true_iff, !bool_decide_eq_false. Qed.
Definition here {A} (o : option A) : bool := match o with Some _ => true | None => false end.
Definition step_at (C : conf) (w : world) (q : path) (n : node) : bool :=
  here (w_rdb w !! q) &&
  match n with
  | Link _ _ => false
  | File _ _ => match w_fs w !! (c_L C ++ q) with
                | Some (Link l _) => bool_decide (l = abs_path (c_R C ++ q)) | Some (Dir _) => false | _ => true end
  | Dir _ => match w_fs w !! (c_L C ++ q) with Some (Dir _) | None => true | _ => false end
             && match last q with
                | Some x => match w_fs w !! (c_L C ++ q ++ [x]) with Some (Link _ _) => false | _ => true end
                | None => true end
  end.
Definition in_step_b (C : conf) (w : world) : bool :=
  forallb (λ kn : path * node, if decide (c_R C `prefix_of` kn.1) then
      let q := drop (length (c_R C)) kn.1 in if is_user q then step_at C w q kn.2 else match q, kn.2 with [], Link _ _ => false | _, _ => true end
    else true) (map_to_list (w_fs w))
  && forallb (λ qd : path * rdata, is_user qd.1 && here (w_fs w !! (c_R C ++ qd.1))) (map_to_list (w_rdb w)).
Lemma in_step_b_spec C w : in_step_b C w = true → in_step C w.
Proof.
  unfold in_step_b. rewrite andb_true_iff, !forallb_forall. intros [H1 H2].
  assert (∀ q n, user q → w_fs w !! (c_R C ++ q) = Some n → step_at C w q n = true) as G.
  { intros q n Hu E. apply elem_of_map_to_list, elem_of_list_In, H1 in E. cbn [fst snd] in E. rewrite decide_True in E by by apply prefix_app_r.
    rewrite drop_app in E. cbv zeta in E. apply is_user_spec in Hu. by rewrite Hu in E. }
  assert (∀ q l t, ¬ zielen_dir `prefix_of` q → w_fs w !! (c_R C ++ q) ≠ Some (Link l t)) as GL.
  { intros q l t Hz E. destruct (decide (q = [])) as [->|Hq].
    - apply elem_of_map_to_list, elem_of_list_In, H1 in E. cbn [fst snd] in E. rewrite app_nil_r, decide_True in E by done.
      rewrite drop_all in E. discriminate E.
    - apply G in E; [|done]. unfold step_at in E. by rewrite andb_false_r in E. }
  split.
  - done.
  - intros q. split.
    + intros [d Hd]. apply elem_of_map_to_list, elem_of_list_In, H2 in Hd. cbn [fst] in Hd. apply andb_true_iff in Hd as [Hu Hs].
      split; [by apply is_user_spec|]. by destruct (w_fs w !! _).
    + intros [Hu [n E]]. apply G in E; [|done]. apply andb_true_iff in E as [E _]. by destruct (w_rdb w !! q).
  - intros q c t Hu E. apply G in E; [|done]. apply andb_true_iff in E as [_ E].
    destruct (w_fs w !! (c_L C ++ q)) as [[c' t'|l k|]|]; [right; left; eauto| |done|by left].
    apply bool_decide_eq_true in E. subst l. right. right. eauto.
  - intros q t Hu E. apply G in E; [|done]. apply andb_true_iff in E as [_ E]. apply andb_true_iff in E as [E _].
    destruct Hu as [Hq _]. unfold dir_at. rewrite node_at_app_ne by done. destruct (w_fs w !! (c_L C ++ q)) as [[| |t']|]; [done|done|right; by eexists|by left].
  - intros q x t l k Hu Hx E El. apply G in E; [|done]. apply andb_true_iff in E as [_ E]. apply andb_true_iff in E as [_ E].
    by rewrite Hx, El in E.
Qed.
Ltac in_use_now := split; [apply idle_of; mounted_now|done|split; intros [? HH]; discriminate HH|decided| |
  unfold dir_at; vm_compute; intros [? HH]; discriminate HH|vm_compute; by intros ? [= <-]].
Lemma dirs_ok_b m p : forallb (λ n, match m !! take (S n) p with Some (File _ _) | Some (Link _ _) => false | _ => true end) (seq 0 (length p)) = true → dirs_ok m p.
Proof.
  rewrite forallb_forall. intros H q Hq [s ->]. destruct q as [|x q]; [done|].
  assert (length q ∈ seq 0 (length ((x :: q) ++ s))) as Hin.
  { apply elem_of_seq. rewrite app_length. simpl. lia. }
  apply elem_of_list_In, H in Hin. change (S (length q)) with (length (x :: q)) in Hin. rewrite take_app in Hin.
  unfold dir_at. rewrite node_at_ne by done. destruct (m !! (x :: q)) as [[| |t]|]; [done|done|right; by eexists|by left].
Qed.
Definition plain_links_b (C : conf) (m : fs) : bool :=
  forallb (λ kn : path * node, match kn.2 with Link t _ => bool_decide (lit ".." ∉ split_on c_slash t) | _ => true end) (map_to_list m).
Lemma plain_links_b_spec C m : plain_links_b C m = true → plain_links C m.
Proof.
  unfold plain_links_b. rewrite forallb_forall. intros H q t k Hq E. apply elem_of_map_to_list, elem_of_list_In, H in E. by apply bool_decide_eq_true in E.
Qed.
(** [exM] with a local file, a link to a remote directory, another link and a
    directory. *)
Definition rW : world :=
  upd (pL ++ e "n") (File (lit "nn") 15) (upd (pL ++ e "g") (Link (lit "/r/d") 3) (upd (pL ++ e "u") (Link (lit "/etc") 3)
    (upd (pR ++ e "d" ++ e "c") (File (lit "cc") 7) (upd (pR ++ e "d") (Dir 7)
      (world_of fsM ldbM (<[e "d" := RData true 9]> (<[e "d" ++ e "c" := RData false 9]> rdbM))))))).
Lemma rW_ready : in_use exC rW ∧ in_step exC rW ∧ plain_links exC (w_fs rW).
Proof.
  split; [in_use_now; apply dirs_ok_b; vm_compute; reflexivity|]. split; [apply in_step_b_spec; vm_compute; reflexivity|].
  apply (plain_links_b_spec exC). vm_compute. reflexivity.
Qed.
Lemma reset_witness C keep none fits w (P : res unit → world → bool) :
  (let x := reset_main C keep none fits w in P x.2 x.1.2) = true → let '(_, w', r) := reset_main C keep none fits w in P r w' = true.
Proof. cbv zeta. by destruct (reset_main C keep none fits w) as [[tr w'] r]. Qed.
Example C47_example :
  in_use exC rW ∧ in_step exC rW ∧ plain_links exC (w_fs rW)
  ∧ let x := reset_main exC false false true rW in
    is_ok x.2 && node_is (w_fs x.1.2) (pL ++ e "a") (Some (File (lit "aa") 5)) && node_is (w_fs x.1.2) (pL ++ e "b") (Some (File (lit "bb") 5))
    && node_is (w_fs x.1.2) (pL ++ e "d" ++ e "c") (Some (File (lit "cc") 7)) && node_is (w_fs x.1.2) (pL ++ e "g") None
    && node_is (w_fs x.1.2) (pL ++ e "u") (Some (Link (lit "/etc") 3)) && node_is (w_fs x.1.2) (pR ++ e "b") None = true.
Proof. destruct rW_ready as (? & ? & ?). split_and!; [done|done|done|]. vm_compute. reflexivity. Qed.
Definition cut_reset (keep : bool) (n : nat) : world := default rW ((reset_main exC keep false true rW).1.1 !! n).
(** Interrupted when [b] is half written, and one of two later attempts. *)
Example C48_example :
  in_use exC rW ∧ in_step exC rW ∧ plain_links exC (w_fs rW) ∧ resets exC rW (reboot (cut_reset true 7))
  ∧ let w := reboot (cut_reset true 7) in let x := reset_main exC true false true w in
    node_is (w_fs w) (pL ++ e "b") (Some (File (lit "b") 20)) && is_ok x.2 && node_is (w_fs x.1.2) (pL ++ e "b") (Some (File (lit "bb") 5))
    && node_is (w_fs x.1.2) (pR ++ e "b") (Some (File (lit "bb") 5)) = true.
Proof.
  destruct rW_ready as (? & ? & ?). split_and!; [done|done|done| |vm_compute; reflexivity].
  unfold cut_reset. destruct ((reset_main exC true false true rW).1.1 !! 7) as [w1|] eqn:E.
  - eapply rs_cut; [apply rs_first|done|done|done|done|by eapply elem_of_list_lookup_2].
  - assert (here ((reset_main exC true false true rW).1.1 !! 7) = true) as Ha by (vm_compute; reflexivity). by rewrite E in Ha.
Qed.
Example C49_example :
  w_fs rW !! (pR ++ e "n") = None ∧ ¬ into_remote exC (w_fs rW) (e "n")
  ∧ w_fs (reset_main exC false false true rW).1.2 !! (pL ++ e "n") = Some (File (lit "nn") 15).
Proof.
  split; [vm_compute; reflexivity|]. split; [|vm_compute; reflexivity].
  intros (_ & t & k & E & _). revert E. by vm_compute.
Qed.
Example C50_example :
  in_use exC rW ∧ plain_links exC (w_fs rW) ∧ into_remote exC (w_fs rW) (e "b") ∧ into_remote exC (w_fs rW) (e "g") ∧ ¬ into_remote exC (w_fs rW) (e "u")
  ∧ let x := reset_main exC false true true rW in
    is_ok x.2 && node_is (w_fs x.1.2) (pL ++ e "b") None && node_is (w_fs x.1.2) (pL ++ e "g") None
    && node_is (w_fs x.1.2) (pL ++ e "u") (Some (Link (lit "/etc") 3)) && node_is (w_fs x.1.2) (pR ++ e "b") (Some (File (lit "bb") 5)) = true.
Proof.
  destruct rW_ready as (? & ? & ?). split_and!; [done|done| | | |vm_compute; reflexivity].
  - split; [done|]. exists (lit "/r/b"), 6%Z. split; [vm_compute; reflexivity|]. decided.
  - split; [done|]. exists (lit "/r/d"), 3%Z. split; [vm_compute; reflexivity|]. decided.
  - intros (_ & t & k & E & Hp). vm_compute in E. injection E as <- <-. revert Hp. apply (bool_decide_unpack (¬ _)). vm_compute. exact I.
Qed.

(** Links with "..": one that leads into the remote directory is left behind. *)
Definition rD : world := upd (pL ++ e "l") (Link (lit "../r/a") 3) exM.
Lemma rD_ready : in_use exC rD ∧ in_step exC rD.
Proof. split; [in_use_now; apply dirs_ok_b; vm_compute; reflexivity|]. apply in_step_b_spec. vm_compute. reflexivity. Qed.
Definition l_left (r : res unit) (w' : world) : bool := is_ok r && node_is (w_fs w') (pL ++ e "l") (Some (Link (lit "../r/a") 3)).
Lemma l_left_into r w' : l_left r w' = true → r = Ok tt ∧ into_remote exC (w_fs w') (e "l").
Proof.
  intros [H1 H2]%andb_prop. split; [by apply is_ok_spec|]. split; [done|]. exists (lit "../r/a"), 3%Z. split; [by apply node_is_spec in H2|]. decided.
Qed.
Theorem C47_dotdot_refuted : ∃ C w keep q, in_use C w ∧ in_step C w ∧ (∀ l, c_iter C l ≡ₚ l)
  ∧ let '(_, w', r) := reset_main C keep false true w in r = Ok tt ∧ into_remote C (w_fs w') q.
Proof.
  exists exC, rD, true, (e "l"). destruct rD_ready as [? ?]. split_and!; [done|done|done|].
  pose proof (reset_witness exC true false true rD l_left ltac:(vm_compute; reflexivity)) as H1.
  destruct (reset_main exC true false true rD) as [[tr w'] r]. by apply l_left_into.
Qed.
Print Assumptions C47_dotdot_refuted.
Theorem C50_left_refuted : ∃ C w q, in_use C w ∧ (∀ l, c_iter C l ≡ₚ l) ∧ into_remote C (w_fs w) q
  ∧ let '(_, w', r) := reset_main C true true true w in r = Ok tt ∧ into_remote C (w_fs w') q.
Proof.
  exists exC, rD, (e "l"). destruct rD_ready as [? ?]. split_and!; [done|done| |].
  - by apply (l_left_into (Ok tt)); vm_compute.
  - pose proof (reset_witness exC true true true rD l_left ltac:(vm_compute; reflexivity)) as H1.
    destruct (reset_main exC true true true rD) as [[tr w'] r]. by apply l_left_into.
Qed.
Print Assumptions C50_left_refuted.
(** A link of the user that leads elsewhere is removed. *)
Definition rE : world := upd (pL ++ e "l") (Link (lit "/r/../etc") 3) exM.
Theorem C50_removed_refuted : ∃ C w q, in_use C w ∧ (∀ l, c_iter C l ≡ₚ l) ∧ is_Some (w_fs w !! (c_L C ++ q)) ∧ ¬ into_remote C (w_fs w) q
  ∧ let '(_, w', r) := reset_main C true true true w in r = Ok tt ∧ w_fs w' !! (c_L C ++ q) = None.
Proof.
  exists exC, rE, (e "l"). split; [in_use_now; apply dirs_ok_b; vm_compute; reflexivity|]. split; [done|]. split; [decided|]. split.
  { intros (_ & t & k & E & Hp). vm_compute in E. injection E as <- <-. revert Hp. apply (bool_decide_unpack (¬ _)). vm_compute. exact I. }
  pose proof (reset_witness exC true true true rE (λ r w', is_ok r && node_is (w_fs w') (pL ++ e "l") None) ltac:(vm_compute; reflexivity)) as H1.
  destruct (reset_main exC true true true rE) as [[tr w'] r]. apply andb_prop in H1 as [H1 H2].
  split; [by apply is_ok_spec|]. by apply node_is_spec in H2.
Qed.
Print Assumptions C50_removed_refuted.

(** A new file in the remote directory that no sync has seen yet: the files are
    moved back, then the command fails, with the links still there. *)
Definition rN : world := upd (pR ++ e "n2") (File (lit "n2") 14) rW.
Theorem C47_unlisted_refuted : ∃ C w q, in_use C w ∧ (∀ l, c_iter C l ≡ₚ l) ∧ into_remote C (w_fs w) q
  ∧ let '(_, w', r) := reset_main C false false true w in r = Err TransferErr ∧ w_fs w' !! (c_L C ++ q) = w_fs w !! (c_L C ++ q).
Proof.
  exists exC, rN, (e "g"). split; [in_use_now; apply dirs_ok_b; vm_compute; reflexivity|]. split; [done|]. split.
  { split; [done|]. exists (lit "/r/d"), 3%Z. split; [vm_compute; reflexivity|]. decided. }
  pose proof (reset_witness exC false false true rN (λ r w', is_err TransferErr r && node_is (w_fs w') (pL ++ e "g") (Some (Link (lit "/r/d") 3))) ltac:(vm_compute; reflexivity)) as H1.
  destruct (reset_main exC false false true rN) as [[tr w'] r]. apply andb_prop in H1 as [H1 H2].
  split; [by apply is_err_spec|]. apply node_is_spec in H2. cbn [c_L exC]. rewrite H2. vm_compute. reflexivity.
Qed.
Print Assumptions C47_unlisted_refuted.

(** ** C48 Later runs
    A second attempt looks for the files that are back already and fails; so
    does every later one. *)
Lemma rM_ready : in_use exC exM ∧ in_step exC exM ∧ plain_links exC (w_fs exM).
Proof.
  split; [in_use_now; apply dirs_ok_b; vm_compute; reflexivity|]. split; [apply in_step_b_spec; vm_compute; reflexivity|].
  apply (plain_links_b_spec exC). vm_compute. reflexivity.
Qed.
Lemma reset_crash_witness {A} C w n (f : world → A) (P : world → A → bool) :
  match (reset_main C false false true w).1.1 !! n with Some w1 => P w1 (f (reboot w1)) | None => false end = true →
  ∃ w1, w1 ∈ (reset_main C false false true w).1.1 ∧ P w1 (f (reboot w1)) = true.
Proof. destruct (_ !! n) as [w1|] eqn:E; [|done]. intros H. exists w1. split; [by eapply elem_of_list_lookup_2|done]. Qed.
Definition stuck (w1 : world) (x : list world * world * res unit) : bool :=
  is_err FileNotFound x.2 && match x.1.1 with [] => true | _ => false end && bool_decide (map_to_list (w_fs x.1.2) = map_to_list (w_fs w1)).
Lemma stuck_true : match (reset_main exC false false true exM).1.1 !! 5 with Some w1 => stuck w1 (reset_main exC false false true (reboot w1)) | None => false end = true.
Proof. vm_compute. reflexivity. Qed.
Theorem C48_rerun_refuted : ∃ C w w1, in_use C w ∧ in_step C w ∧ plain_links C (w_fs w) ∧ (∀ l, c_iter C l ≡ₚ l)
  ∧ w1 ∈ (reset_main C false false true w).1.1
  ∧ let '(states, w2, r) := reset_main C false false true (reboot w1) in r = Err FileNotFound ∧ states = [] ∧ w_fs w2 = w_fs w1.
Proof.
  destruct (reset_crash_witness exC exM 5 (reset_main exC false false true) stuck stuck_true) as (w1 & Hin & H1).
  exists exC, exM, w1. destruct rM_ready as (HrM1 & HrM2 & HrM3). split; [assumption|]. split; [assumption|]. split; [assumption|]. split; [done|]. split; [exact Hin|].
  clear Hin. revert H1. generalize (reset_main exC false false true (reboot w1)). intros [[tr w'] r] H1. unfold stuck in H1. cbn [fst snd] in H1.
  apply andb_prop in H1 as [H1 H3]. apply andb_prop in H1 as [H1 H2].
  split; [by apply is_err_spec|]. split; [by destruct tr|]. apply bool_decide_eq_true in H3. apply map_to_list_inj. by rewrite H3.
Qed.
Print Assumptions C48_rerun_refuted.
(** A sync after the interruption takes the files that are back for deleted in
    the remote directory and deletes the only copy. *)
Theorem C48_sync_refuted : ∃ C C' w w1 c, in_use C w ∧ in_step C w ∧ plain_links C (w_fs w) ∧ (∀ l, c_iter C l ≡ₚ l) ∧ (c_end C < c_now C')%Z
  ∧ w1 ∈ (reset_main C false false true w).1.1
  ∧ let '(_, w', r) := sync_main C' (ret tt) (reboot w1) in r = Ok tt ∧ destroyed c (w_fs w) (w_fs w').
Proof.
  destruct (reset_crash_witness exC exM 10 (sync_main (at_ exC 100000 40 41) (ret tt))
    (λ _ x, is_ok x.2 && lost (lit "aa") (w_fs x.1.2)) ltac:(vm_compute; reflexivity)) as (w1 & Hin & H1).
  exists exC, (at_ exC 100000 40 41), exM, w1, (lit "aa"). destruct rM_ready as (HrM1 & HrM2 & HrM3).
  split; [assumption|]. split; [assumption|]. split; [assumption|]. split; [done|]. split; [done|]. split; [exact Hin|]. clear Hin.
  revert H1. generalize (sync_main (at_ exC 100000 40 41) (ret tt) (reboot w1)). intros [[tr w'] r] H1. cbn [fst snd] in H1. apply andb_prop in H1 as [H1 H2].
  split; [by apply is_ok_spec|]. split; [|by apply lost_spec]. exists (pL ++ e "a"), 5%Z. vm_compute. reflexivity.
Qed.
Print Assumptions C48_sync_refuted.

(** C49: the version of a file that was edited since the last sync is lost. *)
Definition rU : world := upd (pL ++ e "a") (File (lit "edited") 15) exM.
Theorem C49_overwrite_refuted : ∃ C w keep q c t, in_use C w ∧ in_step C w ∧ plain_links C (w_fs w) ∧ (∀ l, c_iter C l ≡ₚ l)
  ∧ w_fs w !! (c_L C ++ q) = Some (File c t) ∧ (default 0 (w_last w) < t)%Z
  ∧ let '(_, w', r) := reset_main C keep false true w in r = Ok tt ∧ destroyed c (w_fs w) (w_fs w').
Proof.
  exists exC, rU, true, (e "a"), (lit "edited"), 15%Z. split; [in_use_now; apply dirs_ok_b; vm_compute; reflexivity|].
  split; [apply in_step_b_spec; vm_compute; reflexivity|]. split; [apply (plain_links_b_spec exC); vm_compute; reflexivity|].
  split; [done|]. split; [vm_compute; reflexivity|]. split; [done|].
  pose proof (reset_witness exC true false true rU (λ r w', is_ok r && lost (lit "edited") (w_fs w')) ltac:(vm_compute; reflexivity)) as H1.
  destruct (reset_main exC true false true rU) as [[tr w'] r]. apply andb_prop in H1 as [H1 H2].
  split; [by apply is_ok_spec|]. split; [|by apply lost_spec]. exists (pL ++ e "a"), 15%Z. vm_compute. reflexivity.
Qed.
Print Assumptions C49_overwrite_refuted.
