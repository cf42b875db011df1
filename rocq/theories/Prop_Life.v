(** The files of a profile: C85 (an interrupted initialization can be finished),
    C86 (or cancelled), C87 (reset), C88 (an interrupted sync). *)
From Verif Require Import LifeProofs.
From stdpp Require Import options.

(** ** Attempts to initialize a profile *)
(** Every attempt may have other answers, another outcome, and another end. *)
Inductive attempted (soft : bool) : pfiles → pfile unit → Prop :=
  | at_first r : r ≠ Empty → attempted soft no_files r
  | at_next d r add answers valid work e :
      attempted soft d r → (soft = true → ∀ n, e ≠ Killed n) →
      let x := ended e (init_life add answers valid work (start_proc d r)) in attempted soft x.1 x.2.

Lemma attempted_ok soft d r : attempted soft d r → in_order d ∧ (soft = true → finished d).
Proof.
  induction 1 as [r|d r add answers valid work e _ [Ho Hf] He x].
  - split; [|by left]. unfold in_order, no_files; simpl. split_and!; naive_solver.
  - destruct (init_ok add answers valid work d r Ho) as [Ht Hl].
    destruct (ended_in _ e _ Ht Hl) as (s & [Hs1 Hs2] & _ & [E|[[n ->] E]]); fold x in E; rewrite E.
    + destruct (at_exit_ok s (soft = false) Hs1) as [H1 H2]; [destruct soft; auto|]. split; [done|]. intros ->. by destruct H2.
    + split; [done|]. intros ->. by destruct (He eq_refl n).
Qed.

(** ** C85 *)
(** Whatever earlier attempts have left, the next one completes and sets the
    profile up as it would have been: with the options of the attempt that
    created it, and with an empty database before.
    Missing: attempts that were killed between writing info.json and writing the
    configuration file ([finished]), while info.json or the tables of the remote
    database were written, and any interruption of the latter two (refuted below
    and in C88). *)
Theorem C85_resume_partial soft d r add c valid work new :
  attempted soft d r → soft = true ∨ (f_info d = Absent ∨ ∃ c', f_cfg d = Whole c') →
  f_info d ≠ Empty → r ≠ Empty → (∀ a, f_info d ≠ Whole (Info IInitialized a)) →
  valid c = true → (∀ a c', work a c' = Ok new) →
  let '(_, s, res) := init_life add (Some c) valid work (start_proc d r) in
  res = Ok tt ∧ rem s = Whole tt ∧ ∃ a c', at_exit s = PFiles true true (Whole (Info IInitialized a)) (Whole new) (Whole c')
    ∧ (f_info d = Absent → a = add ∧ c' = c) ∧ (f_info d ≠ Absent → f_info d = Whole (Info IPartial a) ∧ f_cfg d = Whole c').
Proof.
  intros Hat Hs Hi Hr Hni Hv Hw. destruct (attempted_ok _ _ _ Hat) as [(H1 & H2 & H3 & H5 & H6 & H4) Hf].
  assert (f_info d = Absent ∨ ∃ c', f_cfg d = Whole c') as Hfd.
  { destruct Hs as [Hs|Hs]; [|done]. destruct (Hf Hs) as [->|?]; auto. }
  clear Hat Hs Hf.
  destruct d as [fd fe [| |[[] a]] fdb fc]; red_; try done; [| |by destruct (Hni a)].
  - destruct H2 as [-> ->]; [done|]. unfold init_life, generate_files, generate_remote, use_dbs, write_info, create_db, finish, disk_, bind, put, get, ret, start_proc.
    red_. rewrite Hv. destruct r as [| |[]]; try done; red_; rewrite Hw; red_; (split; [done|]); (split; [done|]); exists add, c; by rewrite (left_id_L ∅ (∪)).
  - destruct Hfd as [?|[c' Hc']]; [done|]. red_. subst fc. destruct (H3 _ eq_refl) as [rows ->]. destruct (H5 _ eq_refl) as [->|[? ?]]; [|done].
    destruct H6 as [-> ->]; [done|].
    unfold init_life, generate_files, generate_remote, use_dbs, write_info, create_db, finish, disk_, bind, put, get, ret, start_proc.
    red_. destruct r as [| |[]]; try done; red_; rewrite Hw; red_; (split; [done|]); (split; [done|]); exists a, c'; by rewrite (left_id_L ∅ (∪)).
Qed.
Print Assumptions C85_resume_partial.

(** Attempts that end by themselves or by a signal leave nothing at all, or a
    profile that the next attempt resumes. *)
Theorem C85_signal d r :
  attempted true d r → d = no_files ∨
  ∃ i rows c, d = PFiles true true i (Whole rows) (Whole c) ∧ i ≠ Absent ∧ (rows = ∅ ∨ ∃ a, i = Whole (Info IInitialized a)).
Proof.
  intros H. destruct (attempted_ok _ _ _ H) as [(H1 & H2 & H3 & H5 & H6 & H4) Hf]. destruct (Hf eq_refl) as [->|[c Hc]]; [by left|right].
  destruct d as [fd fe fi fdb fc]; red_. subst fc. destruct (H3 _ eq_refl) as [rows ->].
  assert (fi ≠ Absent) as Hi by (intros ->; by destruct H2). destruct (H6 Hi) as [-> ->].
  exists fi, rows, c. split; [done|]. split; [done|]. by apply H5.
Qed.
Print Assumptions C85_signal.

(** From now on no command does anything with the profile. *)
Definition unusable (x : exn) (d : pfiles) (r : pfile unit) : Prop :=
  (∀ add answers valid work e, ended e (init_life add answers valid work (start_proc d r)) = (d, r) ∧ (init_life add answers valid work (start_proc d r)).2 = Err x)
  ∧ (∀ work e, ended e (sync_life work (start_proc d r)) = (d, r) ∧ (sync_life work (start_proc d r)).2 = Err x)
  ∧ (∀ work order e, ended e (reset_life work order (start_proc d r)) = (d, r) ∧ (reset_life work order (start_proc d r)).2 = Err x).
(** Killed while it prompts for the directories, init leaves a profile that can
    neither be initialized nor reset: every command stops at the missing
    configuration file. *)
Theorem C85_prompt_refuted : ∃ add answers valid work n,
  let d := (ended (Killed n) (init_life add answers valid work (start_proc no_files Absent))).1 in
  attempted false d Absent ∧ f_info d = Whole (Info IPartial add) ∧ f_cfg d = Absent ∧ ∀ r, unusable FileParseErr d r.
Proof.
  exists false, (Some (Dirs [] [])), (λ _, true), (λ _ _, Ok ∅), 7. intros d.
  split; [|split; [done|split; [done|]]].
  - apply (at_next false no_files Absent false (Some (Dirs [] [])) (λ _, true) (λ _ _, Ok ∅) (Killed 7)); [by apply at_first|done].
  - subst d. intros r. split_and!.
    + intros add answers valid work [|[|[|n]]|[|[|n]]]; done.
    + intros work [|[|[|n]]|[|[|n]]]; done.
    + intros work order [|[|[|n]]|[|[|n]]]; done.
Qed.
Print Assumptions C85_prompt_refuted.
(** A signal or a kill while the tables of the remote database are created: no
    profile can be initialized with this remote directory again, as the file is
    taken for a finished database. *)
Theorem C85_tables_refuted : ∃ add answers valid work n,
  let x := ended (Signalled n) (init_life add answers valid work (start_proc no_files Absent)) in
  attempted true x.1 x.2 ∧
  (∀ add answers valid work, (init_life add (Some answers) valid work (start_proc x.1 x.2)).2 = Err OperationalErr) ∧
  (∀ add answers valid work, valid answers = true → (init_life add (Some answers) valid work (start_proc no_files x.2)).2 = Err OperationalErr).
Proof.
  exists false, (Some (Dirs [] [])), (λ _, true), (λ _ _, Ok ∅), 11. intros x.
  split; [|split].
  - apply (at_next true no_files Absent false (Some (Dirs [] [])) (λ _, true) (λ _ _, Ok ∅) (Signalled 11)); [by apply at_first|done].
  - done.
  - subst x. intros add answers valid work Hv. unfold init_life, generate_files, bind, get, ret. simpl. by rewrite Hv.
Qed.
Print Assumptions C85_tables_refuted.

(** Killed between writing info.json and committing the profile's database: the
    profile counts as initialized, init refuses it, and its database does not
    have the files. *)
Theorem C85_rows_refuted : ∃ add answers valid new n,
  let x := ended (Killed n) (init_life add answers valid (λ _ _, Ok new) (start_proc no_files Absent)) in
  attempted false x.1 x.2 ∧ new ≠ ∅ ∧ f_db x.1 = Whole ∅ ∧
  ∀ add answers valid work e, ended e (init_life add answers valid work (start_proc x.1 x.2)) = x ∧ (init_life add answers valid work (start_proc x.1 x.2)).2 = Err InputErr.
Proof.
  exists false, (Some (Dirs [] [])), (λ _, true), {[ lit "a" ]}, 14. intros x.
  split; [|split; [|split]].
  - apply (at_next false no_files Absent false (Some (Dirs [] [])) (λ _, true) (λ _ _, Ok {[ lit "a" ]}) (Killed 14)); [by apply at_first|done].
  - set_solver.
  - done.
  - intros add answers valid work [|[|[|n]]|[|[|n]]]; done.
Qed.
Print Assumptions C85_rows_refuted.

Example C85_ex :
  let c := Dirs (lit "/h") (lit "/r") in
  let x := ended (Killed 12) (init_life true (Some c) (λ _, true) (λ _ _, Ok {[ lit "a" ]}) (start_proc no_files Absent)) in
  attempted false x.1 x.2 ∧ x = (PFiles true true (Whole (Info IPartial true)) (Whole ∅) (Whole c), Whole tt) ∧
  (ended Completes (init_life false None (λ _, true) (λ _ _, Ok {[ lit "a" ]}) (start_proc x.1 x.2))).1
    = PFiles true true (Whole (Info IInitialized true)) (Whole {[ lit "a" ]}) (Whole c).
Proof.
  intros c x. split; [|split].
  - apply (at_next false no_files Absent true (Some c) (λ _, true) (λ _ _, Ok {[ lit "a" ]}) (Killed 12)); [by apply at_first|done].
  - done.
  - assert (∅ ∪ {[ lit "a" ]} =@{gset str} {[ lit "a" ]}) as E by set_solver. transitivity (PFiles true true (Whole (Info IInitialized true)) (Whole (∅ ∪ {[ lit "a" ]})) (Whole c)); [done|by rewrite E].
Qed.
(** A failed one leaves nothing, an interrupted one that was past the checks a
    profile to resume. *)
Example C85_signal_ex :
  let c := Dirs (lit "/h") (lit "/r") in
  let run := init_life true (Some c) (λ _, true) (λ _ _, Err RemoteErr) (start_proc no_files Absent) in
  (ended (Signalled 9) run).1 = no_files ∧ (ended Completes run).1 = PFiles true true (Whole (Info IPartial true)) (Whole ∅) (Whole c)
  ∧ (ended Completes (init_life true (Some c) (λ _, false) (λ _ _, Ok ∅) (start_proc no_files Absent))).1 = no_files.
Proof. done. Qed.

(** ** C86 *)
(** 'zielen reset' does not cancel an interrupted initialization, whatever the
    interruption was and whatever reset would find: it changes nothing.  There
    are such interruptions. *)
Theorem C86_cancel_refuted :
  (∃ d r, attempted true d r ∧ ∃ a, f_info d = Whole (Info IPartial a)) ∧
  ∀ soft d r a, attempted soft d r → f_info d = Whole (Info IPartial a) →
  ∀ work order e, ended e (reset_life work order (start_proc d r)) = (d, r) ∧ ∃ x, (reset_life work order (start_proc d r)).2 = Err x ∧ (x = InputErr ∨ x = FileParseErr).
Proof.
  split.
  - eexists _, _. split.
    + apply (at_next true no_files Absent false (Some (Dirs [] [])) (λ _, true) (λ _ _, Err RemoteErr) Completes); [by apply at_first|done].
    + by exists false.
  - intros soft d r a Hat Hi work order e. destruct (attempted_ok _ _ _ Hat) as [(H1 & H2 & H3 & H5 & H6 & H4) _].
    destruct d as [fd fe fi fdb fc]; red_. subst fi. destruct H6 as [-> ->]; [done|].
    destruct fc as [| |c].
    1-2: split; [by destruct e as [|[|n]|[|n]]|]; exists FileParseErr; auto.
    split; [by destruct e as [|[|n]|[|n]]|]. exists InputErr. auto.
Qed.
Print Assumptions C86_cancel_refuted.

(** ** C87 *)
Definition initialized (d : pfiles) : Prop :=
  f_dir d = true ∧ (∃ a, f_info d = Whole (Info IInitialized a)) ∧ ∃ c, f_cfg d = Whole c.
Lemma reset_wp work order d r (R : proc → Prop) (Q : res unit → proc → Prop) :
  initialized d →
  (∀ e, work = Err e → Q (Err e) (start_proc d r)) →
  (∀ pre post, order = pre ++ post → R (start_proc (rm_all pre d) r)) →
  R (start_proc (set_dir false (rm_all order d)) r) →
  (work = Ok tt → Q (Ok tt) (start_proc (set_dir false (rm_all order d)) r)) →
  wp (reset_life work order) R Q (start_proc d r).
Proof.
  intros (Hd & [a Hi] & [c Hc]) He HR HR' HQ. unfold reset_life, setup_profile. apply wp_bind, wp_bind, wp_get. red_. rewrite Hd. red_. unfold read_profile. rewrite Hi, Hc.
  apply wp_ret. destruct work as [[]|e]; [|apply wp_throw; by apply He].
  apply wp_bind, rm_all_wp; [by apply HR|]. apply wp_put; [done|]. by apply HQ.
Qed.
(** A completed reset leaves nothing of the profile. *)
Theorem C87_gone d r order :
  initialized d → (∀ x, x ∈ order) →
  (reset_life (Ok tt) order (start_proc d r)).2 = Ok tt ∧ ended Completes (reset_life (Ok tt) order (start_proc d r)) = (no_files, r).
Proof.
  intros Hi Ho. destruct (reset_wp (Ok tt) order d r (λ _, True) (λ x s, x = Ok tt ∧ s = start_proc no_files r)) as [_ [H1 H2]]; auto.
  { done. } { by rewrite rm_all_gone. }
  unfold ended. by rewrite H1, H2.
Qed.
Print Assumptions C87_gone.
(** ** C86 again *)
(** What is left of the claim: reset removes the profile once the initialization
    is finished.  The hypotheses are those of C85_resume_partial. *)
Theorem C86_finish_first_partial soft d r add c valid work new order :
  attempted soft d r → soft = true ∨ (f_info d = Absent ∨ ∃ c', f_cfg d = Whole c') →
  f_info d ≠ Empty → r ≠ Empty → (∀ a, f_info d ≠ Whole (Info IInitialized a)) →
  valid c = true → (∀ a c', work a c' = Ok new) → (∀ x, x ∈ order) →
  let x := ended Completes (init_life add (Some c) valid work (start_proc d r)) in
  ended Completes (reset_life (Ok tt) order (start_proc x.1 x.2)) = (no_files, Whole tt).
Proof.
  intros H1 H2 H3 H4 H5 H6 H7 Ho x. pose proof (C85_resume_partial soft d r add c valid work new H1 H2 H3 H4 H5 H6 H7) as H.
  unfold ended in x. destruct (init_life add (Some c) valid work (start_proc d r)) as [[tr s] res]. cbn [fst snd] in x.
  destruct H as (_ & Hr & a & c' & E & _). subst x. rewrite E, Hr. apply C87_gone; [|done]. split_and!; simpl; eauto.
Qed.
Print Assumptions C86_finish_first_partial.
(** A reset that is interrupted, in whatever order it removes the files, can be
    repeated: it completes, and nothing is left.
    Missing: interruptions after info.json or the configuration file is removed
    (refuted below). *)
Theorem C87_again_partial d r work order e order' :
  initialized d → (∀ x, x ∈ order) → (∀ x, x ∈ order') →
  let x := ended e (reset_life work order (start_proc d r)) in
  f_info x.1 ≠ Absent → f_cfg x.1 ≠ Absent →
  (reset_life (Ok tt) order' (start_proc x.1 x.2)).2 = Ok tt ∧ ended Completes (reset_life (Ok tt) order' (start_proc x.1 x.2)) = (no_files, r).
Proof.
  intros Hi Ho Ho' x Hxi Hxc.
  assert (x.2 = r ∧ initialized x.1) as [-> Hx]; [|by apply C87_gone].
  set (R s := rem s = r ∧ on_delete s = false ∧ on_cleanup s = false ∧ (f_info (disk s) ≠ Absent → f_cfg (disk s) ≠ Absent → initialized (disk s))).
  assert (wp (reset_life work order) R (λ _ s, R s) (start_proc d r)) as [Ht Hl].
  { apply reset_wp; [done|..].
    - intros _ _. do 3 (split; [done|]). done.
    - intros pre post _. do 3 (split; [done|]). intros Hi' Hc'. destruct Hi as (Hd & Hi & Hc). red_.
      unfold initialized. rewrite rm_dir. destruct (rm_info pre d) as [[?| ->] _]; [done|]. destruct (rm_cfg pre d) as [[?| ->] _]; [done|]. done.
    - do 3 (split; [done|]). intros []. by rewrite rm_all_gone.
    - do 3 (split; [done|]). intros []. by rewrite rm_all_gone. }
  destruct (ended_in _ e _ Ht Hl) as (s & (Hr & Hd & Hc & Hs) & Hx & Hx'). fold x in Hx, Hx'.
  assert (x.1 = disk s) as E. { destruct Hx' as [->|[_ ->]]; [|done]. unfold at_exit. by rewrite Hd, Hc. }
  rewrite E in *. split; [by rewrite <- Hx|auto].
Qed.
Print Assumptions C87_again_partial.
(** Killed after info.json is removed, reset leaves a profile that it does not
    accept any more, and neither does sync; init takes it for a new one and keeps
    the rows of the old database. *)
Theorem C87_stuck_refuted : ∃ d order n, initialized d ∧ (∀ x, x ∈ order) ∧
  let x := ended (Killed n) (reset_life (Ok tt) order (start_proc d (Whole tt))) in
  (∀ work order' e, ended e (reset_life work order' (start_proc x.1 x.2)) = x ∧ (reset_life work order' (start_proc x.1 x.2)).2 = Err FileNotFound) ∧
  (∀ work e, ended e (sync_life work (start_proc x.1 x.2)) = x ∧ (sync_life work (start_proc x.1 x.2)).2 = Err FileNotFound) ∧
  ∃ rows, rows ≠ ∅ ∧ ∀ add c valid new, valid c = true →
    (ended Completes (init_life add (Some c) valid (λ _ _, Ok new) (start_proc x.1 x.2))).1 = PFiles true true (Whole (Info IInitialized add)) (Whole (rows ∪ new)) (Whole c).
Proof.
  exists (PFiles true true (Whole (Info IInitialized false)) (Whole {[ lit "a" ]}) (Whole (Dirs [] []))), [NInfo; NExclude; NDb; NCfg], 0.
  split; [by split_and!; eauto|]. split; [intros []; set_solver|]. intros x. split_and!.
  - intros work order' [|[|n]|[|n]]; done.
  - intros work [|[|n]|[|n]]; done.
  - exists {[ lit "a" ]}. split; [set_solver|]. intros add c valid new Hv. subst x.
    unfold init_life, generate_files, bind, get, ret. cbn. rewrite Hv. done.
Qed.
Print Assumptions C87_stuck_refuted.
Example C87_ex :
  let d := PFiles true true (Whole (Info IInitialized false)) (Whole {[ lit "a" ]}) (Whole (Dirs [] [])) in
  let x := ended (Killed 1) (reset_life (Ok tt) [NDb; NExclude; NCfg; NInfo] (start_proc d (Whole tt))) in
  initialized d ∧ x = (PFiles true false (Whole (Info IInitialized false)) Absent (Whole (Dirs [] [])), Whole tt)
  ∧ ended Completes (reset_life (Ok tt) all_names (start_proc x.1 x.2)) = (no_files, Whole tt).
Proof. split; [by split_and!; eauto|]. done. Qed.

(** ** C88 *)
(** After a sync that completes, fails, is interrupted or killed, the profile is
    as before apart from the rows of its database, which are those of before or
    those the sync ended with; the next sync and a reset complete.
    Missing: interruptions while info.json is rewritten (refuted below). *)
Theorem C88_usable_partial d rows work e work' order :
  initialized d → f_db d = Whole rows → (∀ rows, ∃ rows', work' rows = Ok rows') → (∀ x, x ∈ order) →
  let x := ended e (sync_life work (start_proc d (Whole tt))) in
  f_info x.1 ≠ Empty →
  x.2 = Whole tt ∧ (x.1 = d ∨ ∃ rows', work rows = Ok rows' ∧ x.1 = set_db (Whole rows') d)
  ∧ (sync_life work' (start_proc x.1 x.2)).2 = Ok tt
  ∧ (reset_life (Ok tt) order (start_proc x.1 x.2)).2 = Ok tt ∧ ended Completes (reset_life (Ok tt) order (start_proc x.1 x.2)) = (no_files, Whole tt).
Proof.
  intros Hin Hdb Hw Ho x Hx.
  set (R s := rem s = Whole tt ∧ on_delete s = false ∧ on_cleanup s = false ∧
    (f_info (disk s) ≠ Empty → disk s = d ∨ ∃ rows', work rows = Ok rows' ∧ disk s = set_db (Whole rows') d)).
  assert (wp (sync_life work) R (λ _ s, R s) (start_proc d (Whole tt))) as [Ht Hl].
  { destruct d as [fd fe fi fdb fc]. destruct Hin as (Hd & [a Hi] & [c Hc]). red_. subst.
    unfold sync_life, setup_profile, use_dbs, finish, write_info, disk_.
    apply wp_bind, wp_bind, wp_get. red_. apply wp_ret. apply wp_bind, wp_bind, wp_get. red_. apply wp_ret.
    destruct (work rows) as [rows'|e'] eqn:E; [|apply wp_throw; unfold R; red_; by auto].
    apply wp_bind, wp_bind, wp_put; [by unfold R; red_|]. apply wp_put; [by unfold R; red_; auto|]. apply wp_put; unfold R; red_; (do 3 (split; [done|])); eauto. }
  destruct (ended_in _ e _ Ht Hl) as (s & (Hr & Hd & Hc & Hs) & Hx1 & Hx'). fold x in Hx1, Hx'.
  assert (x.1 = disk s) as E. { destruct Hx' as [->|[_ ->]]; [|done]. unfold at_exit. by rewrite Hd, Hc. }
  rewrite <- E in Hs. specialize (Hs Hx). assert (x.2 = Whole tt) as -> by (by rewrite <- Hx1). clearbody x.
  split; [done|]. split; [done|].
  assert (initialized x.1 ∧ ∃ rows1, f_db x.1 = Whole rows1) as [Hi1 [rows1 Hr1]].
  { destruct Hs as [->|(rows' & _ & ->)]; eauto. }
  split; [|by apply C87_gone].
  destruct (x.1) as [fd fe fi fdb fc], Hi1 as (H1 & [a H2] & [c H3]). red_. subst. destruct (Hw rows1) as [rows2 E2].
  unfold sync_life, setup_profile, use_dbs, bind, get, ret, start_proc. red_. rewrite E2. done.
Qed.
Print Assumptions C88_usable_partial.
(** Interrupted or killed while info.json is rewritten, at the end of every sync:
    the file is empty, and no command does anything with the profile any more. *)
Theorem C88_info_refuted : ∃ d rows work n, initialized d ∧ f_db d = Whole rows ∧
  ∀ e, e = Signalled n ∨ e = Killed n →
  let x := ended e (sync_life work (start_proc d (Whole tt))) in x.2 = Whole tt ∧ unusable ValueErr x.1 x.2.
Proof.
  exists (PFiles true true (Whole (Info IInitialized false)) (Whole {[ lit "a" ]}) (Whole (Dirs [] []))), {[ lit "a" ]}, (λ rows, Ok rows), 0.
  split; [by split_and!; eauto|]. split; [done|]. intros e [->| ->]; (split; [done|]); unfold unusable; split_and!.
  all: try (intros add answers valid work [|[|[|n]]|[|[|n]]]; done).
  all: try (intros work order' [|[|n]|[|n]]; done).
  all: intros work [|[|n]|[|n]]; done.
Qed.
Print Assumptions C88_info_refuted.
Example C88_ex :
  let d := PFiles true true (Whole (Info IInitialized false)) (Whole {[ lit "a" ]}) (Whole (Dirs [] [])) in
  let x := ended (Killed 1) (sync_life (λ _, Ok {[ lit "b" ]}) (start_proc d (Whole tt))) in
  initialized d ∧ x = (d, Whole tt) ∧ ended Completes (sync_life (λ _, Ok {[ lit "b" ]}) (start_proc d (Whole tt))) = (set_db (Whole {[ lit "b" ]}) d, Whole tt).
Proof. split; [by split_and!; eauto|]. done. Qed.

(** ** C85: an attempt that fails
    One that is given no directories, or ones that are not accepted, leaves
    nothing of a profile; one that fails after that leaves a profile to resume,
    which does not count as initialized. *)
Theorem C85_refused add answers valid work r :
  (∀ c, answers = Some c → valid c = false) →
  let '(_, s, res) := init_life add answers valid work (start_proc no_files r) in
  at_exit s = no_files ∧ rem s = r ∧ ∃ x, res = Err x.
Proof.
  intros H. destruct answers as [c|]; [specialize (H c eq_refl)|clear H].
  - cbv. rewrite H. split_and!; [reflexivity..|by eexists].
  - cbv. split_and!; [reflexivity..|by eexists].
Qed.
Print Assumptions C85_refused.
Theorem C85_failed add c valid work r x :
  r ≠ Empty → valid c = true → work add c = Err x →
  let '(_, s, res) := init_life add (Some c) valid work (start_proc no_files r) in
  res = Err x ∧ at_exit s = PFiles true true (Whole (Info IPartial add)) (Whole ∅) (Whole c).
Proof.
  intros Hr Hv Hw. destruct r as [| |[]]; [|done|].
  all: cbv; rewrite Hv, Hw; split; reflexivity.
Qed.
Print Assumptions C85_failed.
Example C85_refused_ex :
  let c := Dirs (lit "/h") (lit "/r") in
  (∀ c', Some c = Some c' → (λ _ : dirs, false) c' = false) ∧ (Absent : pfile unit) ≠ Empty ∧ (λ _ : dirs, true) c = true
  ∧ (λ (_ : bool) (_ : dirs), Err RemoteErr : res (gset str)) true c = Err RemoteErr.
Proof. by split_and!. Qed.
