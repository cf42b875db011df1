(** Several clients over time: C79. *)
From Coq Require Import QArith Qcanon.
From Verif Require Export History.
From stdpp Require Import options.

(** ** Specification *)
(** No file has a time in the future. *)
Record timely (C : conf) (m : fs) (rdb : rmap) : Prop := {
  ti_now : (c_now C <= c_end C)%Z;
  ti_files : ∀ p c t, l_at C m p = Some (File c t) ∨ r_at C m p = Some (File c t) → (t <= c_end C)%Z;
  ti_rows : ∀ p d, rdb !! p = Some d → (rd_last d <= c_end C)%Z
}.
(** A round of syncs.  For each one the list has the number of the client, its
    settings, and what it excludes; [ready] holds before each sync. *)
Inductive round (ready : system → client → conf → pset → Prop) : system → list (nat * conf * pset) → system → Prop :=
  | round_none S : round ready S [] S
  | round_sync S i k C X l S' :
      s_clients S !! i = Some k → same_place (k_conf k) C → any_order C → excluded_now C (s_fs S) = X → ready S k C X →
      let w := (sync_main C (ret tt) (start S k)).1.2 in
      round ready (stop S i C w) l S' → round ready S ((i, C, X) :: l) S'.
Definition manageable (S : system) (k : client) (C : conf) (X : pset) : Prop :=
  tame C (s_fs S) (k_ldb k) (s_rdb S) (k_last k) X ∧ newer_here C (s_fs S) (k_ldb k) (s_rdb S) (k_last k) ∧ timely C (s_fs S) (s_rdb S).
Definition no_clashes (S : system) (k : client) (C : conf) (X : pset) : Prop := no_clash C (s_fs S) (k_ldb k) X.
(** A client shows the remote directory: all of it, and besides only excluded
    entries and links of the user's. *)
Definition in_step (C : conf) (m : fs) (X : pset) : Prop :=
  ∀ p, like (view C m p) (r_at C m p)
    ∨ (r_at C m p = None ∧ (p ∈ X ∨ ∃ t k, l_at C m p = Some (Link t k))).

(** ** Proofs *)
Lemma synced S i k C : history S → s_clients S !! i = Some k → same_place (k_conf k) C → any_order C →
  let X := excluded_now C (s_fs S) in
  tame C (s_fs S) (k_ldb k) (s_rdb S) (k_last k) X →
  calm C (s_fs S) (k_ldb k) (s_rdb S) (k_last k) X ∧ idle C (start S k) ∧ left_by C (s_fs S) (s_fs S) (s_rdb S)
  ∧ (peaceful C (s_fs S) (k_ldb k) (s_rdb S) (k_last k) X → clean C (s_fs S) (k_ldb k) (s_rdb S) (k_last k) X).
Proof.
  intros HS Hk Hp Ho X Hpf. apply history_orderly in HS as IH.
  assert (k ∈ s_clients S) as Hin by by eapply elem_of_list_lookup_2.
  assert (left_by C (s_fs S) (s_fs S) (s_rdb S)) as Hlb by (eapply left_place; [apply Hp..|by apply IH]).
  assert (apart (c_L C) (c_R C)) as Hap by (rewrite (sp_L _ _ Hp), (sp_R _ _ Hp); by apply IH).
  pose proof (tame_calm _ _ _ _ _ _ Hlb Hap (or_rows _ IH k Hin) Hpf) as Hc.
  split; [done|]. split; [split; [apply (lb_mounted _ _ _ _ Hlb)|done]|]. split; [done|].
  intros Hq. exact (peaceful_clean _ _ _ _ _ _ Hlb Hap (or_rows _ IH k Hin) Hq).
Qed.
(** What has happened since a sync is the doing of others. *)
Definition at_rest (S : system) (i : nat) (C : conf) (X : pset) : Prop :=
  ∃ k m rdb, s_clients S !! i = Some k ∧ same_place C (k_conf k) ∧ clean C m (k_ldb k) rdb (k_last k) X
    ∧ quiet C m (k_ldb k) (k_last k) X ∧ left_by C m (s_fs S) (s_rdb S).
Section step.
  Context (S : system) (i : nat) (k : client) (C : conf) (X : pset).
  Context (HS : history S) (Hk : s_clients S !! i = Some k) (Hp : same_place (k_conf k) C) (Ho : any_order C).
  Context (HX : excluded_now C (s_fs S) = X).
  Context (Hpf : tame C (s_fs S) (k_ldb k) (s_rdb S) (k_last k) X) (Hn : newer_here C (s_fs S) (k_ldb k) (s_rdb S) (k_last k)).
  Local Notation w' := (sync_main C (ret tt) (start S k)).1.2.
  Local Notation S' := (stop S i C w').
  Lemma step_history : history S'.
  Proof using All. apply (hs_sync S i k C); try done. by rewrite HX. Qed.
  Lemma step_outcome : peaceful C (s_fs S) (k_ldb k) (s_rdb S) (k_last k) X →
    clean C (s_fs S) (k_ldb k) (s_rdb S) (k_last k) X ∧ outcome C (s_fs S) (k_ldb k) (k_last k) X (s_fs S').
  Proof using All.
    intros Hq. rewrite <-HX in Hpf, Hq. destruct (synced S i k C HS Hk Hp Ho Hpf) as (_ & Hi & _ & Hc). specialize (Hc Hq).
    destruct (idle_sync C (start S k) (k_last k) Ho Hi eq_refl Hc) as [_ Hw].
    destruct (sync_main C (ret tt) (start S k)) as [[tr w1] r]. cbn [fst snd] in *. rewrite <-HX. split; [done|apply Hw].
  Qed.
  Lemma step_rest : timely C (s_fs S) (s_rdb S) → at_rest S' i C X.
  Proof using All.
    intros [Hnow Hmt Hrt]. rewrite <-HX in Hpf. destruct (synced S i k C HS Hk Hp Ho Hpf) as (Hc & Hi & _).
    pose proof (sync_rests C (start S k) (k_last k) Ho Hi eq_refl Hc Hn Hnow Hmt Hrt) as Hw.
    destruct (sync_main C (ret tt) (start S k)) as [[tr w1] r]. cbn [fst snd] in *. destruct Hw as (_ & Hc1 & Hq & Hlb & El & _).
    change (w_fs (start S k)) with (s_fs S) in *. rewrite HX in *.
    exists (Client C (w_ldb w1) (c_end C)), (w_fs w1), (w_rdb w1). cbn [stop s_clients s_fs s_rdb k_conf k_ldb k_last].
    split; [rewrite El; by eapply list_lookup_insert, lookup_lt_Some|]. split; [by split; [..|apply Ho]|]. split; [done|]. by split.
  Qed.
  (** For another client. *)
  Lemma step_other j l : s_clients S !! j = Some l → i ≠ j → s_clients S' !! j = Some l ∧ ∀ m0, left_by (k_conf l) m0 (s_fs S) (s_rdb S) → left_by (k_conf l) m0 (s_fs S') (s_rdb S').
  Proof using All.
    intros Hl Hij. split; [cbn; by rewrite list_lookup_insert_ne|]. intros m0 Hlb0. rewrite <-HX in Hpf.
    apply history_orderly in HS as IH. destruct (synced S i k C HS Hk Hp Ho Hpf) as (Hc & Hi & _).
    destruct (or_pair _ IH i j k l Hk Hl Hij) as [H1 H2].
    assert (left_by (k_conf l) (s_fs S) (s_fs S') (s_rdb S')) as Hnn.
    { apply (others_left (k_conf l) (s_fs S) (s_rdb S)); [eapply (or_apart _ IH), elem_of_list_lookup_2, Hl|eapply (or_left _ IH), elem_of_list_lookup_2, Hl|].
      apply (others_sync _ _ _ C (start S k) (k_last k)); try done.
      - apply others_none.
      - by rewrite (sp_R _ _ Hp).
      - rewrite (sp_L _ _ Hp). by apply apart_sym. }
    destruct Hnn as [N1 N2 N3 N4 N5 N6 N7 N8]. split; try done. intros p. rewrite N5. apply (lb_local _ _ _ _ Hlb0).
  Qed.
End step.
Lemma same_left A A' m0 m rdb : same_place A A' → left_by A m0 m rdb → left_by A' m0 m rdb.
Proof. intros Hp. apply left_place; apply Hp. Qed.
Lemma same_left' A A' m0 m rdb : same_place A A' → left_by A' m0 m rdb → left_by A m0 m rdb.
Proof. intros Hp. apply left_place; symmetry; apply Hp. Qed.
Lemma rest_step S i k C X j D Y : history S → s_clients S !! i = Some k → same_place (k_conf k) C → any_order C → excluded_now C (s_fs S) = X →
  tame C (s_fs S) (k_ldb k) (s_rdb S) (k_last k) X → newer_here C (s_fs S) (k_ldb k) (s_rdb S) (k_last k) → i ≠ j → at_rest S j D Y →
  at_rest (stop S i C (sync_main C (ret tt) (start S k)).1.2) j D Y.
Proof.
  intros HS Hk Hp Ho HX Hpf Hn Hij (l & m & rdb & Hl & Hsp & Hc & Hq & Hlb).
  destruct (step_other S i k C X HS Hk Hp Ho HX Hpf Hn j l Hl Hij) as [Hl' Hlb'].
  exists l, m, rdb. split_and!; try done. by apply (same_left' D (k_conf l)), Hlb', (same_left D).
Qed.
Lemma rest_ready S i k C C0 X : at_rest S i C0 X → s_clients S !! i = Some k → same_place (k_conf k) C → no_clash C (s_fs S) (k_ldb k) X →
  peaceful C (s_fs S) (k_ldb k) (s_rdb S) (k_last k) X ∧ newer_here C (s_fs S) (k_ldb k) (s_rdb S) (k_last k)
  ∧ ∀ p, merged C (s_fs S) (k_ldb k) (k_last k) X p = r_at C (s_fs S) p.
Proof.
  intros (k' & m & rdb & Hk' & Hsp & Hc & Hq & Hlb) Hk Hp Hnc. assert (k' = k) as -> by congruence.
  assert (c_L C = c_L C0 ∧ c_R C = c_R C0 ∧ c_id C = c_id C0) as (EL & ER & EI).
  { rewrite (sp_L _ _ Hp), (sp_R _ _ Hp), (sp_id _ _ Hp). split_and!; apply Hsp. }
  assert (no_clash C0 (s_fs S) (k_ldb k) X) as Hnc0.
  { destruct (conf_same C0 C EL ER) as (Er & _ & Es & _). destruct Hnc as [N1 N2 N3]. split.
    - intros p x n. rewrite <-Er. apply N1.
    - intros p. rewrite <-Er, <-Es. apply N2.
    - intros p q. rewrite <-Er, <-!Es. apply N3. }
  pose proof (clean_left _ _ _ _ _ _ Hc Hq _ _ Hlb Hnc0) as Hc2.
  assert (clean C (s_fs S) (k_ldb k) (s_rdb S) (k_last k) X) as Hc3.
  { apply (clean_conf C0 C); [done..| | |done].
    - by apply (new_left _ _ _ _ _ _ Hc Hq _ _ Hlb Hnc0).
    - by apply (gone_left _ _ _ _ _ _ Hc Hq _ _ Hlb Hnc0). }
  split; [|split; [by eapply clean_newer|]].
  - apply clean_peaceful; [|done]. apply (left_place C0 C); [done..|by eapply left_self].
  - intros p. destruct (conf_same C0 C EL ER) as (Er & _ & _ & Em). rewrite Em, Er. apply (merged_left _ _ _ _ _ _ Hc Hq _ _ Hlb Hnc0).
Qed.
(** A client that is in step stays so when the remote directory stays. *)
Lemma in_step_other C m m' X : (∀ p, l_at C m' p = l_at C m p) → (∀ p, like (r_at C m' p) (r_at C m p)) → in_step C m X → in_step C m' X.
Proof.
  intros El Er H p. destruct (H p) as [Hv|[Hn Hx]].
  - left. eapply like_trans; [|eapply like_trans; [exact Hv|apply like_sym, Er]]. unfold view. rewrite El.
    destruct (l_at C m p) as [[| |]|]; try apply like_refl. case_decide; [apply Er|apply like_refl].
  - right. rewrite El. split; [|done]. specialize (Er p). rewrite Hn in Er. by destruct (r_at C m' p) as [[| |]|].
Qed.
Lemma in_step_same C C' m X : same_place C C' → in_step C m X → in_step C' m X.
Proof.
  intros Hp H p. specialize (H p). destruct (conf_same C C' (sp_L _ _ Hp) (sp_R _ _ Hp)) as (Er & Ev & _).
  rewrite Er, Ev. unfold l_at in *. by rewrite (sp_L _ _ Hp).
Qed.
(** The sync of a client without changes of its own. *)
Lemma in_step_after C m ldb rdb t X m' : clean C m ldb rdb t X → outcome C m ldb t X m' → (∀ p, merged C m ldb t X p = r_at C m p) →
  in_step C m' X ∧ ∀ p, like (r_at C m' p) (r_at C m p).
Proof.
  intros Hc Ho Hm. assert (∀ p, like (r_at C m' p) (r_at C m p)) as Hr by (intros p; rewrite <-Hm; apply (oc_remote _ _ _ _ _ _ Ho)).
  split; [|done]. intros p. pose proof (view_outcome _ _ _ _ _ _ _ Hc Ho p) as Hv. destruct (decide (stray C m ldb X p)) as [Hs|Hs].
  - right. pose proof (cl_stray _ _ _ _ _ _ Hc p Hs) as Hn. split.
    + specialize (Hr p). rewrite Hn in Hr. by destruct (r_at C m' p) as [[| |]|].
    + pose proof (oc_local _ _ _ _ _ _ Ho p) as Hl. unfold shows in Hl. rewrite (merged_not_stray _ _ _ _ _ _ Hc p Hs), decide_True in Hl by done.
      rewrite Hl. destruct Hs as ([n En] & _ & [?|Hs]); [by left|right]. rewrite En. apply l_at_some in En as [_ En].
      destruct n as [| |]; [|by eauto|]; exfalso; apply Hs; unfold safe_entry; by rewrite En.
  - left. rewrite Hm in Hv. eapply like_trans; [exact Hv|]. apply like_sym, Hr.
Qed.
Lemma first_round S l S' : history S → round manageable S l S' → NoDup (l.*1.*1) →
  history S' ∧ (∀ i C X, (i, C, X) ∈ l → at_rest S' i C X)
  ∧ ∀ j D Y, j ∉ l.*1.*1 → at_rest S j D Y → at_rest S' j D Y.
Proof.
  intros HS Hr. induction Hr as [S|S i k C X l S' Hk Hp Ho HX (Hpf & Hn & Hti) w Hr IH]; intros Hd.
  - split_and!; try done. intros i C X Hin. by apply elem_of_nil in Hin.
  - cbn in Hd. apply NoDup_cons in Hd as [Hni Hd]. pose proof (step_history S i k C X HS Hk Hp Ho HX Hpf Hn) as HS1.
    destruct (IH HS1 Hd) as (H1 & H2 & H3). split; [done|]. split.
    + intros j D Y [E|Hin]%elem_of_cons; [|by apply H2]. injection E as -> -> ->. apply H3; [done|]. by apply step_rest.
    + intros j D Y Hj Hrest. cbn in Hj. apply not_elem_of_cons in Hj as [Hji Hj]. apply H3; [done|]. apply (rest_step S i k C X); done.
Qed.
Lemma second_round S l S' : history S → round no_clashes S l S' → NoDup (l.*1.*1) → (∀ i C X, (i, C, X) ∈ l → ∃ C0, at_rest S i C0 X) →
  history S'
  ∧ (∀ C k, k ∈ s_clients S → c_R C = c_R (k_conf k) → ∀ p, like (r_at C (s_fs S') p) (r_at C (s_fs S) p))
  ∧ (∀ i C X, (i, C, X) ∈ l → in_step C (s_fs S') X)
  ∧ (∀ i C X k, (i, C, X) ∈ l → k ∈ s_clients S → c_R C = c_R (k_conf k))
  ∧ ∀ j k D Y, j ∉ l.*1.*1 → s_clients S !! j = Some k → same_place (k_conf k) D → in_step D (s_fs S) Y → in_step D (s_fs S') Y.
Proof.
  intros HS Hr. induction Hr as [S|S i k C X l S' Hk Hp Ho HX Hnc w Hr IH]; intros Hd Hrest.
  - split_and!; try done; [intros C k _ _ p; apply like_refl|intros i C X Hin|intros i C X k Hin]; by apply elem_of_nil in Hin.
  - cbn in Hd. apply NoDup_cons in Hd as [Hni Hd]. destruct (Hrest i C X) as [C0 Hrest0]; [by left|].
    destruct (rest_ready S i k C C0 X Hrest0 Hk Hp Hnc) as (Hpe & Hn & Hm). pose proof (pf_tame _ _ _ _ _ _ Hpe) as Hpf.
    pose proof (step_history S i k C X HS Hk Hp Ho HX Hpf Hn) as HS1. destruct (step_outcome S i k C X HS Hk Hp Ho HX Hpf Hn Hpe) as [Hc Hoc].
    destruct (in_step_after C _ _ _ _ _ _ Hc Hoc Hm) as [Hin Hlike]. fold w in Hoc, Hin, Hlike, HS1.
    apply history_orderly in HS as Hor.
    assert (∀ C' k', k' ∈ s_clients S → c_R C' = c_R (k_conf k') → c_R C' = c_R C) as HR.
    { intros C' k' [j Hk']%elem_of_list_lookup E. rewrite E, (sp_R _ _ Hp). destruct (decide (i = j)) as [<-|Hij]; [by congruence|].
      symmetry. by apply (or_pair _ Hor i j). }
    assert (∀ C' k', k' ∈ s_clients S → c_R C' = c_R (k_conf k') → ∀ p, like (r_at C' (s_fs (stop S i C w)) p) (r_at C' (s_fs S) p)) as Hl1.
    { intros C' k' Hk' E p. unfold r_at. rewrite (HR C' k' Hk' E). apply (Hlike p). }
    destruct IH as (H1 & H2 & H3 & H5 & H4); [done|done|..].
    { intros j D Y Hj. destruct (Hrest j D Y) as [D0 HD]; [by right|]. exists D0. apply (rest_step S i k C X); try done.
      intros ->. apply Hni. apply elem_of_list_fmap. exists (j, D). split; [done|]. apply elem_of_list_fmap. by exists (j, D, Y). }
    assert (i < length (s_clients S)) as Hlt by by eapply lookup_lt_Some.
    assert (s_clients (stop S i C w) !! i = Some (Client C (w_ldb w) (default 0%Z (w_last w)))) as Hi1 by by apply list_lookup_insert.
    split; [done|]. split; [|split; [|split]].
    + intros C' k' Hk' E p. eapply like_trans; [|by eapply Hl1]. apply (H2 C' (Client C (w_ldb w) (default 0%Z (w_last w)))); [by apply (elem_of_list_lookup_2 _ i)|by apply (HR C' k')].
    + intros j D Y [E|Hj]%elem_of_cons; [|by apply (H3 j)]. injection E as -> -> ->. eapply H4; [done|done| |done]. by split; [..|apply Ho].
    + intros j D Y k' [E|Hj]%elem_of_cons Hk'; [injection E as -> -> ->|rewrite (H5 j D Y _ Hj (elem_of_list_lookup_2 _ _ _ Hi1))]; symmetry; by apply (HR (k_conf k') k').
    + intros j k' D Y Hj Hk' Hsp Hst. cbn in Hj. apply not_elem_of_cons in Hj as [Hji Hj]. 
      destruct (step_other S i k C X HS Hk Hp Ho HX Hpf Hn j k' Hk') as [Hk1 Hlb]; [done|]. eapply H4; [done|done|done|].
      eapply in_step_other; [| |done].
      * intros p. pose proof (or_left _ Hor k') as Hleft. specialize (Hlb (s_fs S)). fold w in Hlb.
        pose proof (lb_local _ _ _ _ (Hlb (Hleft (elem_of_list_lookup_2 _ _ _ Hk'))) p) as E. unfold l_at in *. by rewrite (sp_L _ _ Hsp).
      * apply (Hl1 D k'); [by eapply elem_of_list_lookup_2|apply Hsp].
Qed.

(** ** C79: several clients over time *)
(** Whatever syncs, joins and changes there were before, a sync without clashes
    succeeds and merges the two sides.
    Missing: clashes ([peaceful], and [tame] for the conflicts in the history); a
    first client with links. *)
Theorem C79_sync_partial S i k C :
  history S → s_clients S !! i = Some k → same_place (k_conf k) C → any_order C →
  let X := excluded_now C (s_fs S) in
  peaceful C (s_fs S) (k_ldb k) (s_rdb S) (k_last k) X →
  let merged := merged C (s_fs S) (k_ldb k) (k_last k) X in
  let '(_, w', r) := sync_main C (ret tt) (start S k) in
  r = Ok tt
  ∧ (∀ p, like (r_at C (w_fs w') p) (merged p))
  ∧ (∀ p, shows C (s_fs S) (k_ldb k) (k_last k) X p (l_at C (w_fs w') p))
  ∧ (∀ p, ld_dir <$> w_ldb w' !! p = is_Dir <$> merged p)
  ∧ (∀ p, rd_dir <$> w_rdb w' !! p = is_Dir <$> merged p)
  ∧ w_last w' = Some (c_end C)
  ∧ (∀ j l q, s_clients S !! j = Some l → i ≠ j → w_fs w' !! (c_L (k_conf l) ++ q) = s_fs S !! (c_L (k_conf l) ++ q)).
Proof.
  intros HS Hk Hp Ho X Hpf M. destruct (synced S i k C HS Hk Hp Ho (pf_tame _ _ _ _ _ _ Hpf)) as (_ & Hi & _ & Hc). specialize (Hc Hpf).
  pose proof (C36_merge_partial C (start S k) (k_last k) Ho Hi eq_refl Hc) as H. destruct (sync_main C (ret tt) (start S k)) as [[tr w'] r].
  destruct H as (H1 & H2 & H3 & H4 & H5 & _ & H6 & _ & _ & _ & H7). split_and!; try done.
  intros j l q Hl Hij. apply history_orderly in HS. destruct (or_pair _ HS i j k l Hk Hl Hij) as [E Ha]. apply H7.
  - rewrite (sp_L _ _ Hp). by apply apart_not_below, apart_sym.
  - rewrite (sp_R _ _ Hp), E. eapply apart_not_below, (or_apart _ HS), elem_of_list_lookup_2, Hl.
Qed.
Print Assumptions C79_sync_partial.

(** The same with conflicts: of each file in conflict both sides get the newer
    version under its name and the older one under the conflict name, and the
    rest is merged.
    Missing: other clashes ([tame]); conflicts in which the version of the client
    that syncs is not the newer one; a first client with links. *)
Theorem C79_conflict_partial S i k C :
  history S → s_clients S !! i = Some k → same_place (k_conf k) C → any_order C →
  let m := s_fs S in
  let X := excluded_now C m in
  let clash := clash C m (k_ldb k) (s_rdb S) (k_last k) in
  tame C m (k_ldb k) (s_rdb S) (k_last k) X → newer_here C m (k_ldb k) (s_rdb S) (k_last k) →
  let '(_, w', r) := sync_main C (ret tt) (start S k) in
  r = Ok tt
  ∧ (∀ p, clash p → let q := conflict_name C p in
      r_at C (w_fs w') p = l_at C m p ∧ (l_at C (w_fs w') p = l_at C m p ∨ ∃ k, l_at C (w_fs w') p = Some (Link (abs_path (c_R C ++ p)) k))
      ∧ r_at C (w_fs w') q = r_at C m p ∧ (l_at C (w_fs w') q = r_at C m p ∨ ∃ k, l_at C (w_fs w') q = Some (Link (abs_path (c_R C ++ q)) k)))
  ∧ (∀ p, ¬ clash p → (∀ q, clash q → p ≠ conflict_name C q) →
      like (r_at C (w_fs w') p) (merged C m (k_ldb k) (k_last k) X p) ∧ shows C m (k_ldb k) (k_last k) X p (l_at C (w_fs w') p))
  ∧ (∀ p, ld_dir <$> w_ldb w' !! p = is_Dir <$> r_at C (w_fs w') p)
  ∧ (∀ p, rd_dir <$> w_rdb w' !! p = is_Dir <$> r_at C (w_fs w') p)
  ∧ w_last w' = Some (c_end C)
  ∧ (∀ j l q, s_clients S !! j = Some l → i ≠ j → w_fs w' !! (c_L (k_conf l) ++ q) = m !! (c_L (k_conf l) ++ q)).
Proof.
  intros HS Hk Hp Ho m X clash Hpf Hn. destruct (synced S i k C HS Hk Hp Ho Hpf) as (Hc & Hi & _).
  destruct (idle_clash C (start S k) (k_last k) Ho Hi eq_refl Hc Hn) as [_ Hw].
  destruct (sync_main C (ret tt) (start S k)) as [[tr w'] r]. cbn [fst snd] in Hw. destruct Hw as (-> & [H1 H2 H3 H4 H5 H6 H7] & _ & Hoc & Hre & _).
  assert (∀ p, is_Dir <$> merged C (w_fs (wv C (start S k) (k_last k))) (w_ldb (wv C (start S k) (k_last k))) (k_last k) X p = is_Dir <$> r_at C (w_fs w') p) as E.
  { intros p. apply like_kind, (oc_remote _ _ _ _ _ _ Hoc). }
  split; [done|]. split; [intros p Hcl q; split_and!; [by apply H1|by apply H2|by apply H3|by apply H4]|].
  split; [intros p Hcl Hq; split; [by apply H5|by apply H6]|].
  split; [intros p; rewrite <-E; apply (re_ldb _ _ _ _ _ Hre)|]. split; [intros p; rewrite <-E; apply (re_rdb _ _ _ _ _ Hre)|].
  split; [apply (re_last _ _ _ _ _ Hre)|].
  intros j l q Hl Hij. apply history_orderly in HS. destruct (or_pair _ HS i j k l Hk Hl Hij) as [ER Ha]. apply H7.
  - rewrite (sp_L _ _ Hp). by apply apart_not_below, apart_sym.
  - rewrite (sp_R _ _ Hp), ER. eapply apart_not_below, (or_apart _ HS), elem_of_list_lookup_2, Hl.
Qed.
Print Assumptions C79_conflict_partial.

(** Every client syncs once, and then once more without changes: then all of them
    show what the remote directory has, and that is what it had after the first
    round.
    Missing: as above; file times in the future. *)
Theorem C79_converge_partial S l S1 l' S2 :
  history S → round manageable S l S1 → NoDup (l.*1.*1) → round no_clashes S1 l' S2 → NoDup (l'.*1.*1) →
  (∀ i C X, (i, C, X) ∈ l' → ∃ C0, (i, C0, X) ∈ l) →
  (∀ i C X, (i, C, X) ∈ l' → in_step C (s_fs S2) X)
  ∧ (∀ i C X, (i, C, X) ∈ l → ∀ p, like (r_at C (s_fs S2) p) (r_at C (s_fs S1) p))
  ∧ (∀ i j C D X Y p, (i, C, X) ∈ l' → (j, D, Y) ∈ l' →
      p ∉ X → p ∉ Y → (∀ t k, l_at C (s_fs S2) p = Some (Link t k) → is_Some (r_at C (s_fs S2) p)) →
      (∀ t k, l_at D (s_fs S2) p = Some (Link t k) → is_Some (r_at D (s_fs S2) p)) →
      like (view C (s_fs S2) p) (view D (s_fs S2) p)).
Proof.
  intros HS Hr Hd Hr' Hd' Hsub. destruct (first_round S l S1 HS Hr Hd) as (HS1 & Hrest & _).
  assert (∀ i C X, (i, C, X) ∈ l' → ∃ C0, at_rest S1 i C0 X) as Hrest'.
  { intros i C X Hin. destruct (Hsub i C X Hin) as [C0 H0]. exists C0. by apply Hrest. }
  destruct (second_round S1 l' S2 HS1 Hr' Hd' Hrest') as (HS2 & Hlike & Hin & HR & _).
  assert (∀ i C X, (i, C, X) ∈ l → ∃ k, s_clients S1 !! i = Some k ∧ c_R C = c_R (k_conf k)) as Hk.
  { intros i C X Hi. destruct (Hrest i C X Hi) as (k & m & rdb & Hk & Hsp & _). exists k. split; [done|]. symmetry. apply Hsp. }
  split; [done|]. split.
  - intros i C X Hi. destruct (Hk i C X Hi) as (k & H1 & H2). apply (Hlike C k); [by eapply elem_of_list_lookup_2|done].
  - intros i j C D X Y p Hi Hj HX HY HlC HlD.
    assert (∀ i C X, (i, C, X) ∈ l' → p ∉ X → (∀ t k, l_at C (s_fs S2) p = Some (Link t k) → is_Some (r_at C (s_fs S2) p)) → like (view C (s_fs S2) p) (r_at C (s_fs S2) p)) as Hv.
    { intros i' C' X' Hi' HX' Hl'. destruct (Hin i' C' X' Hi' p) as [?|[Hn [?|(t & k & E)]]]; [done|done|]. apply Hl' in E as [? ?]. congruence. }
    eapply like_trans; [by eapply Hv|]. eapply like_trans; [|by eapply like_sym, Hv].
    assert (c_R C = c_R D) as ER; [|unfold r_at; rewrite ER; apply like_refl].
    apply history_orderly in HS1. destruct (s_clients S1) as [|k ks] eqn:E; [by destruct (or_some _ HS1)|].
    trans (c_R (k_conf k)); [|symmetry]; by eapply HR; [|left].
Qed.
Print Assumptions C79_converge_partial.

(** The first client is at "/h"; the second one joins at "/i".  Then the first one
    edits "d/a", deletes "f" and makes "y"; the second one makes "nd/g" and another
    "y", later. *)
Definition hi0 : world := (init_main exP false true (first (tree_of iP) None)).1.2.
Definition hi1 : system := stop (System (tree_of iP) ∅ [Client exP ∅ 0]) 0 exP hi0.
Definition hi2 : system := System (<[pI := Dir 22%Z]> (s_fs hi1)) (s_rdb hi1) (s_clients hi1).
Definition hi3 : world := (init_main exC2 true true (joining (s_fs hi2) (s_rdb hi2))).1.2.
Definition hi4 : system := stop (System (s_fs hi2) (s_rdb hi2) (s_clients hi2 ++ [Client exC2 ∅ 0])) 1 exC2 hi3.
Definition hi_fs : fs :=
  <[pL ++ e "d" ++ e "a" := File (lit "a2") 45%Z]> (<[pL ++ e "y" := File (lit "yy") 46%Z]> (delete (pL ++ e "f")
    (<[pI ++ e "nd" := Dir 47%Z]> (<[pI ++ e "nd" ++ e "g" := File (lit "gg") 47%Z]>
      (<[pI ++ e "y" := File (lit "y2") 48%Z]> (s_fs hi4)))))).
Definition hi5 : system := System hi_fs (s_rdb hi4) (s_clients hi4).
Definition hA (n : Z) : conf := at_ exP 100000 n (n + 1).
Definition hB (n : Z) : conf := at_ exC2 100000 n (n + 1).
Definition client_of (S : system) (i : nat) : client := default (Client exP ∅ 0) (s_clients S !! i).
Definition sync_of (S : system) (i : nat) (C : conf) : system := stop S i C (sync_main C (ret tt) (start S (client_of S i))).1.2.
Definition hi6 : system := sync_of hi5 0 (hA 50).
Definition hi7 : system := sync_of hi6 1 (hB 60).
Definition hi8 : system := sync_of hi7 0 (hA 70).
Definition hi9 : system := sync_of hi8 1 (hB 80).
Lemma hi_clean0 : clean (hA 50) (s_fs hi5) (k_ldb (client_of hi5 0)) (s_rdb hi5) (k_last (client_of hi5 0)) {[ e "x" ]}.
Proof. apply clean_checked. decided. Qed.
Lemma hi_calm1 : calm (hB 60) (s_fs hi6) (k_ldb (client_of hi6 1)) (s_rdb hi6) (k_last (client_of hi6 1)) ∅.
Proof. apply calm_checked. decided. Qed.
Definition hi_clashes : list path := [e "y"].
Lemma hi_clash p : clash (hB 60) (s_fs hi6) (k_ldb (client_of hi6 1)) (s_rdb hi6) (k_last (client_of hi6 1)) p ↔ p ∈ hi_clashes.
Proof.
  split.
  - intros Hc. assert (p ∈ paths (hB 60) (s_fs hi6) (k_ldb (client_of hi6 1)) (s_rdb hi6) ∅) as Hp.
    { destruct Hc as (c & t & c' & t' & Hl & _). apply l_paths. by eexists. }
    assert (Forall (λ p, clash (hB 60) (s_fs hi6) (k_ldb (client_of hi6 1)) (s_rdb hi6) (k_last (client_of hi6 1)) p → p ∈ hi_clashes)
      (paths (hB 60) (s_fs hi6) (k_ldb (client_of hi6 1)) (s_rdb hi6) ∅)) as Hf by decided.
    rewrite Forall_forall in Hf. by apply Hf.
  - intros ->%elem_of_list_singleton. decided.
Qed.
Lemma hi_newer1 : newer_here (hB 60) (s_fs hi6) (k_ldb (client_of hi6 1)) (s_rdb hi6) (k_last (client_of hi6 1)).
Proof.
  split.
  - intros p c t c' t' ->%hi_clash%elem_of_list_singleton.
    assert (l_at (hB 60) (s_fs hi6) (e "y") = Some (File (lit "y2") 48%Z)) as -> by decided.
    assert (r_at (hB 60) (s_fs hi6) (e "y") = Some (File (lit "yy") 46%Z)) as -> by decided.
    intros [= <- <-] [= <- <-]. done.
  - intros p ->%hi_clash%elem_of_list_singleton. decided.
  - intros _ p _. exists (e "d" ++ e "a"). rewrite hi_clash. decided.
Qed.
Lemma hi_clean2 : clean (hA 70) (s_fs hi7) (k_ldb (client_of hi7 0)) (s_rdb hi7) (k_last (client_of hi7 0)) {[ e "x" ]}.
Proof. apply clean_checked. decided. Qed.
Lemma hi_clean3 : clean (hB 80) (s_fs hi8) (k_ldb (client_of hi8 1)) (s_rdb hi8) (k_last (client_of hi8 1)) ∅.
Proof. apply clean_checked. decided. Qed.
Lemma hi_joinable : joinable exC2 (s_fs hi2).
Proof. apply joinable_checked; [done|done|decided|decided|vm_compute; reflexivity]. Qed.
Lemma hi_history1 : history hi1.
Proof. apply (hs_first exP (tree_of iP)); [exact iP_new|apply names_x|done|exact iP_plain]. Qed.
Lemma hi_history2 : history hi2.
Proof.
  apply (hs_edit hi1); [exact hi_history1|decided|]. intros k Hk. assert (k_conf k = exP) as ->.
  { change (s_clients hi1) with [Client exP (w_ldb hi0) (default 0%Z (w_last hi0))] in Hk. apply elem_of_list_singleton in Hk as ->. reflexivity. }
  split; [decided|]. intros q [s ->]. apply lookup_insert_ne. discriminate.
Qed.
Lemma hi_history4 : history hi4.
Proof.
  apply (hs_join hi2 exC2 (joining (s_fs hi2) (s_rdb hi2)) true); [exact hi_history2|exact hi_joinable|done| |apply ja_first].
  intros k Hk. assert (k_conf k = exP) as ->.
  { change (s_clients hi2) with [Client exP (w_ldb hi0) (default 0%Z (w_last hi0))] in Hk. apply elem_of_list_singleton in Hk as ->. reflexivity. }
  split; [reflexivity|decided].
Qed.
Lemma hi_history5 : history hi5.
Proof.
  apply (hs_edit hi4); [exact hi_history4|decided|]. intros k Hk. assert (k_conf k = exP ∨ k_conf k = exC2) as Hor.
  { change (s_clients hi4) with [Client exP (w_ldb hi0) (default 0%Z (w_last hi0)); Client exC2 (w_ldb hi3) (default 0%Z (w_last hi3))] in Hk.
    apply elem_of_cons in Hk as [->|Hk]; [by left|]. apply elem_of_list_singleton in Hk as ->. by right. }
  split; [destruct Hor as [-> | ->]; decided|]. intros q Hq.
  assert (∃ s, q = pR ++ s) as [s ->] by (destruct Hor as [E|E]; rewrite E in Hq; exact Hq).
  unfold hi_fs. rewrite !lookup_insert_ne by discriminate. rewrite lookup_delete_ne by discriminate. rewrite !lookup_insert_ne by discriminate. reflexivity.
Qed.
(** Times are checked on all entries. *)
Lemma timely_checked C m rdb : (c_now C <= c_end C)%Z → Forall (λ kn : path * node, (mtime kn.2 <= c_end C)%Z) (map_to_list m) →
  Forall (λ pd : path * rdata, (rd_last pd.2 <= c_end C)%Z) (map_to_list rdb) → timely C m rdb.
Proof.
  intros H1 H2 H3. rewrite Forall_forall in H2. rewrite Forall_forall in H3. split; [done| |].
  - intros p c t Hp. assert (∃ k, m !! k = Some (File c t)) as [k Hk]; [|by apply elem_of_map_to_list, H2 in Hk].
    unfold l_at, r_at in Hp. destruct Hp as [Hp|Hp]; case_decide; try done; eauto.
  - intros p d Hd. by apply (H3 (p, d)), elem_of_map_to_list.
Qed.
Lemma hi_left S i C : history S → is_Some (s_clients S !! i) → same_place (k_conf (client_of S i)) C → left_by C (s_fs S) (s_fs S) (s_rdb S).
Proof.
  intros HS [k Hk] Hp. apply history_orderly in HS. unfold client_of in Hp. rewrite Hk in Hp. eapply same_left; [exact Hp|].
  eapply (or_left _ HS), elem_of_list_lookup_2, Hk.
Qed.
Example C79_example :
  history hi5
  ∧ round manageable hi5 [(0, hA 50, {[ e "x" ]}); (1, hB 60, ∅)] hi7
  ∧ clash (hB 60) (s_fs hi6) (k_ldb (client_of hi6 1)) (s_rdb hi6) (k_last (client_of hi6 1)) (e "y")
  ∧ round no_clashes hi7 [(0, hA 70, {[ e "x" ]}); (1, hB 80, ∅)] hi9
  ∧ map (view exP (s_fs hi9)) [e "d" ++ e "a"; e "f"; e "y"; conflict_name (hB 60) (e "y"); e "nd" ++ e "g"; e "x"; e "u"]
    = [Some (File (lit "a2") 45); None; Some (File (lit "y2") 48); Some (File (lit "yy") 46); Some (File (lit "gg") 47); Some (File (lit "xx") 5); Some (Link (lit "/etc") 3)]%Z
  ∧ map (view exC2 (s_fs hi9)) [e "d" ++ e "a"; e "f"; e "y"; conflict_name (hB 60) (e "y"); e "nd" ++ e "g"; e "x"; e "u"]
    = [Some (File (lit "a2") 45); None; Some (File (lit "y2") 48); Some (File (lit "yy") 46); Some (File (lit "gg") 47); None; None]%Z.
Proof.
  split; [exact hi_history5|]. split; [|split; [apply hi_clash; by left|split; [|split; decided]]].
  - assert (peaceful (hA 50) (s_fs hi5) (k_ldb (client_of hi5 0)) (s_rdb hi5) (k_last (client_of hi5 0)) {[ e "x" ]}) as Hp5.
    { apply clean_peaceful; [|exact hi_clean0]. apply (hi_left hi5 0); [exact hi_history5|by eexists|by split]. }
    assert (history hi6) as H6.
    { apply (hs_sync hi5 0 (client_of hi5 0) (hA 50)); [exact hi_history5|reflexivity|by split|done| |exact (clean_newer _ _ _ _ _ _ hi_clean0)].
      assert (excluded_now (hA 50) (s_fs hi5) = {[ e "x" ]}) as -> by decided. exact (pf_tame _ _ _ _ _ _ Hp5). }
    apply (round_sync manageable hi5 0 (client_of hi5 0) (hA 50)); [reflexivity|by split|done|decided| |].
    { split; [exact (pf_tame _ _ _ _ _ _ Hp5)|]. split; [exact (clean_newer _ _ _ _ _ _ hi_clean0)|apply timely_checked; decided]. }
    apply (round_sync manageable hi6 1 (client_of hi6 1) (hB 60)); [reflexivity|by split|done|decided| |apply round_none].
    split; [|split; [exact hi_newer1|apply timely_checked; decided]]. apply calm_tame; [|exact hi_calm1]. apply (hi_left hi6 1); [exact H6|by eexists|by split].
  - apply (round_sync no_clashes hi7 0 (client_of hi7 0) (hA 70)); [reflexivity|by split|done|decided|exact (clean_no_clash _ _ _ _ _ _ hi_clean2)|].
    apply (round_sync no_clashes hi8 1 (client_of hi8 1) (hB 80)); [reflexivity|by split|done|decided|exact (clean_no_clash _ _ _ _ _ _ hi_clean3)|apply round_none].
Qed.
