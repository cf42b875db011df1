(** Histories: several clients are set up, their users change files, and the
    clients sync, in any order.  What the program relies on then holds at every
    point, so that a sync needs no more than changes that do not clash. *)
From Coq Require Import QArith Qcanon.
From Verif Require Export Prop_Joined Prop_Init.
From stdpp Require Import options.

(** ** Specification *)
(** A client: its settings when it last ran, its database, and the time of its
    last sync. *)
Record client := Client { k_conf : conf; k_ldb : lmap; k_last : Z }.
Record system := System { s_fs : fs; s_rdb : rmap; s_clients : list client }.
(** A command starts with what is stored. *)
Definition start (S : system) (k : client) : world := reboot (World (s_fs S) (k_ldb k) (s_rdb S) (Some (k_last k)) ∅ ∅ ∅ ∅ None).
Definition stop (S : system) (i : nat) (C : conf) (w : world) : system :=
  System (w_fs w) (w_rdb w) (<[i := Client C (w_ldb w) (default 0%Z (w_last w))]> (s_clients S)).

(** The changes on the two sides do not clash, except that a file may have been
    edited on both or be new on both.  The conditions are those of [calm] that
    depend on what users do. *)
Section peaceful.
  Context (C : conf) (m : fs) (ldb : lmap) (rdb : rmap) (last_sync : Z) (X : pset).
  Local Notation l_at := (l_at C m).
  Local Notation r_at := (r_at C m).
  Local Notation known := (Merge.known ldb).
  Local Notation stray := (stray C m ldb X).
  Local Notation new_l := (new_l C m ldb X).
  Local Notation gone_l := (gone_l C m ldb).
  Local Notation gone_r := (gone_r C m ldb).
  Local Notation edited_l := (edited_l C m ldb last_sync).
  Local Notation edited_r := (edited_r C m ldb rdb last_sync).
  Local Notation trashed := (trashed C m ldb).
  Record tame : Prop := {
    (** The local directory has no directory of the program's name. *)
    pf_util : ∀ p, zielen_dir `prefix_of` p → l_at p = None;
    (** No file became a directory, or the reverse. *)
    pf_kind : ∀ p d n, ldb !! p = Some d → l_at p = Some n ∨ r_at p = Some n → is_Dir n = ld_dir d;
    (** The links are those of the program, and stray ones. *)
    pf_link : ∀ p t k, l_at p = Some (Link t k) → (known p ∧ t = abs_path (c_R C ++ p)) ∨ stray p;
    (** Stray entries. *)
    pf_excluded : ∀ p, p ∈ X → is_Some (l_at p) ∧ ¬ known p;
    pf_stray : ∀ p, stray p → r_at p = None;
    pf_stray_up : ∀ p q, stray p → q `prefix_of` p → q ≠ p → q ≠ [] → stray q ∨ (known q ∧ is_Some (r_at q));
    pf_stray_down : ∀ p q, stray q → q `prefix_of` p → is_Some (l_at p) → stray p;
    pf_echo : ∀ p x t k, p ≠ [] → last p = Some x → stray (p ++ [x]) → l_at (p ++ [x]) ≠ Some (Link t k);
    (** What is new on both sides is a file on both or a directory on both, and
        nothing is deleted on both sides. *)
    pf_new_kind : ∀ p n n', ¬ known p → l_at p = Some n → r_at p = Some n' → is_Dir n = is_Dir n';
    pf_deleted : ∀ p, gone_l p → ¬ gone_r p;
    (** Nothing is edited on one side and deleted on the other, or new in a
        directory that is deleted on the other side. *)
    pf_gone : ∀ p, gone_l p ∨ gone_r p → ¬ edited_l p ∧ ¬ edited_r p;
    pf_gone_l : ∀ p q, gone_l p → p `prefix_of` q → is_Some (r_at q) → known q;
    pf_gone_r : ∀ p q, gone_r p → p `prefix_of` q → is_Some (l_at q) → known q;
    (** A new directory is not empty, or is in another one. *)
    pf_empty : ∀ p t, new_l p → l_at p = Some (Dir t) → r_at p = None → (∃ x, is_Some (l_at (p ++ [x]))) ∨ new_l (parent p);
    (** With "InflatePriority": a file of the last sync is still there. *)
    pf_inflate : c_inflate C = true → (∃ p, new_l p) → ∃ p, ld_dir <$> ldb !! p = Some false ∧ is_Some (l_at p) ∧ is_Some (r_at p);
    (** The names of what goes to the trash are different and free. *)
    pf_names : ∀ p q, trashed p → trashed q → last p = last q → p = q;
    pf_free : ∀ p x, trashed p → last p = Some x → m !! (trash_dir C ++ [x]) = None
  }.
  (** No conflicts either: no file is edited on both sides or new on both, unless
      it is the same on both. *)
  Record peaceful : Prop := {
    pf_tame : tame;
    pf_calm : ∀ p, ¬ clash C m ldb rdb last_sync p
  }.
End peaceful.

(** What can have happened. *)
Inductive history : system → Prop :=
  (** The first client is set up with its files, and no links among them. *)
  | hs_first C m0 :
      new_dirs C m0 → names_only C m0 → any_order C → plain_files C m0 →
      let w := (init_main C false true (first m0 None)).1.2 in
      history (stop (System m0 ∅ [Client C ∅ 0]) 0 C w)
  (** Another one joins, perhaps after interrupted attempts. *)
  | hs_join S C w fits :
      history S → joinable C (s_fs S) → any_order C →
      (∀ k, k ∈ s_clients S → c_R C = c_R (k_conf k) ∧ apart (c_L (k_conf k)) (c_L C)) →
      join_attempts C (s_fs S) (s_rdb S) w →
      let w' := (init_main C true fits w).1.2 in
      history (stop (System (s_fs S) (s_rdb S) (s_clients S ++ [Client C ∅ 0])) (length (s_clients S)) C w')
  (** The users change anything except the remote directory; the local
      directories stay. *)
  | hs_edit S m :
      history S → wf_fs m →
      (∀ k, k ∈ s_clients S → dir_at m (c_L (k_conf k)) ∧ ∀ q, c_R (k_conf k) `prefix_of` q → m !! q = s_fs S !! q) →
      history (System m (s_rdb S) (s_clients S))
  (** A client syncs, perhaps with other settings and at any time.  Of each file
      in conflict its version is the newer one. *)
  | hs_sync S i k C :
      history S → s_clients S !! i = Some k → same_place (k_conf k) C → any_order C →
      tame C (s_fs S) (k_ldb k) (s_rdb S) (k_last k) (excluded_now C (s_fs S)) →
      newer_here C (s_fs S) (k_ldb k) (s_rdb S) (k_last k) →
      let w := (sync_main C (ret tt) (start S k)).1.2 in
      history (stop S i C w).

(** ** Proofs *)
(** What holds at every point. *)
Record orderly (S : system) : Prop := {
  or_some : s_clients S ≠ [];
  or_left : ∀ k, k ∈ s_clients S → left_by (k_conf k) (s_fs S) (s_fs S) (s_rdb S);
  or_apart : ∀ k, k ∈ s_clients S → apart (c_L (k_conf k)) (c_R (k_conf k));
  or_rows : ∀ k, k ∈ s_clients S → rows (λ p, ld_dir <$> k_ldb k !! p);
  or_pair : ∀ i j k l, s_clients S !! i = Some k → s_clients S !! j = Some l → i ≠ j →
    c_R (k_conf k) = c_R (k_conf l) ∧ apart (c_L (k_conf k)) (c_L (k_conf l))
}.
Lemma tame_calm C m ldb rdb last_sync X :
  left_by C m m rdb → apart (c_L C) (c_R C) → rows (λ p, ld_dir <$> ldb !! p) → tame C m ldb rdb last_sync X → calm C m ldb rdb last_sync X.
Proof.
  intros Hb Ha Hr H.
  assert (∀ p b, ld_dir <$> ldb !! p = Some b → ∃ d, ldb !! p = Some d ∧ ld_dir d = b) as Hf.
  { intros p b. destruct (ldb !! p) as [d|]; [|done]. intros [= <-]. eauto. }
  assert (∀ p b n, ld_dir <$> ldb !! p = Some b → r_at C m p = Some n → is_Dir n = b) as Hk.
  { intros p b n (d & Hd & <-)%Hf E. eapply (pf_kind _ _ _ _ _ _ H); eauto. }
  assert (∀ p b, rd_dir <$> rdb !! p = Some b ↔ ∃ n, r_at C m p = Some n ∧ is_Dir n = b) as Hrr.
  { intros p b. rewrite (lb_rdb _ _ _ _ Hb). destruct (r_at C m p) as [n|]; cbn; [|naive_solver]. split; [intros [= <-]; eauto|by intros (? & [= <-] & <-)]. }
  apply calm_intro; try apply H; try apply Hb; try done.
  - intros p b n (d & Hd & <-)%Hf E. eapply (pf_kind _ _ _ _ _ _ H); eauto.
  - intros p b n [E|(n' & E & <-)%Hrr] En; [by eapply Hk|congruence].
  - intros p b b' E (n & En & <-)%Hrr. symmetry. by eapply Hk.
  - intros p _ Hs. by apply (lb_listed _ _ _ _ Hb).
  - intros p Hs. right. by apply (lb_listed _ _ _ _ Hb) in Hs.
  - intros p Hg. apply (lb_listed _ _ _ _ Hb). destruct (r_at C m p) eqn:E; [by eexists|]. exfalso.
    apply (pf_deleted _ _ _ _ _ _ H p Hg). split; [apply Hg|done].
Qed.
Lemma peaceful_clean C m ldb rdb last_sync X :
  left_by C m m rdb → apart (c_L C) (c_R C) → rows (λ p, ld_dir <$> ldb !! p) → peaceful C m ldb rdb last_sync X → clean C m ldb rdb last_sync X.
Proof. intros Hb Ha Hr H. apply clean_of; [by apply tame_calm, H|apply H]. Qed.
Lemma calm_tame C m ldb rdb last_sync X :
  left_by C m m rdb → calm C m ldb rdb last_sync X → tame C m ldb rdb last_sync X.
Proof.
  intros Hb Hc. split; try apply Hc.
  - intros p d n Hd [E|E]; [apply (cl_kind_l _ _ _ _ _ _ Hc p)|apply (cl_kind_r _ _ _ _ _ _ Hc p); [left|done]]; try done; by rewrite Hd.
  - apply (cl_excluded _ _ _ _ _ _ Hc).
  - intros p Hg [_ E]. apply (cl_deleted _ _ _ _ _ _ Hc), (lb_listed _ _ _ _ Hb) in Hg as [? ?]. congruence.
Qed.
Lemma clean_peaceful C m ldb rdb last_sync X :
  left_by C m m rdb → clean C m ldb rdb last_sync X → peaceful C m ldb rdb last_sync X.
Proof. intros Hb Hc. split; [apply calm_tame; [done|by apply clean_calm]|apply (cl_no_clash _ _ _ _ _ _ Hc)]. Qed.
Lemma left_place A A' m0 m rdb : c_L A' = c_L A → c_R A' = c_R A → c_id A' = c_id A → left_by A m0 m rdb → left_by A' m0 m rdb.
Proof.
  intros EL ER Eid [H1 H2 H3 H4 H5 H6 H7 H8].
  assert (util_dir A' = util_dir A) as Eu by (unfold util_dir; by rewrite ER).
  assert (trash_dir A' = trash_dir A) as Et by (unfold trash_dir; by rewrite Eu).
  assert (exclude_dir A' = exclude_dir A) as Ee by (unfold exclude_dir; by rewrite Eu).
  assert (∀ m p, r_at A' m p = r_at A m p) as Er by (intros; unfold r_at; by rewrite ER).
  assert (∀ m p, l_at A' m p = l_at A m p) as El by (intros; unfold l_at; by rewrite EL).
  split; try done.
  - destruct H1. split; by rewrite ?EL, ?ER.
  - destruct H2 as [U1 U2 U3]. unfold exclude_file in *. split; [by rewrite Ee|by rewrite Eid|unfold exclude_file; by rewrite Ee, Eid].
  - by rewrite Et.
  - intros x. by rewrite Et.
  - intros p. by rewrite !El.
  - intros p. by rewrite Er.
  - intros p t k. by rewrite Er.
Qed.
(** What a sync leaves to the client itself. *)
Lemma sync_own C m ldb rdb t X w : clean C m ldb rdb t X → outcome C m ldb t X (w_fs w) →
  (∀ p, ld_dir <$> w_ldb w !! p = is_Dir <$> merged C m ldb t X p) → (∀ p, rd_dir <$> w_rdb w !! p = is_Dir <$> merged C m ldb t X p) →
  left_by C (w_fs w) (w_fs w) (w_rdb w) ∧ rows (λ p, ld_dir <$> w_ldb w !! p).
Proof.
  intros Hc Ho Hl Hr.
  assert (rows (λ p, is_Dir <$> merged C m ldb t X p)) as HM.
  { intros p b (n & Hn & ->)%fmap_Some. split; [by apply (merged_ours _ _ _ _ _ _ Hc _ n)|].
    destruct (merged_parent _ _ _ _ _ _ Hc _ _ Hn) as [?|[k Hk]]; [by left|right]. by rewrite Hk. }
  split; [split|].
  - apply (oc_mounted _ _ _ _ _ _ Ho).
  - apply (oc_util _ _ _ _ _ _ Ho).
  - apply (oc_trash _ _ _ _ _ _ Ho).
  - apply (oc_trash_links _ _ _ _ _ _ Ho).
  - done.
  - intros p. rewrite Hr. apply like_kind, (oc_remote _ _ _ _ _ _ Ho).
  - intros p b. rewrite !Hr. apply HM.
  - intros p x k E. pose proof (oc_remote _ _ _ _ _ _ Ho p) as H. rewrite E in H. cbn in H. symmetry in H. by apply (merged_no_link _ _ _ _ _ _ Hc) in H.
  - intros p b. rewrite !Hl. apply HM.
Qed.
Lemma left_self A m0 m rdb : left_by A m0 m rdb → left_by A m m rdb.
Proof. intros [H1 H2 H3 H4 H5 H6 H7 H8]. by split. Qed.
(** The rows of a database that lists what is there. *)
Lemma listed_rows C m (dir : path → option bool) : wf_fs m → (∀ p, dir p = is_Dir <$> r_at C m p) → rows dir.
Proof.
  intros Hwf H p b Hp. rewrite H in Hp. destruct (r_at C m p) as [n|] eqn:E; [|done]. unfold r_at in E. case_decide as Hz; [done|].
  split. { split; [tauto|]. split; [|tauto]. apply Hwf in E as (_ & Hv & _). by apply valid_app in Hv as [_ ?]. }
  destruct (decide (parent p = [])) as [?|Hne]; [by left|right]. rewrite H. unfold r_at.
  assert (p ≠ []) as Hp0 by tauto. destruct (exists_last Hp0) as (q & x & ->). rewrite parent_snoc in *.
  rewrite decide_False.
  - apply Hwf in E as (_ & _ & Hd). rewrite parent_app, parent_snoc in Hd by done. apply dir_at_lookup in Hd as [t ->]; [done|by apply app_ne].
  - intros [?|Hx]; [done|]. apply Hz. right. trans q; [done|by eexists].
Qed.
Lemma first_left C m0 : new_dirs C m0 → names_only C m0 → any_order C → plain_files C m0 →
  let '(_, w, r) := init_main C false true (first m0 None) in
  r = Ok tt ∧ left_by C (w_fs w) (w_fs w) (w_rdb w) ∧ rows (λ p, ld_dir <$> w_ldb w !! p) ∧ w_last w = Some (c_end C).
Proof.
  intros N HG Hit Hp. pose proof (init_fresh C m0 None N HG (proj1 Hit) (or_intror Hp)) as H.
  destruct (init_main C false true (first m0 None)) as [[tr w] r]. destruct H as (-> & Fi & El & HR & HL & _ & Hu & Ht & Htr & Hwf).
  assert (∀ p, rd_dir <$> w_rdb w !! p = is_Dir <$> r_at C (w_fs w) p) as Hrd.
  { intros p. rewrite HR. unfold r_at. case_decide; [done|]. by destruct (w_fs w !! (c_R C ++ p)). }
  assert (∀ k, k ≠ [] → k = c_L C ∨ k = c_R C → w_fs w !! k = m0 !! k) as Hk.
  { intros k Hk Hor. apply (fi_out _ _ _ Fi).
    - destruct Hor as [-> | ->]; [apply not_below_self|]. rewrite <-(app_nil_r (c_R C)). apply apart_not_below, apart_sym, N.
    - destruct Hor as [-> | ->]; [|apply not_below_self]. rewrite <-(app_nil_r (c_L C)). apply apart_not_below, N. }
  assert (∀ k, k ≠ [] → k = c_L C ∨ k = c_R C → dir_at m0 k → dir_at (w_fs w) k) as Hd.
  { intros k H1 H2 [t E]. exists t. rewrite node_at_ne in * by done. by rewrite Hk. }
  split_and!; try done.
  - split; try done.
    + split; [done|apply Hd; [apply N|by left|apply N]|apply Hd; [apply N|by right|apply N]|apply N].
    + intros x t k. by rewrite Htr.
    + by eapply listed_rows.
    + intros p t k E. unfold r_at in E. case_decide as Hz; [done|].
      destruct (fi_only _ _ _ Fi p (Link t k)) as (q & Hg & Hpq & Hn); [tauto|tauto|done|].
      destruct (decide (p = q)) as [<-|Hne]; [|by specialize (Hn Hne)]. pose proof Hg as (_ & [n En] & _).
      destruct (is_Dir n) eqn:Edn.
      * assert (dir_at (w_fs w) (c_R C ++ p)) as Hx. { apply (fi_dirs _ _ _ Fi); [done|]. apply dir_at_lookup; [apply app_ne; tauto|]. destruct n; [done|done|eauto]. }
        apply dir_at_lookup in Hx as [? Hx]; [|apply app_ne; tauto]. congruence.
      * destruct (fi_files _ _ _ Fi p n Hg En Edn) as [Hx _]. rewrite E in Hx. injection Hx as <-. by apply Hp in En.
  - eapply (listed_rows C (w_fs w)); [done|]. intros p. by rewrite HL.
Qed.
(** The remote directory is in order for a client that joins. *)
Lemma joining_left A C m rdb : left_by A m m rdb → c_R C = c_R A → joinable C m → left_by C m m rdb.
Proof.
  intros [H1 H2 H3 H4 H5 H6 H7 H8] ER Hj.
  assert (util_dir C = util_dir A) as Eu by (unfold util_dir; by rewrite ER).
  assert (trash_dir C = trash_dir A) as Et by (unfold trash_dir; by rewrite Eu).
  assert (exclude_dir C = exclude_dir A) as Ee by (unfold exclude_dir; by rewrite Eu).
  assert (∀ m p, r_at C m p = r_at A m p) as Er by (intros; unfold r_at; by rewrite ER).
  split; try done.
  - split; apply Hj.
  - split; [rewrite Ee; apply H2|apply Hj|]. pose proof (up_file _ _ _ (jo_util _ _ Hj)) as Hf. rewrite exclude_file_app. rewrite <-!app_assoc in Hf. exact Hf.
  - by rewrite Et.
  - intros x. by rewrite Et.
  - intros p. by rewrite Er.
  - intros p t k. by rewrite Er.
Qed.
(** A change outside the remote directory. *)
Lemma edit_left A m m' rdb : left_by A m m rdb → wf_fs m' → dir_at m' (c_L A) →
  (∀ q, c_R A `prefix_of` q → m' !! q = m !! q) → left_by A m' m' rdb.
Proof.
  intros [H1 H2 H3 H4 H5 H6 H7 H8] Hwf HLd Ho.
  assert (∀ q, m' !! (c_R A ++ q) = m !! (c_R A ++ q)) as HR by (intros q; apply Ho; by eexists).
  assert (∀ q, m' !! (util_dir A ++ q) = m !! (util_dir A ++ q)) as HU by (intros q; unfold util_dir; rewrite <-!app_assoc; apply HR).
  assert (∀ q, m' !! (exclude_dir A ++ q) = m !! (exclude_dir A ++ q)) as HE by (intros q; unfold exclude_dir; rewrite <-!app_assoc; apply HU).
  assert (∀ q, m' !! (trash_dir A ++ q) = m !! (trash_dir A ++ q)) as HT by (intros q; unfold trash_dir; rewrite <-!app_assoc; apply HU).
  assert (∀ p, r_at A m' p = r_at A m p) as Er by (intros p; unfold r_at; by rewrite HR).
  assert (∀ k, (∀ q, m' !! (k ++ q) = m !! (k ++ q)) → dir_at m k → dir_at m' k) as Hd.
  { intros k Hk [t E]. exists t. destruct (decide (k = [])) as [->|Hne]; [done|]. rewrite node_at_ne in * by done. specialize (Hk []). rewrite app_nil_r in Hk. by rewrite Hk. }
  split; try done.
  - destruct H1 as [M1 M2 M3 M4]. split; [done|done|by apply Hd|done].
  - destruct H2 as [U1 U2 U3]. split; [by apply Hd|done|]. unfold exclude_file in *. by rewrite HE.
  - by apply Hd.
  - intros x. by rewrite HT.
  - intros p. by rewrite Er.
  - intros p t k. by rewrite Er.
Qed.
Lemma history_orderly S : history S → orderly S.
Proof.
  induction 1 as [C m0 N HG Hit Hp w|S C w fits HS IH Hj Hit Hpl Hat w'|S m HS IH Hwf Ho|S i k C HS IH Hk Hp Hit Hpf Hn w].
  - pose proof (first_left C m0 N HG Hit Hp) as H. subst w. destruct (init_main C false true (first m0 None)) as [[tr w] r]. cbn [fst snd].
    destruct H as (_ & H1 & H2 & _). split; cbn [s_fs s_rdb s_clients stop].
    + done.
    + intros k ->%elem_of_list_singleton. done.
    + intros k ->%elem_of_list_singleton. apply N.
    + intros k ->%elem_of_list_singleton. done.
    + intros [|i] [|j] k l; cbn; try done.
  - assert (∀ k, k ∈ s_clients S → left_by (k_conf k) (s_fs S) (w_fs w') (w_rdb w')) as Hoth.
    { intros k Hk. destruct (Hpl k Hk) as [H1 H2]. apply (others_left (k_conf k) (s_fs S) (s_rdb S)); [by apply IH|by apply IH|].
      subst w'. apply (others_join _ _ _ C (s_fs S) (s_rdb S)); try done. apply others_none. }
    destruct (attempts_between C (s_fs S) (s_rdb S) w Hj Hat) as (Bt & Hl & Hb).
    destruct (join_main_wp C (s_fs S) (s_rdb S) w fits Hj (proj1 Hit) Bt Hl Hb) as [_ Hw]. subst w'.
    destruct (init_main C true fits w) as [[tr w1] r]. cbn [fst snd] in *. destruct Hw as [_ J].
    assert (left_by C (s_fs S) (s_fs S) (s_rdb S)) as Hlb.
    { destruct (s_clients S) as [|k ks] eqn:E; [by destruct (or_some _ IH)|]. destruct (Hpl k) as [ER _]; [by left|].
      apply (joining_left (k_conf k)); [apply IH; rewrite E; by left|done|done]. }
    pose proof (joined_left C _ _ w1 Hj Hlb J) as Hleft.
    assert (rows (λ p, ld_dir <$> w_ldb w1 !! p)) as Hrows.
    { intros p b. rewrite !(joined_kinds C _ _ w1 Hj Hlb J), <-!(lb_rdb _ _ _ _ Hlb). apply (lb_rows _ _ _ _ Hlb). }
    unfold stop. cbn [s_clients]. rewrite insert_app_r_alt by done. rewrite Nat.sub_diag. cbn [list_insert].
    split; cbn [s_fs s_rdb s_clients].
    + by destruct (s_clients S).
    + intros k [Hk| ->%elem_of_list_singleton]%elem_of_app; [|done]. by eapply left_self, Hoth.
    + intros k [Hk| ->%elem_of_list_singleton]%elem_of_app; [by apply IH|apply Hj].
    + intros k [Hk| ->%elem_of_list_singleton]%elem_of_app; [by apply IH|done].
    + intros i j k l Hk Hl2 Hij. apply lookup_app_Some in Hk as [Hk|[? Hk]]; apply lookup_app_Some in Hl2 as [Hl2|[? Hl2]].
      * by apply (or_pair _ IH i j).
      * apply list_lookup_singleton_Some in Hl2 as [? <-]. destruct (Hpl k) as [H1 H2]; [by eapply elem_of_list_lookup_2|]. cbn [k_conf]. by rewrite H1.
      * apply list_lookup_singleton_Some in Hk as [? <-]. destruct (Hpl l) as [H1 H2]; [by eapply elem_of_list_lookup_2|]. cbn [k_conf]. rewrite H1. split; [done|by apply apart_sym].
      * apply list_lookup_singleton_Some in Hk as [? _]. apply list_lookup_singleton_Some in Hl2 as [? _]. lia.
  - split; cbn [s_fs s_rdb s_clients]; try apply IH.
    intros k Hk. destruct (Ho k Hk) as [H1 H2]. apply (edit_left _ (s_fs S)); [by apply IH|done..].
  - assert (k ∈ s_clients S) as Hin by by eapply elem_of_list_lookup_2.
    assert (left_by C (s_fs S) (s_fs S) (s_rdb S)) as Hlb by (eapply left_place; [apply Hp..|by apply IH]).
    assert (apart (c_L C) (c_R C)) as Hap by (rewrite (sp_L _ _ Hp), (sp_R _ _ Hp); by apply IH).
    pose proof (tame_calm _ _ _ _ _ _ Hlb Hap (or_rows _ IH k Hin) Hpf) as Hc.
    assert (idle C (start S k)) as Hi by (split; [apply (lb_mounted _ _ _ _ Hlb)|done]).
    assert (∀ j l, s_clients S !! j = Some l → i ≠ j → left_by (k_conf l) (s_fs S) (w_fs w) (w_rdb w)) as Hoth.
    { intros j l Hl Hij. destruct (or_pair _ IH i j k l Hk Hl Hij) as [H1 H2].
      apply (others_left (k_conf l) (s_fs S) (s_rdb S)); [eapply (or_apart _ IH), elem_of_list_lookup_2, Hl|eapply (or_left _ IH), elem_of_list_lookup_2, Hl|].
      subst w. apply (others_sync _ _ _ C (start S k) (k_last k)); try done.
      - apply others_none.
      - by rewrite (sp_R _ _ Hp).
      - rewrite (sp_L _ _ Hp). by apply apart_sym. }
    destruct (idle_clash C (start S k) (k_last k) Hit Hi eq_refl Hc Hn) as [_ Hw]. subst w.
    destruct (sync_main C (ret tt) (start S k)) as [[tr w'] r]. cbn [fst snd] in *. destruct Hw as (_ & _ & _ & Hoc & Hre & _).
    destruct (sync_own C _ _ _ _ _ w' (clean_v _ _ _ _ _ _ Hc Hn) Hoc (re_ldb _ _ _ _ _ Hre) (re_rdb _ _ _ _ _ Hre)) as [H1 H2].
    assert (∀ j l, <[i:=Client C (w_ldb w') (default 0%Z (w_last w'))]> (s_clients S) !! j = Some l →
      (i = j ∧ l = Client C (w_ldb w') (default 0%Z (w_last w'))) ∨ (i ≠ j ∧ s_clients S !! j = Some l)) as Hins.
    { intros j l Hl. apply list_lookup_insert_Some in Hl as [(-> & <- & _)|[? ?]]; auto. }
    split; cbn [s_fs s_rdb s_clients stop].
    + intros E. apply (f_equal length) in E. rewrite insert_length in E. apply (or_some _ IH). by destruct (s_clients S).
    + intros l [j Hl]%elem_of_list_lookup. apply Hins in Hl as [[<- ->]|[Hij Hl]]; [done|]. by eapply left_self, Hoth.
    + intros l [j Hl]%elem_of_list_lookup. apply Hins in Hl as [[<- ->]|[Hij Hl]]; [done|]. by eapply (or_apart _ IH), elem_of_list_lookup_2.
    + intros l [j Hl]%elem_of_list_lookup. apply Hins in Hl as [[<- ->]|[Hij Hl]]; [done|]. by eapply (or_rows _ IH), elem_of_list_lookup_2.
    + intros j1 j2 l1 l2 Hl1 Hl2 Hij. apply Hins in Hl1 as [[<- ->]|[? Hl1]]; apply Hins in Hl2 as [[<- ->]|[? Hl2]]; [done|..]; cbn [k_conf].
      * rewrite (sp_R _ _ Hp), (sp_L _ _ Hp). by apply (or_pair _ IH i j2).
      * rewrite (sp_R _ _ Hp), (sp_L _ _ Hp). by apply (or_pair _ IH j1 i).
      * by apply (or_pair _ IH j1 j2).
Qed.
