(** Properties C55 to C59: the daemon. *)
From Coq Require Import Reals Lra.
From Verif Require Import Daemon ConfigProofs.
From stdpp Require Import options.
Open Scope Z_scope.

(** ** C55 *)

(** The accesses that the daemon counts. *)
Definition counted (rs : list round) : list (path * Z) := d_counted (daemon_run rs).

(** What the clock and the threads allow: stamps are positive, the accesses
    are queued in the order of their stamps, an access that is found in the
    queue happened before the time at which the round forgets old times, and
    one found later happened at most [delay] before that time. *)
Definition schedule (delay : Z) (rs : list round) : Prop :=
  Forall (λ r, Forall (λ e, 0 < e.2 ≤ rd_now r) (rd_events r)) rs ∧
  StronglySorted Z.le (mjoin (rd_events <$> rs)).*2 ∧
  ∀ i j r r' e, (i < j)%nat → rs !! i = Some r → rs !! j = Some r' → e ∈ rd_events r' →
    rd_now r - delay ≤ e.2.

(** An access can happen after the queue was emptied and before old times are
    forgotten; if the cooldown ends in between, it counts. *)
Definition late1 : round := Round [([lit "f"], 1000000)] 2000001 Free.
Definition late2 : round := Round [([lit "f"], 1999950)] 5000000 Free.
Theorem C55_cooldown_refuted : ∃ rs p t1 t2,
  schedule 100 rs ∧ counted rs = [(p, t1); (p, t2)] ∧ t2 < t1 + cooldown_period.
Proof.
  exists [late1; late2], [lit "f"], 1000000, 1999950. unfold schedule. split_and!.
  - repeat (apply Forall_cons; split; [apply Forall_cons; split; [simpl; lia|by apply Forall_nil]|]). by apply Forall_nil.
  - simpl. repeat constructor; lia.
  - intros i j r r' e Hij Hi Hj He.
    destruct j as [|[|j]]; [lia| |discriminate Hj].
    destruct i as [|i]; [|lia]. injection Hi as <-. injection Hj as <-.
    apply elem_of_list_singleton in He as ->. simpl. lia.
  - vm_compute. reflexivity.
  - vm_compute. reflexivity.
Qed.

Print Assumptions C55_cooldown_refuted.

(** Invariant: a counted access is remembered, with the last counted time of
    that path, or it was forgotten at a time that is past. *)
Definition cool_inv (cd bound : Z) (c : gmap path Z) (log : list (path * Z)) : Prop :=
  (∀ p t, (p, t) ∈ log → (∃ t', c !! p = Some t' ∧ t ≤ t') ∨ t + cooldown_period ≤ bound + cd) ∧
  (∀ p t, c !! p = Some t → 0 < t).
Definition apart (cd : Z) (log : list (path * Z)) : Prop :=
  ∀ i j p t t', (i < j)%nat → log !! i = Some (p, t) → log !! j = Some (p, t') →
    t + cooldown_period - cd ≤ t'.

Lemma apart_snoc cd log e :
  apart cd log → (∀ t, (e.1, t) ∈ log → t + cooldown_period - cd ≤ e.2) → apart cd (log ++ [e]).
Proof.
  intros Ha He i j p t t' Hij Hi Hj.
  assert (Hlen := lookup_lt_Some _ _ _ Hj). rewrite app_length in Hlen. simpl in Hlen.
  rewrite lookup_app_l in Hi by lia.
  destruct (decide (j < length log)%nat) as [Hl|Hl].
  - rewrite lookup_app_l in Hj by done. eauto.
  - replace j with (length log + 0)%nat in Hj by lia.
    rewrite lookup_app_r in Hj by lia. replace (length log + 0 - length log)%nat with 0%nat in Hj by lia.
    simpl in Hj. injection Hj as ->. apply He. by eapply elem_of_list_lookup_2.
Qed.

Lemma count_event_inv cd bound c log e c' l :
  0 ≤ cd ≤ cooldown_period → 0 < e.2 → bound ≤ e.2 →
  cool_inv cd bound c log → apart cd log →
  count_event c e = (c', l) → cool_inv cd bound c' (log ++ l) ∧ apart cd (log ++ l).
Proof.
  intros Hcd Hpos Hb [Hlog Hc] Ha E. unfold count_event in E.
  destruct (c !! e.1) as [past|] eqn:Ep.
  - assert (0 < past) by eauto.
    destruct (past =? 0) eqn:E0; [lia|]. cbn [orb] in E.
    destruct (past + cooldown_period <? e.2) eqn:El; injection E as <- <-.
    + assert (Hold : ∀ t, (e.1, t) ∈ log → t + cooldown_period - cd ≤ e.2).
      { intros t Ht. destruct (Hlog _ _ Ht) as [(t' & Ht' & ?)|?]; [|lia].
        rewrite Ep in Ht'. injection Ht' as <-. lia. }
      split; [|by apply apart_snoc]. split.
      * intros p t [Hin|Hin]%elem_of_app.
        -- destruct (decide (p = e.1)) as [->|Hne].
           ++ left. exists e.2. rewrite lookup_insert. split; [done|]. specialize (Hold _ Hin). lia.
           ++ rewrite lookup_insert_ne by done. eauto.
        -- apply elem_of_list_singleton in Hin. subst e. left. exists t. by rewrite lookup_insert.
      * intros p t [[<- <-]|[_ ?]]%lookup_insert_Some; eauto.
    + rewrite app_nil_r. done.
  - injection E as <- <-.
    assert (Hold : ∀ t, (e.1, t) ∈ log → t + cooldown_period - cd ≤ e.2).
    { intros t Ht. destruct (Hlog _ _ Ht) as [(t' & Ht' & ?)|?]; [congruence|lia]. }
    split; [|by apply apart_snoc]. split.
    + intros p t [Hin|Hin]%elem_of_app.
      * destruct (decide (p = e.1)) as [->|Hne].
        -- left. exists e.2. rewrite lookup_insert. split; [done|]. specialize (Hold _ Hin). lia.
        -- rewrite lookup_insert_ne by done. eauto.
      * apply elem_of_list_singleton in Hin. subst e. left. exists t. by rewrite lookup_insert.
    + intros p t [[<- <-]|[_ ?]]%lookup_insert_Some; eauto.
Qed.
Lemma count_events_inv cd bound es : ∀ c log c' l,
  0 ≤ cd ≤ cooldown_period → Forall (λ e, 0 < e.2 ∧ bound ≤ e.2) es →
  cool_inv cd bound c log → apart cd log →
  count_events c es = (c', l) → cool_inv cd bound c' (log ++ l) ∧ apart cd (log ++ l).
Proof.
  induction es as [|e es IH]; intros c log c' l Hcd Hes Hi Ha E; simpl in E.
  - injection E as <- <-. by rewrite app_nil_r.
  - apply Forall_cons in Hes as [[He1 He2] Hes].
    destruct (count_event c e) as [c1 l1] eqn:E1.
    destruct (count_events c1 es) as [c2 l2] eqn:E2. injection E as <- <-.
    destruct (count_event_inv cd bound c log e c1 l1) as [Hi1 Ha1]; [done..|].
    rewrite app_assoc. eapply IH; eauto.
Qed.
Lemma prune_inv cd bound now c log :
  0 ≤ cd → cool_inv cd bound c log → cool_inv cd (bound `max` (now - cd)) (prune now c) log.
Proof.
  intros Hcd [Hlog Hc]. split.
  - intros p t Hin. destruct (Hlog p t Hin) as [(t' & Ht' & ?)|?]; [|right; lia].
    destruct (decide (now - cooldown_period < t')) as [Hk|Hk].
    + left. exists t'. split; [|done]. by apply map_filter_lookup_Some.
    + right. lia.
  - intros p t [Ht _]%map_filter_lookup_Some. eauto.
Qed.

(** What holds: if at most [delay] passes between emptying the queue and
    forgetting old times, counted accesses of one file are at least the
    cooldown period less [delay] apart. *)
Theorem C55_cooldown_partial delay rs : 0 ≤ delay ≤ cooldown_period → schedule delay rs →
  ∀ i j p t t', (i < j)%nat →
    counted rs !! i = Some (p, t) → counted rs !! j = Some (p, t') →
    t + cooldown_period - delay ≤ t'.
Proof.
  intros Hd (Hpos & _ & Hlate). change (apart delay (counted rs)).
  assert (∃ bound, (∀ r' e, e ∈ rd_events r' →
            (∀ i r, rs !! i = Some r → rd_now r - delay ≤ e.2) → 0 < e.2 → bound ≤ e.2) ∧
          cool_inv delay bound (d_cool (daemon_run rs)) (counted rs) ∧ apart delay (counted rs))
    as (? & _ & _ & ?); [|done].
  induction rs as [|r rs IH] using rev_ind.
  - exists 0. split_and!; [intros; lia| |].
    + split; [|intros p t Hp; change ((∅ : gmap path Z) !! p = Some t) in Hp; by rewrite lookup_empty in Hp]. intros p t []%elem_of_nil.
    + intros i j p t t' _ Hi. unfold counted in Hi. simpl in Hi. by rewrite lookup_nil in Hi.
  - apply Forall_app in Hpos as [Hpos Hr]. apply Forall_cons in Hr as [Hr _].
    destruct IH as (bound & Hbound & Hi & Ha); [done| |].
    { intros i j r1 r2 e Hij H1 H2. apply (Hlate i j); [done|by apply lookup_app_l_Some..]. }
    unfold counted, daemon_run in *. rewrite foldl_app. simpl.
    set (d := foldl daemon_round daemon0 rs) in *.
    unfold daemon_round. destruct (d_alive d); simpl.
    2:{ exists bound. split; [|done]. intros r' e He Hall. apply (Hbound r'); [done|].
        intros i r1 H1. apply (Hall i). by apply lookup_app_l_Some. }
    assert (Hev : Forall (λ e, 0 < e.2 ∧ bound ≤ e.2) (rd_events r)).
    { apply Forall_forall. intros e He. rewrite Forall_forall in Hr. specialize (Hr e He).
      split; [lia|]. apply (Hbound r); [done| |lia]. intros i r1 H1.
      apply (Hlate i (length rs) r1 r); [by eapply lookup_lt_Some|by apply lookup_app_l_Some| |done].
      by apply list_lookup_middle. }
    destruct (count_events (d_cool d) (rd_events r)) as [c l] eqn:Ec.
    destruct (count_events_inv delay bound (rd_events r) (d_cool d) (d_counted d) c l) as [Hi' Ha']; [done..|].
    assert (Hb' : ∀ r' e, e ∈ rd_events r' →
       (∀ i r1, (rs ++ [r]) !! i = Some r1 → rd_now r1 - delay ≤ e.2) → 0 < e.2 →
       bound `max` (rd_now r - delay) ≤ e.2).
    { intros r' e He Hall He0. apply Z.max_lub.
      - apply (Hbound r'); [done| |done]. intros i r1 H1. apply (Hall i). by apply lookup_app_l_Some.
      - apply (Hall (length rs)). by apply list_lookup_middle. }
    assert (Hb0 : ∀ r' e, e ∈ rd_events r' →
       (∀ i r1, (rs ++ [r]) !! i = Some r1 → rd_now r1 - delay ≤ e.2) → 0 < e.2 → bound ≤ e.2).
    { intros r' e He Hall He0. specialize (Hb' r' e He Hall He0). lia. }
    destruct (rd_answer r); simpl; [exists bound; done|..];
      (exists (bound `max` (rd_now r - delay)); split; [done|split; [apply prune_inv; [lia|exact Hi']|exact Ha']]).
Qed.
Print Assumptions C55_cooldown_partial.
Example C55_ex :
  schedule 0 [Round [([lit "f"], 1000000); ([lit "f"], 1500000)] 1600000 Free;
              Round [([lit "f"], 1900000); ([lit "f"], 2500000)] 4600000 BusyUpdate] ∧
  counted [Round [([lit "f"], 1000000); ([lit "f"], 1500000)] 1600000 Free;
           Round [([lit "f"], 1900000); ([lit "f"], 2500000)] 4600000 BusyUpdate]
  = [([lit "f"], 1000000); ([lit "f"], 2500000)].
Proof.
  split; [|vm_compute; reflexivity]. unfold schedule. split_and!.
  - repeat (apply Forall_cons; split; [repeat (apply Forall_cons; split; [simpl; lia|]); by apply Forall_nil|]).
    by apply Forall_nil.
  - simpl. repeat constructor; lia.
  - intros i j r r' e Hij Hi Hj He.
    destruct j as [|[|j]]; [lia| |discriminate Hj].
    destruct i as [|i]; [|lia]. injection Hi as <-. injection Hj as <-.
    apply elem_of_cons in He as [->|He]; [simpl; lia|].
    apply elem_of_list_singleton in He as ->. simpl. lia.
Qed.

(** An access that does not count follows a counted one of the same file
    within the cooldown period.  [lost]: the daemon died before. *)
Lemma count_events_covers es : ∀ c c' l,
  count_events c es = (c', l) →
  (∀ p t, c' !! p = Some t → c !! p = Some t ∨ (p, t) ∈ l) ∧
  (∀ e, e ∈ es → e ∈ l ∨ ∃ t, (c !! e.1 = Some t ∨ (e.1, t) ∈ l) ∧ e.2 ≤ t + cooldown_period).
Proof.
  induction es as [|e es IH]; intros c c' l E; simpl in E.
  - injection E as <- <-. split; [auto|]. intros e []%elem_of_nil.
  - destruct (count_event c e) as [c1 l1] eqn:E1.
    destruct (count_events c1 es) as [c2 l2] eqn:E2. injection E as <- <-.
    destruct (IH c1 c2 l2 E2) as [IHc IHe].
    assert (H1 : (c1 = <[e.1:=e.2]> c ∧ l1 = [e]) ∨
                 (c1 = c ∧ l1 = [] ∧ ∃ t, c !! e.1 = Some t ∧ e.2 ≤ t + cooldown_period)).
    { unfold count_event in E1. destruct (c !! e.1) as [past|] eqn:Ep; [|injection E1 as <- <-; auto].
      destruct ((past =? 0) || (past + cooldown_period <? e.2)) eqn:Eb; injection E1 as <- <-; [auto|].
      right. split_and!; [done..|]. exists past. apply orb_false_iff in Eb as [_ Eb]. split; [done|lia]. }
    assert (Hc1 : ∀ p t, c1 !! p = Some t → c !! p = Some t ∨ (p, t) ∈ l1).
    { intros p t Hp. destruct H1 as [[-> ->]|(-> & _ & _)]; [|auto].
      apply lookup_insert_Some in Hp as [[<- <-]|[_ Hp]]; [|auto].
      right. apply elem_of_list_singleton. by destruct e. }
    split.
    + intros p t Hp. destruct (IHc p t Hp) as [Hq|Hq]; [|right; apply elem_of_app; auto].
      destruct (Hc1 p t Hq); [auto|right; apply elem_of_app; auto].
    + intros e' [->|He']%elem_of_cons.
      * destruct H1 as [[-> ->]|(-> & -> & t & Ht & Hle)].
        -- left. apply elem_of_app. left. by apply elem_of_list_singleton.
        -- right. exists t. auto.
      * destruct (IHe e' He') as [Hin|(t & Ht & Hle)].
        -- left. apply elem_of_app. auto.
        -- right. exists t. split; [|done]. destruct Ht as [Ht|Ht]; [|rewrite elem_of_app; auto].
           destruct (Hc1 _ _ Ht); [auto|]. rewrite elem_of_app. auto.
Qed.

Theorem C55_counted rs e : d_alive (daemon_run rs) = true → e ∈ mjoin (rd_events <$> rs) →
  e ∈ counted rs ∨ ∃ t, (e.1, t) ∈ counted rs ∧ e.2 ≤ t + cooldown_period.
Proof.
  intros Hal He.
  assert (Hinv : (∀ p t, d_cool (daemon_run rs) !! p = Some t → (p, t) ∈ counted rs) ∧
    (∀ e, e ∈ mjoin (rd_events <$> rs) →
       e ∈ counted rs ∨ ∃ t, (e.1, t) ∈ counted rs ∧ e.2 ≤ t + cooldown_period)).
  2:{ by apply Hinv. }
  clear e He. induction rs as [|r rs IH] using rev_ind.
  - split; [intros p t Hp; change ((∅ : gmap path Z) !! p = Some t) in Hp; by rewrite lookup_empty in Hp|]. intros e []%elem_of_nil.
  - unfold counted, daemon_run in *. rewrite foldl_app in *. simpl in *.
    set (d := foldl daemon_round daemon0 rs) in *.
    unfold daemon_round in *. destruct (d_alive d) eqn:Ed; simpl in *; [|congruence].
    destruct (IH eq_refl) as [IHc IHe]. clear IH.
    destruct (count_events (d_cool d) (rd_events r)) as [c l] eqn:Ec.
    destruct (count_events_covers _ _ _ _ Ec) as [Hc Hl].
    assert (Hfin : (∀ p t, prune (rd_now r) c !! p = Some t → (p, t) ∈ d_counted d ++ l) ∧
      (∀ e, e ∈ mjoin (rd_events <$> rs ++ [r]) →
         e ∈ d_counted d ++ l ∨ ∃ t, (e.1, t) ∈ d_counted d ++ l ∧ e.2 ≤ t + cooldown_period)).
    { split.
      - intros p t [Hp _]%map_filter_lookup_Some. apply elem_of_app.
        destruct (Hc p t Hp); auto.
      - intros e He. apply elem_of_list_join in He as (es & He & Hes).
        rewrite fmap_app in Hes. apply elem_of_app in Hes as [Hes|Hes].
        + assert (e ∈ mjoin (rd_events <$> rs)) as He' by (apply elem_of_list_join; eauto).
          clear He. rename He' into He. destruct (IHe e He) as [?|(t & ? & ?)]; [left; apply elem_of_app; auto|].
          right. exists t. rewrite elem_of_app. auto.
        + apply elem_of_list_singleton in Hes as ->.
          destruct (Hl e He) as [?|(t & Ht & ?)]; [left; apply elem_of_app; auto|].
          right. exists t. rewrite elem_of_app. split; [|done]. destruct Ht; auto. }
    destruct (rd_answer r); simpl in *; [discriminate|done..].
Qed.
Print Assumptions C55_counted.

(** ** C56 *)

(** How often an access of [p] was counted, and how often its priority was
    incremented for other connections to see. *)
Definition times (p : path) (l : list path) : nat := length (filter (p =.) l).
Definition increments (rs : list round) : list path := d_committed (daemon_run rs).

(** When only the commit is refused, the increments stay in the open
    transaction and are made again. *)
Definition f56 : path := [lit "f"].
Theorem C56_commit_refuted : ∃ rs p,
  Forall (λ r, rd_answer r ∈ [BusyUpdate; BusyCommit; Free]) rs ∧
  times p (counted rs).*1 = 1%nat ∧ times p (increments rs) = 2%nat.
Proof.
  exists [Round [(f56, 1000000)] 1000001 BusyCommit; Round [] 4000000 Free], f56.
  split_and!; [|vm_compute; reflexivity..].
  repeat (apply Forall_cons; split; [simpl; set_solver|]). by apply Forall_nil.
Qed.
Print Assumptions C56_commit_refuted.

(** When a lookup is refused the daemon ends, and what it was waiting to
    write is lost. *)
Theorem C56_lookup_refuted : ∃ rs p,
  times p (counted rs).*1 = 1%nat ∧
  ∀ later, times p (increments (rs ++ later)) = 0%nat.
Proof.
  exists [Round [(f56, 1000000)] 1000001 BusyUpdate; Round [] 4000000 BusyLookup], f56.
  split; [vm_compute; reflexivity|]. intros later. unfold increments, daemon_run.
  rewrite foldl_app. simpl.
  assert (∀ d, d_alive d = false → foldl daemon_round d later = d) as ->.
  { induction later as [|r later IH]; intros d Hd; [done|]. simpl.
    assert (daemon_round d r = d) as -> by (unfold daemon_round; by rewrite Hd). auto. }
  - vm_compute. reflexivity.
  - vm_compute. reflexivity.
Qed.
Print Assumptions C56_lookup_refuted.

(** What holds: when only updates are refused, every counted access is
    waiting or has been added exactly once, and none is waiting after a round
    in which the database was free. *)
Theorem C56_increments_partial rs p :
  Forall (λ r, rd_answer r ∈ [BusyUpdate; Free]) rs →
  (times p (increments rs) + times p (d_pending (daemon_run rs)))%nat = times p (counted rs).*1 ∧
  ∀ r, last rs = Some r → rd_answer r = Free →
    times p (increments rs) = times p (counted rs).*1.
Proof.
  intros Hrs.
  assert (Hinv : d_alive (daemon_run rs) = true ∧ d_open (daemon_run rs) = [] ∧
    d_committed (daemon_run rs) ++ d_pending (daemon_run rs) = (counted rs).*1 ∧
    ∀ r, last rs = Some r → rd_answer r = Free → d_pending (daemon_run rs) = []).
  { induction rs as [|r rs IH] using rev_ind; [done|].
    apply Forall_app in Hrs as [Hrs Hr]. apply Forall_cons in Hr as [Hr _].
    destruct (IH Hrs) as (Hal & Ho & Hc & _). clear IH.
    unfold counted, daemon_run in *. rewrite foldl_app. simpl.
    set (d := foldl daemon_round daemon0 rs) in *.
    unfold daemon_round. rewrite Hal. cbn [negb].
    destruct (count_events (d_cool d) (rd_events r)) as [c l] eqn:Ec.
    rewrite last_snoc.
    apply elem_of_cons in Hr as [Hr|Hr]; [|apply elem_of_list_singleton in Hr];
      rewrite Hr; simpl; rewrite fmap_app, <- Hc; split_and!; try done.
    - by rewrite <- app_assoc.
    - intros r0 E. injection E as <-. congruence.
    - by rewrite Ho, app_nil_r, <- app_assoc. }
  destruct Hinv as (_ & _ & Hc & Hl).
  assert (Heq : (times p (increments rs) + times p (d_pending (daemon_run rs)))%nat = times p (counted rs).*1).
  { rewrite <- Hc. unfold times, increments. by rewrite filter_app, app_length. }
  split; [done|]. intros r Hr Hf. rewrite <- Heq, (Hl r Hr Hf). change (times p []) with 0%nat. lia.
Qed.
Print Assumptions C56_increments_partial.
Example C56_ex :
  times f56 (increments [Round [(f56, 1000000)] 1000001 BusyUpdate; Round [(f56, 3000000)] 4000000 Free]) = 2%nat.
Proof. vm_compute. reflexivity. Qed.

(** ** C57 *)

Lemma adjustments_lookup n c prios p :
  adjustments n c prios !! p = (λ x, (x * c ^ n)%R) <$> (prios !! p).
Proof.
  revert prios. induction n as [|n IH]; intros prios; simpl.
  - destruct (prios !! p) as [x|]; simpl; [|done]. f_equal. ring.
  - rewrite IH. unfold adjust_all. rewrite lookup_fmap. destruct (prios !! p) as [x|]; simpl; [|done].
    f_equal. ring.
Qed.
(** What is configured: a number of hours, written in decimal. *)
Definition constant (hours : N) : option R := adjust_constant (priority_half_life (show_N hours)).

Lemma adjust_constant_pow hours c n : constant hours = Some c →
  (c ^ (6 * N.to_nat hours * n))%R = ((1 / 2) ^ n)%R.
Proof.
  unfold constant, priority_half_life, adjust_constant. rewrite py_int_show.
  case_bool_decide as Hz; [done|]. intros E. injection E as <-.
  rewrite <- !Rpower_pow by (try apply exp_pos; lra).
  rewrite Rpower_mult. f_equal. unfold adjust_interval. rewrite !mult_INR.
  assert (IZR (Z.of_N hours) ≠ 0%R) by (apply not_0_IZR; lia).
  change (N.pos (60 ^ 2)) with 3600%N. replace (Z.of_N (hours * 3600)) with (Z.of_N hours * 3600)%Z by lia.
  rewrite mult_IZR. rewrite (INR_IZR_INZ (N.to_nat hours)), N_nat_Z.
  replace (INR 6) with 6%R by (simpl; ring). field. done.
Qed.

(** An adjustment is made every ten minutes, six per hour.  After the
    adjustments of [n] half-lives of [hours] hours every priority is divided
    by two to the [n]. *)
Theorem C57_half_life_partial hours n prios p x : (0 < hours)%N → prios !! p = Some x →
  ∃ c, constant hours = Some c ∧
    adjustments (6 * N.to_nat hours * n) c prios !! p = Some (x * (1 / 2) ^ n)%R.
Proof.
  intros Hh Hp. destruct (constant hours) as [c|] eqn:Hc.
  - exists c. split; [done|]. by rewrite adjustments_lookup, Hp, (adjust_constant_pow hours c n Hc).
  - exfalso. unfold constant, priority_half_life, adjust_constant in Hc. rewrite py_int_show in Hc.
    case_bool_decide; [lia|done].
Qed.
Print Assumptions C57_half_life_partial.
Example C57_ex : ∃ c, constant 120 = Some c ∧
  adjustments 720 c {[ [lit "f"] := 8%R ]} !! [lit "f"] = Some 4%R.
Proof.
  destruct (C57_half_life_partial 120 1 {[ [lit "f"] := 8%R ]} [lit "f"] 8%R) as (c & Hc & Ha);
    [lia|by rewrite lookup_singleton|].
  exists c. split; [done|]. change 720%nat with (6 * N.to_nat 120 * 1)%nat. rewrite Ha. f_equal. simpl. lra.
Qed.

(** Adjustments keep the ratio of two priorities, and so their order. *)
Theorem C57_ratio hours c k prios p q x y : constant hours = Some c →
  prios !! p = Some x → prios !! q = Some y →
  ∃ x' y', adjustments k c prios !! p = Some x' ∧ adjustments k c prios !! q = Some y' ∧
    (x' * y = y' * x)%R ∧ (x < y ↔ x' < y')%R.
Proof.
  intros Hc Hp Hq. rewrite !adjustments_lookup, Hp, Hq. simpl.
  assert (0 < c)%R as Hpos.
  { unfold constant, adjust_constant in Hc. case_bool_decide; [done|]. injection Hc as <-. apply exp_pos. }
  assert (0 < c ^ k)%R by (by apply pow_lt).
  eexists _, _. split_and!; [done..|ring|].
  split; intros Hlt; [by apply Rmult_lt_compat_r|by eapply Rmult_lt_reg_r].
Qed.
Print Assumptions C57_ratio.

(** The configuration accepts a half-life of zero hours; the adjustment then
    raises ZeroDivisionError, which ends the daemon. *)
Theorem C57_zero_refuted :
  check_value (lit "PriorityHalfLife") (show_N 0) = false ∧ constant 0 = None.
Proof. split; [vm_compute; reflexivity|]. unfold constant, adjust_constant. rewrite bool_decide_true; [done|]. vm_compute. reflexivity. Qed.
Print Assumptions C57_zero_refuted.

(** ** C58 *)

(** Where the daemon and the sync are: not using the file, with a copy, with
    a copy that has a new time. *)
Inductive place := Out | Copied | Updated.
(** The orders in which the accesses can happen: the daemon reads, perhaps
    adjusts, and writes, again and again; one sync after the other reads,
    takes the time and writes; either may give up in between.  Times do not decrease.  [allowed] can say more
    about when accesses happen. *)
Fixpoint interleaving (allowed : place → place → access → Prop) (d s : place) (now : Z)
    (l : list access) : Prop :=
  match l with
  | [] => True
  | a :: r =>
      allowed d s a ∧
      match a with
      | DRead => d = Out ∧ interleaving allowed Copied s now r
      | DAdjust t => d = Copied ∧ now ≤ t ∧ interleaving allowed Updated s t r
      | DWrite => d ≠ Out ∧ interleaving allowed Out s now r
      | DFail => d ≠ Out ∧ interleaving allowed Out s now r
      | SRead => s = Out ∧ interleaving allowed d Copied now r
      | SSync t => s = Copied ∧ now ≤ t ∧ interleaving allowed d Updated t r
      | SWrite => s = Updated ∧ interleaving allowed d Out now r
      | SFail => s ≠ Out ∧ interleaving allowed d Out now r
      end
  end.
Definition info_of (i : info) : shared := Shared i i i.
Definition disk_after (i : info) (l : list access) : info := s_disk (accesses (info_of i) l).
Definition anything (d s : place) (a : access) : Prop := True.

(** A sync that ends between the daemon's reading and writing is forgotten. *)
Theorem C58_last_sync_refuted : ∃ i l a, interleaving anything Out Out (Z.max (i_sync i) (i_adjust i)) (l ++ [a]) ∧
  i_sync (disk_after i (l ++ [a])) < i_sync (disk_after i l).
Proof.
  exists (Info 100 100), [SRead; SSync 200; DRead; SWrite], DWrite. simpl. unfold anything.
  split; [|vm_compute; done]. split_and!; done || lia.
Qed.
Print Assumptions C58_last_sync_refuted.
(** An adjustment made while a sync runs is forgotten, so that it will be made
    again. *)
Theorem C58_last_adjust_refuted : ∃ i l a, interleaving anything Out Out (Z.max (i_sync i) (i_adjust i)) (l ++ [a]) ∧
  i_adjust (disk_after i (l ++ [a])) < i_adjust (disk_after i l).
Proof.
  exists (Info 100 100), [SRead; DRead; DAdjust 700; DWrite; SSync 800], SWrite. simpl. unfold anything.
  split; [|vm_compute; done]. split_and!; done || lia.
Qed.
Print Assumptions C58_last_adjust_refuted.

(** What holds: if no sync writes between the daemon's reading and writing,
    the time of the last sync never goes back; if the daemon writes no new
    time between a sync's reading and writing, the time of the last
    adjustment never goes back. *)
Definition sync_writes_alone (d s : place) (a : access) : Prop := a = SWrite → d = Out.
Definition adjusts_alone (d s : place) (a : access) : Prop :=
  a = DWrite → d = Updated → s = Out.

Definition sync_inv (d s : place) (now : Z) (h : shared) : Prop :=
  (d ≠ Out → i_sync (s_daemon h) = i_sync (s_disk h)) ∧
  i_sync (s_disk h) ≤ now ∧
  (s = Updated → i_sync (s_disk h) ≤ i_sync (s_sync h) ≤ now).
Definition adjust_inv (d s : place) (now : Z) (h : shared) : Prop :=
  (s ≠ Out → i_adjust (s_sync h) = i_adjust (s_disk h)) ∧
  i_adjust (s_disk h) ≤ now ∧
  (d = Copied → i_adjust (s_daemon h) = i_adjust (s_disk h)) ∧
  (d = Updated → i_adjust (s_disk h) ≤ i_adjust (s_daemon h) ≤ now).

(** One access keeps an invariant and does not decrease a recorded time. *)
Definition keeps (P : place → place → access → Prop) (inv : place → place → Z → shared → Prop)
    (f : info → Z) : Prop :=
  ∀ a r d s now h, interleaving P d s now (a :: r) → inv d s now h →
    f (s_disk h) ≤ f (s_disk (access_step h a)) ∧
    ∃ d' s' now', interleaving P d' s' now' r ∧ inv d' s' now' (access_step h a).
Lemma sync_keeps : keeps sync_writes_alone sync_inv i_sync.
Proof.
  intros a r d s now [k m y] Hl (Hd & Hk & Hs). simpl in *. destruct Hl as [Hok Hl].
  unfold sync_writes_alone in Hok.
  destruct a; simpl.
  - destruct Hl as [-> Hl]. split; [lia|]. eexists _, _, _. split; [exact Hl|]. by split_and!.
  - destruct Hl as (-> & Ht & Hl). split; [lia|]. eexists _, _, _. split; [exact Hl|].
    split_and!; simpl; [auto|lia|]. intros Hu. specialize (Hs Hu). lia.
  - destruct Hl as [Hne Hl]. specialize (Hd Hne). split; [lia|]. eexists _, _, _. split; [exact Hl|].
    unfold sync_inv. simpl. rewrite Hd. by split_and!.
  - destruct Hl as [Hne Hl]. split; [lia|]. eexists _, _, _. split; [exact Hl|]. by split_and!.
  - destruct Hl as [-> Hl]. split; [lia|]. eexists _, _, _. split; [exact Hl|]. by split_and!.
  - destruct Hl as (-> & Ht & Hl). split; [lia|]. eexists _, _, _. split; [exact Hl|].
    split_and!; simpl; [done|lia|]. intros _. lia.
  - destruct Hl as [-> Hl]. specialize (Hok eq_refl) as ->. specialize (Hs eq_refl).
    split; [lia|]. eexists _, _, _. split; [exact Hl|]. split_and!; simpl; [done|lia|done].
  - destruct Hl as [Hne Hl]. split; [lia|]. eexists _, _, _. split; [exact Hl|]. by split_and!.
Qed.
Lemma adjust_keeps : keeps adjusts_alone adjust_inv i_adjust.
Proof.
  intros a r d s now [k m y] Hl (Hs & Hk & Hc & Hu). simpl in *. destruct Hl as [Hok Hl].
  unfold adjusts_alone in Hok.
  destruct a; simpl.
  - destruct Hl as [-> Hl]. split; [lia|]. eexists _, _, _. split; [exact Hl|]. by split_and!.
  - destruct Hl as (-> & Ht & Hl). split; [lia|]. eexists _, _, _. split; [exact Hl|].
    split_and!; simpl; [done|lia|done|]. intros _. lia.
  - destruct Hl as [Hne Hl]. destruct d; [done|..].
    + specialize (Hc eq_refl). split; [lia|]. eexists _, _, _. split; [exact Hl|].
      unfold adjust_inv. simpl. rewrite Hc. by split_and!.
    + specialize (Hu eq_refl). specialize (Hok eq_refl eq_refl) as ->.
      split; [lia|]. eexists _, _, _. split; [exact Hl|]. split_and!; simpl; [done|lia|done|done].
  - destruct Hl as [Hne Hl]. split; [lia|]. eexists _, _, _. split; [exact Hl|]. by split_and!.
  - destruct Hl as [-> Hl]. split; [lia|]. eexists _, _, _. split; [exact Hl|]. by split_and!.
  - destruct Hl as (-> & Ht & Hl). split; [lia|]. eexists _, _, _. split; [exact Hl|].
    split_and!; simpl; [|lia|done|].
    + intros _. by apply Hs.
    + intros Hd. specialize (Hu Hd). lia.
  - destruct Hl as [-> Hl]. assert (Hy : i_adjust y = i_adjust k) by (by apply Hs).
    split; [lia|]. eexists _, _, _. split; [exact Hl|]. unfold adjust_inv. simpl. rewrite Hy. by split_and!.
  - destruct Hl as [Hne Hl]. split; [lia|]. eexists _, _, _. split; [exact Hl|]. by split_and!.
Qed.
Lemma keeps_run P inv f l1 l2 : keeps P inv f → ∀ d s now h,
  interleaving P d s now (l1 ++ l2) → inv d s now h →
  f (s_disk (accesses h l1)) ≤ f (s_disk (accesses h (l1 ++ l2))).
Proof.
  intros Hk. induction l1 as [|a l1 IH]; intros d s now h Hl Hi.
  - unfold accesses. simpl. revert d s now h Hl Hi.
    induction l2 as [|a l2 IH]; intros d s now h Hl Hi; [simpl; lia|].
    destruct (Hk _ _ _ _ _ _ Hl Hi) as (Hle & d' & s' & now' & Hl' & Hi').
    etransitivity; [exact Hle|]. exact (IH _ _ _ _ Hl' Hi').
  - destruct (Hk _ _ _ _ _ _ Hl Hi) as (_ & d' & s' & now' & Hl' & Hi').
    exact (IH _ _ _ _ Hl' Hi').
Qed.

Theorem C58_last_sync_partial i l1 l2 :
  interleaving sync_writes_alone Out Out (Z.max (i_sync i) (i_adjust i)) (l1 ++ l2) →
  i_sync (disk_after i l1) ≤ i_sync (disk_after i (l1 ++ l2)).
Proof.
  intros Hl. apply (keeps_run _ _ _ _ _ sync_keeps _ _ _ _ Hl). split_and!; simpl; [done|lia|done].
Qed.
Print Assumptions C58_last_sync_partial.
Theorem C58_last_adjust_partial i l1 l2 :
  interleaving adjusts_alone Out Out (Z.max (i_sync i) (i_adjust i)) (l1 ++ l2) →
  i_adjust (disk_after i l1) ≤ i_adjust (disk_after i (l1 ++ l2)).
Proof.
  intros Hl. apply (keeps_run _ _ _ _ _ adjust_keeps _ _ _ _ Hl). split_and!; simpl; [done|lia|done|done].
Qed.
Print Assumptions C58_last_adjust_partial.
Example C58_ex :
  let l := [SRead; DRead; DWrite; SSync 150; SWrite; DRead; DAdjust 200; SRead; DFail; SSync 300; SWrite;
            DRead; DAdjust 400; DWrite] in
  interleaving sync_writes_alone Out Out 100 (take 5 l) ∧ interleaving adjusts_alone Out Out 100 l ∧
  disk_after (Info 100 100) l = Info 300 400.
Proof. simpl. unfold sync_writes_alone, adjusts_alone. split_and!; done || lia || naive_solver. Qed.

(** ** C59 *)

(** The wake-ups are in the order of time. *)
Fixpoint in_time (now : Z) (ws : list wakeup) : Prop :=
  match ws with
  | [] => True
  | w :: r => now ≤ w_now w ≤ w_end w ∧ in_time (w_end w) r
  end.
(** From the end of one attempt to the start of any later one passes the
    interval that is then configured; and a wake-up without an attempt is
    less than one interval after the end of the last attempt, or after the
    last sync before the daemon started. *)
Theorem C59_attempts last ws : in_time last ws →
  (∀ i j w w', (i < j)%nat → sync_loop last ws !! i = Some (w, true) →
     sync_loop last ws !! j = Some (w', true) → w_end w + w_interval w' ≤ w_now w') ∧
  (∀ j w', sync_loop last ws !! j = Some (w', true) → last + w_interval w' ≤ w_now w') ∧
  (∀ j w', sync_loop last ws !! j = Some (w', false) →
     w_now w' < last + w_interval w' ∨
     ∃ i w, (i < j)%nat ∧ sync_loop last ws !! i = Some (w, true) ∧ w_now w' < w_end w + w_interval w').
Proof.
  intros Hin. revert last Hin.
  assert (∀ now last, last ≤ now → in_time now ws →
    (∀ i j w w', (i < j)%nat → sync_loop last ws !! i = Some (w, true) →
       sync_loop last ws !! j = Some (w', true) → w_end w + w_interval w' ≤ w_now w') ∧
    (∀ j w', sync_loop last ws !! j = Some (w', true) → last + w_interval w' ≤ w_now w') ∧
    (∀ j w', sync_loop last ws !! j = Some (w', false) →
       w_now w' < last + w_interval w' ∨
       ∃ i w, (i < j)%nat ∧ sync_loop last ws !! i = Some (w, true) ∧ w_now w' < w_end w + w_interval w')) as H.
  2:{ intros last Hin. by apply (H last last). }
  induction ws as [|w ws IH]; intros now last Hle Hin.
  { split_and!; intros *; rewrite ?lookup_nil; done. }
  destruct Hin as [[Hn He] Hin]. simpl. unfold sync_wakeup.
  destruct (last + w_interval w <=? w_now w) eqn:Eb.
  - destruct (IH (w_end w) (w_end w) ltac:(lia) Hin) as (H1 & H2 & H3). split_and!.
    + intros [|i] [|j] w1 w2 Hij; simpl; [lia| |lia|].
      * intros E Hj. injection E as <-. eauto.
      * intros Hi Hj. apply (H1 i j); [lia|done..].
    + intros [|j] w'; simpl; [intros E; injection E as <-; lia|]. intros Hj. specialize (H2 _ _ Hj). lia.
    + intros [|j] w'; simpl; [done|]. intros Hj. right. destruct (H3 _ _ Hj) as [?|(i & w1 & ? & ? & ?)].
      * exists 0%nat, w. split_and!; [lia|done|done].
      * exists (S i), w1. split_and!; [lia|done|done].
  - destruct (IH (w_end w) last ltac:(lia) Hin) as (H1 & H2 & H3). split_and!.
    + intros [|i] [|j] w1 w2 Hij; simpl; [lia|done|lia|].
      intros Hi Hj. apply (H1 i j); [lia|done..].
    + intros [|j] w'; simpl; [done|]. apply H2.
    + intros [|j] w'; simpl; [intros E; injection E as <-; left; lia|]. intros Hj.
      destruct (H3 _ _ Hj) as [?|(i & w1 & ? & ? & ?)]; [auto|].
      right. exists (S i), w1. split_and!; [lia|done|done].
Qed.
Print Assumptions C59_attempts.
Example C59_ex :
  let ws := [Wakeup 10 60 10; Wakeup 61 60 70; Wakeup 125 60 125; Wakeup 131 60 140] in
  in_time 0 ws ∧ (sync_loop 0 ws).*2 = [false; true; false; true].
Proof. split; [simpl; lia|vm_compute; reflexivity]. Qed.
(** What is configured is a number of minutes, written in decimal: when "SyncInterval"
    is [minutes] all the time, so many minutes pass between two attempts, and a
    wake-up without an attempt is less than that after the last one. *)
Theorem C59_minutes last ws minutes : in_time last ws →
  (∀ w, w ∈ ws → w_interval w = Z.of_N (sync_interval (show_N minutes))) →
  (∀ i j w w', (i < j)%nat → sync_loop last ws !! i = Some (w, true) →
     sync_loop last ws !! j = Some (w', true) → 60 * Z.of_N minutes ≤ w_now w' - w_end w) ∧
  (∀ j w', sync_loop last ws !! j = Some (w', false) →
     w_now w' - last < 60 * Z.of_N minutes ∨
     ∃ i w, (i < j)%nat ∧ sync_loop last ws !! i = Some (w, true) ∧ w_now w' - w_end w < 60 * Z.of_N minutes).
Proof.
  intros Hin Hws. assert (∀ l j w b, sync_loop l ws !! j = Some (w, b) → w ∈ ws) as Hel.
  { clear. induction ws as [|w ws IH]; intros l j w' b; simpl; [by rewrite lookup_nil|].
    destruct (sync_wakeup l w) as [l' b']. destruct j as [|j]; simpl; [intros [= -> _]; by left|]. intros Hj. right. by eapply IH. }
  assert (∀ l j w b, sync_loop l ws !! j = Some (w, b) → w_interval w = 60 * Z.of_N minutes) as Hi.
  { intros l j w b Hj. rewrite (Hws w) by by eapply Hel. unfold sync_interval. rewrite py_int_show. lia. }
  destruct (C59_attempts last ws Hin) as (H1 & _ & H3). split.
  - intros i j w w' Hij Hw Hw'. specialize (H1 i j w w' Hij Hw Hw'). rewrite (Hi _ _ _ _ Hw') in H1. lia.
  - intros j w' Hw'. rewrite <-(Hi _ _ _ _ Hw'). destruct (H3 j w' Hw') as [?|(i & w & ? & ? & ?)]; [left; lia|].
    right. exists i, w. split_and!; [done|done|lia].
Qed.
Print Assumptions C59_minutes.
Example C59_minutes_ex :
  let ws := [Wakeup 200 600 200; Wakeup 610 600 700; Wakeup 1290 600 1290; Wakeup 1310 600 1400] in
  in_time 0 ws ∧ (∀ w, w ∈ ws → w_interval w = Z.of_N (sync_interval (show_N 10))) ∧ (sync_loop 0 ws).*2 = [false; true; false; true].
Proof. split; [simpl; lia|]. split; [apply Forall_forall; by repeat constructor|vm_compute; reflexivity]. Qed.
