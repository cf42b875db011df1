(** C100: opening a file raises its priority. *)
From Verif Require Export DaemonLoop Prop_Watch.
From Verif Require Import Prop_Daemon.
From stdpp Require Import options.

(** ** Specification *)
(** A round of the daemon: what has been opened since the last one, and the inputs
    of the round. *)
Record visit := Visit { vs_opened : list opened; vs_known : str → bool; vs_now : Z; vs_answer : answer }.
Definition turn_for (L R : list str) (v : visit) : turn := Turn (map (event_for L R) (vs_opened v)) (vs_known v) (vs_now v) (vs_answer v).
(** The opened files that are in the database, with the times. *)
Definition uses (v : visit) : list (list str * Z) :=
  map (λ o, (oa_path o, oa_time o)) (List.filter (counts (vs_known v)) (vs_opened v)).
Definition all_uses (vs : list visit) : list (list str * Z) := concat (map uses vs).

(** ** Proofs *)
Lemma count_events_sublist es : ∀ c c' l, count_events c es = (c', l) → l `sublist_of` es.
Proof.
  induction es as [|e es IH]; intros c c' l; [intros [= <- <-]; constructor|]. cbn [count_events].
  destruct (count_event c e) as [c1 l1] eqn:E1. destruct (count_events c1 es) as [c2 l2] eqn:E2. intros [= <- <-].
  apply IH in E2. unfold count_event in E1. destruct (match c !! _ with Some _ => _ | None => _ end); injection E1 as <- <-; cbn; by constructor.
Qed.
Lemma counted_sublist rs : counted rs `sublist_of` concat (map rd_events rs).
Proof.
  unfold counted, daemon_run. induction rs as [|r rs IH] using rev_ind; [constructor|].
  rewrite foldl_app, map_app, concat_app. cbn [foldl map concat]. rewrite app_nil_r.
  set (d := foldl daemon_round daemon0 rs) in *. unfold daemon_round. destruct (negb (d_alive d)).
  { etrans; [exact IH|]. by apply sublist_inserts_r. }
  destruct (count_events (d_cool d) (rd_events r)) as [c l] eqn:Ec. apply count_events_sublist in Ec.
  destruct (rd_answer r); cbn [d_counted]; try (by apply sublist_app). etrans; [exact IH|]. by apply sublist_inserts_r.
Qed.
Lemma alive_run rs : Forall (λ r, rd_answer r ∈ [BusyUpdate; Free]) rs → d_alive (daemon_run rs) = true.
Proof.
  unfold daemon_run. induction rs as [|r rs IH] using rev_ind; [done|]. rewrite Forall_app, Forall_singleton. intros [H Hr].
  rewrite foldl_app. cbn [foldl]. set (d := foldl daemon_round daemon0 rs) in *. unfold daemon_round. rewrite (IH H). cbn [negb].
  destruct (count_events _ _). destruct (rd_answer r); try done. exfalso. set_solver.
Qed.

Definition round_for (v : visit) : round := Round (uses v) (vs_now v) (vs_answer v).
Lemma rounds_for L R vs rel : valid_comps L → valid_comps R → ¬ L `prefix_of` R → ¬ R `prefix_of` L →
  (∀ v o, v ∈ vs → o ∈ vs_opened v → valid_comps (oa_path o) ∧ oa_path o ≠ []) →
  rounds_of (watch_paths (abs_path L) (abs_path R)) rel (map (turn_for L R) vs) = Some (map round_for vs).
Proof.
  intros HL HR H1 H2. revert rel. induction vs as [|v vs IH]; intros rel Hv; [done|]. cbn [map rounds_of turn_for tn_known tn_events tn_now tn_answer].
  pose proof (C97_counted_partial L R (vs_known v) rel (vs_opened v) HL HR H1 H2 (λ o, Hv v o (elem_of_list_here _ _))) as Ha.
  destruct (accessed _ _ _ _) as [[rel' l]|]; [|done]. cbn in Ha. injection Ha as ->.
  rewrite IH by (intros v' o Hin; apply Hv; by right). unfold round_for at 2. do 3 f_equal.
  unfold to_count, uses. rewrite map_map. apply map_ext_in. intros o Ho. cbn [fst snd].
  apply filter_In in Ho as [Ho%elem_of_list_In _]. destruct (Hv v o (elem_of_list_here _ _) Ho) as [Hc Hne].
  unfold rel_path. by rewrite split_on_join by (done || by apply valid_comps_noslash).
Qed.

(** When the database only refuses updates, and accepts them in the last round,
    the priorities have been raised for a part of the uses, and each other use
    follows one of those for the same file within the cooldown period.
    Missing: the other refusals (C56), directories that begin with two slashes
    (C97). *)
Theorem C100_raised_partial L R vs v :
  valid_comps L → valid_comps R → ¬ L `prefix_of` R → ¬ R `prefix_of` L →
  (∀ v o, v ∈ vs → o ∈ vs_opened v → valid_comps (oa_path o) ∧ oa_path o ≠ []) →
  Forall (λ v, vs_answer v ∈ [BusyUpdate; Free]) vs → last vs = Some v → vs_answer v = Free →
  ∃ d raised, daemon_loop (watch_paths (abs_path L) (abs_path R)) (map (turn_for L R) vs) = Some d
    ∧ d_alive d = true ∧ (∀ p, times p (d_committed d) = times p raised.*1)
    ∧ raised `sublist_of` all_uses vs
    ∧ ∀ p t, (p, t) ∈ all_uses vs → (p, t) ∈ raised ∨ ∃ t', (p, t') ∈ raised ∧ (t ≤ t' + 1000000)%Z.
Proof.
  intros HL HR H1 H2 Hv Ha Hl Hf. unfold daemon_loop. rewrite rounds_for by done. cbn [fmap option_fmap option_map].
  assert (Forall (λ r, rd_answer r ∈ [BusyUpdate; Free]) (map round_for vs)) as Hr by (by apply Forall_fmap).
  assert (concat (map rd_events (map round_for vs)) = all_uses vs) as Ec by (by rewrite map_map).
  exists (daemon_run (map round_for vs)), (counted (map round_for vs)). split; [done|]. split; [by apply alive_run|]. split; [|split].
  - intros p. apply (proj2 (C56_increments_partial _ p Hr) (round_for v)); [|done].
    change (map round_for vs) with (round_for <$> vs). by rewrite fmap_last, Hl.
  - rewrite <-Ec. apply counted_sublist.
  - intros p t Hin. change 1000000%Z with cooldown_period. apply (C55_counted _ (p, t)); [by apply alive_run|].
    rewrite <-Ec in Hin. apply elem_of_list_join. apply elem_of_list_In, in_concat in Hin as (l & Hl1 & Hl2). exists l.
    split; [by apply elem_of_list_In|]. by apply elem_of_list_In in Hl1.
Qed.
Print Assumptions C100_raised_partial.

(** The uses for which a priority is raised are apart.  Times are positive and in
    order, an event that is found in a round happened before it forgets old times,
    and one that is found later at most [delay] before that. *)
Theorem C100_cooldown_partial L R vs delay :
  valid_comps L → valid_comps R → ¬ L `prefix_of` R → ¬ R `prefix_of` L →
  (∀ v o, v ∈ vs → o ∈ vs_opened v → valid_comps (oa_path o) ∧ oa_path o ≠ []) →
  (0 ≤ delay ≤ 1000000)%Z →
  (∀ v a, v ∈ vs → a ∈ uses v → (0 < a.2 ≤ vs_now v)%Z) → StronglySorted Z.le (all_uses vs).*2 →
  (∀ i j v v' a, i < j → vs !! i = Some v → vs !! j = Some v' → a ∈ uses v' → (vs_now v - delay ≤ a.2)%Z)%nat →
  ∃ d, daemon_loop (watch_paths (abs_path L) (abs_path R)) (map (turn_for L R) vs) = Some d
    ∧ ∀ i j p t t', (i < j)%nat → d_counted d !! i = Some (p, t) → d_counted d !! j = Some (p, t') → (t + 1000000 - delay ≤ t')%Z.
Proof.
  intros HL HR H1 H2 Hv Hd Hpos Hsort Hdelay. unfold daemon_loop. rewrite rounds_for by done. eexists. split; [done|].
  apply (C55_cooldown_partial delay); [done|]. split; [|split].
  - apply Forall_fmap, Forall_forall. intros v Hin. apply Forall_forall. intros a. cbn. by apply Hpos.
  - replace (mjoin (rd_events <$> map round_for vs)) with (all_uses vs); [done|]. unfold all_uses.
    change (map round_for vs) with (round_for <$> vs). rewrite <-list_fmap_compose. clear. induction vs as [|v vs IH]; [done|]. cbn. by f_equal.
  - intros i j r r' a Hij Hi Hj. change (map round_for vs) with (round_for <$> vs) in Hi, Hj. rewrite list_lookup_fmap in Hi, Hj.
    destruct (vs !! i) as [v|] eqn:Ei; [|done]. destruct (vs !! j) as [v'|] eqn:Ej; [|done]. injection Hi as <-. injection Hj as <-. cbn.
    intros Hin. by eapply Hdelay.
Qed.
Print Assumptions C100_cooldown_partial.

Definition dl_visits : list visit :=
  [Visit [Opened true [lit "d"; lit "f"] false 1000000; Opened true [lit "d"] true 1100000; Opened true [lit "d"; lit "f"] false 1500000;
          Opened false [lit "g"] false 1600000; Opened true [lit "new"] false 1700000] wa_known 2000000 BusyUpdate;
   Visit [Opened true [lit "d"; lit "f"] false 4000000] wa_known 5000000 Free].
Example C100_ex :
  let L := [lit "home"; lit "u"; lit "l"] in let R := [lit "mnt"; lit "r"] in
  (valid_comps L ∧ valid_comps R ∧ ¬ L `prefix_of` R ∧ ¬ R `prefix_of` L)
  ∧ (∀ v o, v ∈ dl_visits → o ∈ vs_opened v → valid_comps (oa_path o) ∧ oa_path o ≠ [])
  ∧ Forall (λ v, vs_answer v ∈ [BusyUpdate; Free]) dl_visits
  ∧ (∀ v a, v ∈ dl_visits → a ∈ uses v → (0 < a.2 ≤ vs_now v)%Z) ∧ StronglySorted Z.le (all_uses dl_visits).*2
  ∧ (∀ i j v v' a, i < j → dl_visits !! i = Some v → dl_visits !! j = Some v' → a ∈ uses v' → (vs_now v - 0 ≤ a.2)%Z)%nat
  ∧ length (all_uses dl_visits) = 4%nat
  ∧ d_committed <$> daemon_loop (watch_paths (abs_path L) (abs_path R)) (map (turn_for L R) dl_visits)
    = Some [[lit "d"; lit "f"]; [lit "g"]; [lit "d"; lit "f"]].
Proof.
  assert (∀ l, l = map oa_path (concat (map vs_opened dl_visits)) → Forall (λ p, valid_comps p ∧ p ≠ []) l) as Hp by (intros l ->; apply (bool_decide_unpack _); vm_compute; exact Logic.I).
  split; [split_and!; apply (bool_decide_unpack _); vm_compute; exact Logic.I|]. split.
  { intros v o H1 H2. apply (proj1 (Forall_forall _ _) (Hp _ eq_refl)). apply elem_of_list_fmap. exists o. split; [done|].
    apply elem_of_list_In, in_concat. exists (vs_opened v). split; [|by apply elem_of_list_In]. apply in_map. by apply elem_of_list_In. }
  split; [repeat (apply Forall_cons; split; [cbn; set_solver|]); by apply Forall_nil|]. split.
  { intros v a H1 H2. apply elem_of_cons in H1 as [-> | [-> | []%elem_of_nil]%elem_of_cons];
    revert a H2; apply Forall_forall; apply (bool_decide_unpack _); vm_compute; exact Logic.I. }
  split; [vm_compute; repeat constructor; done|]. split; [|split; vm_compute; reflexivity].
  intros i j v v' a Hij Hi Hj. destruct i as [|i]; [|destruct j as [|[|j]]; [lia|lia|done]]. injection Hi as <-.
  destruct j as [|[|j]]; [lia| |done]. injection Hj as <-. revert a. apply Forall_forall. apply (bool_decide_unpack _); vm_compute; exact Logic.I.
Qed.

(** Not true when the value of LocalDir begins with two slashes: opening a file
    raises the priority of another one, which was opened in an earlier round, ... *)
Theorem C100_other_refuted :
  ∃ v home users ts, check_value (lit "LocalDir") v = false
    ∧ let L := dir_of_value home users v in let R := dir_of_value home users (lit "/r") in
      tn_events <$> ts = [[Event (pjoin R (lit "f")) false 1000000]; [Event (pjoin L (lit "g")) false 4000000]]
      ∧ Forall (λ t, tn_answer t = Free ∧ tn_known t (lit "g") = true) ts
      ∧ d_committed <$> daemon_loop (watch_paths L R) ts = Some [[lit "f"]; [lit "f"]].
Proof.
  exists (lit "//l"), (lit "/home/u"), (λ _, None),
    [Turn [Event (lit "/r/f") false 1000000] (λ _, true) 2000000 Free; Turn [Event (lit "//l/g") false 4000000] (λ _, true) 5000000 Free].
  split; [vm_compute; reflexivity|]. split; [vm_compute; reflexivity|]. split; [by repeat constructor|]. vm_compute; reflexivity.
Qed.
Print Assumptions C100_other_refuted.
(** ... or ends the daemon; the rounds before it do not matter. *)
Theorem C100_ends_refuted :
  ∃ v home users e, check_value (lit "LocalDir") v = false
    ∧ let L := dir_of_value home users v in let R := dir_of_value home users (lit "/r") in
      ev_name e = pjoin L (lit "g") ∧
      ∀ n known now a, daemon_loop (watch_paths L R) (replicate n (Turn [] known now a) ++ [Turn [e] known now a]) = None.
Proof.
  exists (lit "//l"), (lit "/home/u"), (λ _, None), (Event (lit "//l/g") false 1).
  split; [vm_compute; reflexivity|]. split; [vm_compute; reflexivity|]. intros n known now a. unfold daemon_loop.
  enough (rounds_of (watch_paths (dir_of_value (lit "/home/u") (λ _, None) (lit "//l")) (dir_of_value (lit "/home/u") (λ _, None) (lit "/r")))
    None (replicate n (Turn [] known now a) ++ [Turn [Event (lit "//l/g") false 1] known now a]) = None) as -> by done.
  induction n as [|n IH]; [vm_compute; reflexivity|]. cbn [replicate app rounds_of tn_events accessed]. by rewrite IH.
Qed.
Print Assumptions C100_ends_refuted.
