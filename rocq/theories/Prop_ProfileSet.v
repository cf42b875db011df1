(** C102: profiles come and go by their names. *)
From Verif Require Export Prop_Profiles RmProofs.
From Verif Require Import Prop_Command FSDec.
From stdpp Require Import options.

(** ** Specification *)
(** The name that a command is about. *)
Definition about (c : pcmd) : str := match c with PAdd s | PRemove s => s end.
(** Whether there is a profile [x] after the commands: the last one that is about it
    decides; [was] if there is none. *)
Definition there_after (was : Prop) (cs : list pcmd) (x : str) : Prop :=
  match last (List.filter (λ c, bool_decide (about c = x)) cs) with
  | Some (PAdd _) => True
  | Some (PRemove _) => False
  | None => was
  end.

(** ** Proofs *)
Lemma there_after_snoc was cs c x : there_after was (cs ++ [c]) x ↔
  if decide (about c = x) then match c with PAdd _ => True | PRemove _ => False end else there_after was cs x.
Proof.
  unfold there_after. rewrite List.filter_app. cbn [List.filter]. case_bool_decide as H.
  - rewrite decide_True by done. rewrite last_snoc. by destruct c.
  - rewrite decide_False by done. by rewrite app_nil_r.
Qed.
Definition profile_there (d : path) (m : fs) (x : str) : Prop := ∃ t, m !! (d ++ [x]) = Some (Dir t).
Record tidy (d : path) (m : fs) : Prop := {
  td_wf : wf_fs m;
  td_dir : dir_at m d;
  td_all : ∀ x n, m !! (d ++ [x]) = Some n → is_Dir n = true
}.
Lemma tidy_leads d m : tidy d m → leads_to m d d.
Proof. intros [Hwf Hd _]. split; [by apply resolve_dir|done]. Qed.
Lemma profile_path d s : d ≠ [] → valid_comps d → valid_name s → path_comps (profile_dir (abs_path d) s) = d ++ [s].
Proof.
  intros Hne Hv Hs. assert (profile_dir (abs_path d) s = abs_path (d ++ [s])) as ->.
  { unfold profile_dir. change s with (rel_path [s]) at 1. apply pjoin_abs_rel; [done|done|done|by apply Forall_singleton]. }
  apply path_comps_abs. apply valid_app. split; [done|by apply Forall_singleton].
Qed.
Section steps.
  Context (now : Z) (d : path) (ex : str → bool) (m : fs) (Hne : d ≠ []) (Ht : tidy d m).
  Lemma add_step s : valid_name s → let m' := run_pcmd now d ex m (PAdd s) in
    tidy d m' ∧ (∀ x, profile_there d m' x ↔ x = s ∨ profile_there d m x) ∧ (∀ p, ¬ d ++ [s] `prefix_of` p → m' !! p = m !! p)
    ∧ (∀ p n, m !! p = Some n → m' !! p = Some n).
  Proof using Hne Ht.
    intros Hs m'. subst m'. pose proof Ht as [Hwf Hd Hall]. pose proof (tidy_leads d m Ht) as Hl.
    pose proof (wf_dir_valid m Hwf d Hd) as Hv.
    destruct (C101_found now m d d Hwf Hl) as (l & Hf & _).
    unfold run_pcmd, add_profile. rewrite (profile_path d s Hne Hv Hs).
    assert (valid_comps (d ++ [s])) as Hvs. { apply valid_app. split; [done|by apply Forall_singleton]. }
    destruct (m !! (d ++ [s])) as [n|] eqn:En.
    - assert (∃ t, n = Dir t) as [t ->]. { apply Hall in En. destruct n as [| |t]; [done|done|by exists t]. }
      assert (leads_to m (d ++ [s]) (d ++ [s])) as Hls.
      { assert (dir_at m (d ++ [s])) by (exists t; by rewrite node_at_app_ne). split; [by apply resolve_dir|done]. }
      unfold bind. rewrite Hf, (makedirs_there m Hwf now _ _ Hls). cbn. split; [done|]. split; [|done].
      intros x. split; [by right|]. intros [->|H]; [by exists t|done].
    - destruct (makedirs_missing m Hwf now d d s Hl En [] ltac:(by apply Forall_singleton)) as [tr Htr].
      unfold bind. rewrite Hf, Htr. cbn.
      pose proof (missing_ok m Hwf d d s Hl En []) as Hok.
      assert (∀ p, (m ∪ dirmap now (d ++ [s])) !! p = if decide (p = d ++ [s]) then Some (Dir now) else m !! p) as Hlk.
      { intros p. rewrite lookup_mk. destruct (decide (p = d ++ [s])) as [->|Hp].
        - rewrite En, decide_True; [done|]. split; [by destruct d|done].
        - destruct (m !! p) eqn:Ep; [done|]. rewrite decide_False; [done|]. intros [H1 H2].
          apply prefix_snoc_inv in H2 as [H2|H2]; [|done]. destruct (wf_dir_anc m Hwf d p Hd H2) as [t Ht']. rewrite node_at_ne in Ht' by done. congruence. }
      split; [split|split_and!].
      + by apply wf_mk.
      + by apply dir_at_mk.
      + intros x n. rewrite Hlk. destruct (decide _); [by intros [= <-]|apply Hall].
      + intros x. unfold profile_there. rewrite Hlk. destruct (decide _) as [E|E].
        * apply app_inj_tail in E as [_ ->]. split; [by left|]. by exists now.
        * split; [by right|]. intros [->|?]; done.
      + intros p Hp. rewrite Hlk, decide_False; [done|]. by intros ->.
      + intros p n Hp. rewrite Hlk, decide_False; [done|]. intros ->. congruence.
  Qed.
  Lemma remove_step s : let m' := run_pcmd now d ex m (PRemove s) in
    tidy d m' ∧ (∀ x, profile_there d m' x ↔ x ≠ s ∧ profile_there d m x) ∧ (∀ p, ¬ d ++ [s] `prefix_of` p → m' !! p = m !! p).
  Proof using Hne Ht.
    intros m'. subst m'. pose proof Ht as [Hwf Hd Hall]. pose proof (tidy_leads d m Ht) as Hl.
    pose proof (wf_dir_valid m Hwf d Hd) as Hv.
    destruct (C101_selected now m d d (ex s) s Hwf Hl) as (r & Hf & Hr).
    unfold run_pcmd, remove_profile. unfold bind. rewrite Hf. destruct r as [y| |].
    - destruct Hr as [-> [t Hs]]. destruct (Hwf _ _ Hs) as (_ & Hvs & _). apply valid_app in Hvs as [_ Hvs%valid_one].
      rewrite (profile_path d s Hne Hv Hvs).
      assert (dir_at m (d ++ [s])) as Hds by (exists t; by rewrite node_at_app_ne).
      destruct (rmtree_wp (λ _, True) (d ++ [s]) (λ r m', r = Ok tt ∧ m' = without (d ++ [s]) m) m Hwf Hds ltac:(by destruct d) ltac:(done) ltac:(done))
        as [_ [Hr1 Hr2]].
      destruct (rmtree (d ++ [s]) m) as [[tr m'] r]. cbn in *. subst r m'. split; [split|split].
      + by apply wf_without.
      + apply dir_at_lookup; [done|]. apply dir_at_lookup in Hd as [t' Ht']; [|done]. exists t'. rewrite without_lookup, decide_False; [done|].
        intros H%prefix_length. rewrite app_length in H. cbn in H. lia.
      + intros x n. rewrite without_lookup. destruct (decide _); [done|apply Hall].
      + intros x. unfold profile_there. rewrite without_lookup. destruct (decide _) as [E|E].
        * apply prefix_app_inv in E. destruct E as [k Ek]. injection Ek as -> _. split; [by intros [? ?]|naive_solver].
        * split; [|naive_solver]. intros H. split; [|done]. intros ->. by apply E.
      + intros p Hp. by rewrite without_lookup, decide_False.
    - cbn. split; [done|]. split; [|done]. intros x. split; [|naive_solver]. intros H. split; [|done]. intros ->. by apply Hr.
    - cbn. split; [done|]. split; [|done]. intros x. split; [|naive_solver]. intros H. split; [|done]. intros ->. by apply Hr.
  Qed.
End steps.

(** ** C102 *)
(** After any commands the profiles are those that were made and not removed
    since, nothing but the directories of the named profiles has changed, and what was
    there is only gone if its profile was removed. *)
Theorem C102_history word now d ex m cs :
  (∀ c, (c < 128)%N → word c = ascii_word c) →
  wf_fs m → d ≠ [] → dir_at m d → (∀ x n, m !! (d ++ [x]) = Some n → is_Dir n = true) →
  (∀ s, PAdd s ∈ cs → name_accepted word s = true) →
  let m' := run_pcmds now d ex m cs in
  (∃ l, find_profiles now d m' = ([], m', Ok l) ∧ NoDup l
    ∧ ∀ x, x ∈ l ↔ there_after (∃ t, m !! (d ++ [x]) = Some (Dir t)) cs x)
  ∧ (∀ p, (∀ c, c ∈ cs → ¬ d ++ [about c] `prefix_of` p) → m' !! p = m !! p)
  ∧ ∀ p n, m !! p = Some n → (∀ s, PRemove s ∈ cs → ¬ d ++ [s] `prefix_of` p) → m' !! p = Some n.
Proof.
  intros Hw Hwf Hne Hd Hall Hacc m'.
  enough (tidy d m' ∧ (∀ x, profile_there d m' x ↔ there_after (profile_there d m x) cs x)
    ∧ (∀ p, (∀ c, c ∈ cs → ¬ d ++ [about c] `prefix_of` p) → m' !! p = m !! p)
    ∧ ∀ p n, m !! p = Some n → (∀ s, PRemove s ∈ cs → ¬ d ++ [s] `prefix_of` p) → m' !! p = Some n) as (Ht & Hx & Hp & Hk).
  { split; [|done]. destruct (C101_found now m' d d (td_wf _ _ Ht) (tidy_leads d m' Ht)) as (l & Hl & Hnd & Hin).
    exists l. split; [done|]. split; [done|]. intros x. rewrite Hin. apply Hx. }
  subst m'. induction cs as [|c cs IH] using rev_ind; [done|].
  destruct IH as (Ht & Hx & Hp & Hk). { intros s Hs. apply Hacc, elem_of_app. by left. }
  unfold run_pcmds in *. rewrite foldl_app. cbn [foldl]. set (m1 := foldl _ m cs) in *.
  assert (let m2 := run_pcmd now d ex m1 c in
    tidy d m2 ∧ (∀ x, profile_there d m2 x ↔ if decide (about c = x) then match c with PAdd _ => True | PRemove _ => False end else profile_there d m1 x)
    ∧ (∀ p, ¬ d ++ [about c] `prefix_of` p → m2 !! p = m1 !! p)
    ∧ (∀ p n, m1 !! p = Some n → (∀ s, c = PRemove s → ¬ d ++ [s] `prefix_of` p) → m2 !! p = Some n)) as (Ht2 & Hx2 & Hp2 & Hk2).
  { destruct c as [s|s].
    - destruct (C54_profile_names word s Hw) as (Hs & _); [apply Hacc, elem_of_app; right; left|].
      destruct (add_step now d ex m1 Hne Ht s Hs) as (H1 & H2 & H3 & H4). split; [done|]. split; [|split; [done|by intros p n Hn _; apply H4]].
      intros x. rewrite H2. cbn. destruct (decide (s = x)); naive_solver.
    - destruct (remove_step now d ex m1 Hne Ht s) as (H1 & H2 & H3). split; [done|]. split; [|split; [done|]].
      + intros x. rewrite H2. cbn. destruct (decide (s = x)); naive_solver.
      + intros p n Hn Hs. rewrite H3; [done|by apply Hs]. }
  split; [done|]. split_and!.
  - intros x. rewrite Hx2, there_after_snoc. destruct (decide _); [done|]. apply Hx.
  - intros p H. rewrite Hp2 by (apply H, elem_of_app; right; left). apply Hp. intros c' Hc'. apply H, elem_of_app. by left.
  - intros p n Hn H. apply Hk2; [|intros s ->; apply H, elem_of_app; right; left]. apply Hk; [done|]. intros s Hs. apply H, elem_of_app. by left.
Qed.
Print Assumptions C102_history.

(** ** Example *)
Definition c102_d : path := [lit "c"; lit "profiles"].
Definition c102_m : fs := list_to_map [
  ([lit "c"], Dir 1); (c102_d, Dir 1); (c102_d ++ [lit "a"], Dir 1); (c102_d ++ [lit "a"; lit "config"], File (lit "x") 1); (c102_d ++ [lit "b"], Dir 1)].
Definition c102_cs : list pcmd := [PAdd (lit "x"); PRemove (lit "a"); PAdd (lit "y"); PRemove (lit "x"); PRemove (lit "nothing"); PAdd (lit "a"); PAdd (lit "y")].
Example C102_example :
  wf_fs c102_m ∧ c102_d ≠ [] ∧ dir_at c102_m c102_d ∧ (∀ x n, c102_m !! (c102_d ++ [x]) = Some n → is_Dir n = true)
  ∧ (∀ s, PAdd s ∈ c102_cs → name_accepted ascii_word s = true)
  ∧ let m' := run_pcmds 5 c102_d (λ _, false) c102_m c102_cs in
    m' !! (c102_d ++ [lit "a"]) = Some (Dir 5) ∧ m' !! (c102_d ++ [lit "a"; lit "config"]) = None ∧ m' !! (c102_d ++ [lit "b"]) = Some (Dir 1)
    ∧ m' !! (c102_d ++ [lit "x"]) = None ∧ m' !! (c102_d ++ [lit "y"]) = Some (Dir 5).
Proof.
  split; [apply (bool_decide_unpack _); vm_compute; exact Logic.I|]. split; [done|]. split; [exists 1%Z; vm_compute; reflexivity|]. split; [|split].
  - intros x n H. unfold c102_m in H. apply elem_of_list_to_map_2 in H. unfold c102_d in H. cbn [app] in H.
    repeat (apply elem_of_cons in H as [H|H]; [first [discriminate H|by injection H as _ ->]|]). by apply elem_of_nil in H.
  - intros s H. unfold c102_cs in H. repeat (apply elem_of_cons in H as [H|H]; [try discriminate H; injection H as ->; vm_compute; reflexivity|]).
    by apply elem_of_nil in H.
  - vm_compute. repeat split.
Qed.

(** A command that removes a profile that is not there, with an argument that is
    no path either, fails and changes nothing. *)
Theorem C102_unknown now m d q ex s : wf_fs m → leads_to m d q → ex s = false → (¬ ∃ t, m !! (q ++ [s]) = Some (Dir t)) →
  remove_profile now d ex s m = ([], m, Err InputErr).
Proof.
  intros Hwf Hd _ Hn. destruct (C101_selected now m d q (ex s) s Hwf Hd) as (r & Hr & H).
  unfold remove_profile, bind. rewrite Hr. destruct r as [y| |]; [by destruct H as [_ H]|reflexivity..].
Qed.
Print Assumptions C102_unknown.
Example C102_unknown_ex : wf_fs c102_m ∧ leads_to c102_m c102_d c102_d ∧ (λ _ : str, false) (lit "z") = false
  ∧ (¬ ∃ t, c102_m !! (c102_d ++ [lit "z"]) = Some (Dir t)) ∧ ∃ t, c102_m !! (c102_d ++ [lit "b"]) = Some (Dir t).
Proof.
  split; [apply (bool_decide_unpack _); vm_compute; exact Logic.I|]. split; [apply tidy_leads; split; [apply (bool_decide_unpack _); vm_compute; exact Logic.I|apply (bool_decide_unpack _); vm_compute; exact Logic.I|exact (proj1 (proj2 (proj2 (proj2 C102_example))))]|].
  split; [done|]. split; [intros [t H]; vm_compute in H; discriminate H|]. exists 1%Z. vm_compute. reflexivity.
Qed.
