(** C101: the commands find the profiles that there are. *)
From Verif Require Export Profiles FSProofs FstoolsProofs.
From Verif Require Import FSDec.
From stdpp Require Import options.

(** ** Specification *)
(** The profiles: the directories in the directory [q]. *)
Definition profiles_at (m : fs) (q : path) (l : list str) : Prop :=
  NoDup l ∧ ∀ x, x ∈ l ↔ ∃ t, m !! (q ++ [x]) = Some (Dir t).
(** The directory that a path leads to, through links. *)
Definition leads_to (m : fs) (d q : path) : Prop := resolve true m d = Ok q ∧ dir_at m q.

(** ** Paths through links *)
Section links.
  Context (m : fs) (Hwf : wf_fs m).
  Lemma dir_parent p : dir_at m p → dir_at m (parent p).
  Proof using Hwf. intros H. destruct p as [|x p _] using rev_ind; [done|]. apply wf_dir_parent; [done|by destruct p|done]. Qed.
  Lemma namei_split f n : ∀ a cur b q, dir_at m cur → b ≠ [] → namei n f m cur (a ++ b) = Ok q →
    ∃ n' q0, namei n true m cur a = Ok q0 ∧ dir_at m q0 ∧ namei n' f m q0 b = Ok q.
  Proof using Hwf.
    induction n as [|n IH]; induction a as [|c a IHa]; intros cur b q Hd Hb H.
    - exists 0, cur. done.
    - simpl in H |- *. case_bool_decide.
      { apply IHa; [|done|done]. by apply dir_parent. }
      destruct (m !! (cur ++ [c])) as [[? ?|t ?|t]|] eqn:E.
      + by destruct a, b.
      + by rewrite (bool_decide_false (a ++ b = [])) in H by (by destruct a).
      + apply IHa; [|done|done]. exists t. by rewrite node_at_app_ne.
      + by destruct a, b.
    - exists (S n), cur. done.
    - simpl in H |- *. case_bool_decide.
      { apply IHa; [|done|done]. by apply dir_parent. }
      destruct (m !! (cur ++ [c])) as [[? ?|t ?|t]|] eqn:E.
      + by destruct a, b.
      + rewrite (bool_decide_false (a ++ b = [])) in H by (by destruct a). simpl in H. rewrite andb_false_r. rewrite app_assoc in H. apply IH; [|done|done].
        destruct (isabs t); [apply dir_at_nil|done].
      + apply IHa; [|done|done]. exists t. by rewrite node_at_app_ne.
      + by destruct a, b.
  Qed.
  Lemma namei_last_nofollow n : ∀ a cur x q k, dir_at m cur → namei n true m cur (a ++ [x]) = Ok q → node_at m q = Some k →
    ∃ q', namei n false m cur (a ++ [x]) = Ok q' ∧ is_Some (node_at m q').
  Proof using Hwf.
    induction n as [|n IH]; induction a as [|c a IHa]; intros cur x q k Hd H Hk; simpl in H |- *.
    1, 3: case_bool_decide;
      [destruct (dir_parent _ Hd) as [t Ht]; exists (parent cur); split; [done|by rewrite Ht]|];
      pose proof (node_at_app_ne m cur [x] ltac:(done)) as En;
      destruct (m !! (cur ++ [x])) as [[? ?|? ?|?]|] eqn:E;
      [exists (cur ++ [x]); split; [done|by rewrite En].. |injection H as <-; congruence].
    - case_bool_decide; [by eapply IHa; [by apply dir_parent| |]|].
      destruct (m !! (cur ++ [c])) as [[? ?|t ?|t]|] eqn:E.
      + by destruct a.
      + by rewrite andb_false_r in H.
      + eapply IHa; [|done|done]. exists t. by rewrite node_at_app_ne.
      + by destruct a.
    - case_bool_decide; [by eapply IHa; [by apply dir_parent| |]|].
      destruct (m !! (cur ++ [c])) as [[? ?|t ?|t]|] eqn:E.
      + by destruct a.
      + rewrite andb_false_r in H. rewrite (bool_decide_false (a ++ [x] = [])) by (by destruct a). simpl.
        rewrite app_assoc in H |- *. eapply IH; [|done|done]. destruct (isabs t); [apply dir_at_nil|done].
      + eapply IHa; [|done|done]. exists t. by rewrite node_at_app_ne.
      + by destruct a.
  Qed.
  Lemma makedirs_there now d q : leads_to m d q → makedirs now d m = ([], m, Ok tt).
  Proof using Hwf.
    intros [Hr [t Ht]]. unfold makedirs. destruct d as [|x a _] using rev_ind; [done|]. rewrite rev_app_distr. cbn [rev app makedirs_rev].
    destruct (namei_split true _ a [] [x] q (dir_at_nil m) ltac:(done) Hr) as (n' & q0 & Ha & [t0 Ht0] & _).
    destruct (namei_last_nofollow _ a [] x q _ (dir_at_nil m) Hr Ht) as (q' & Hq' & [k Hk]).
    change (resolve false m (a ++ [x]) = Ok q') in Hq'. change (resolve true m a = Ok q0) in Ha.
    assert (exists_ m a = true) as Hex. { unfold exists_, stat. by rewrite Ha, Ht0. }
    assert (isdir m (a ++ [x]) = true) as Hdir. { unfold isdir, stat. by rewrite Hr, Ht. }
    assert (mkdir now (a ++ [x]) m = ([], m, Err FileExists)) as Hmk.
    { unfold mkdir, bind, eval, get. rewrite Hq'. simpl. by rewrite Hk. }
    assert (∀ k' : M fs unit, k' m = ([], m, Ok tt) → bind k' (λ _, catch (mkdir now (a ++ [x])) (λ x0,
      if is_oserror x0 then Some (d ←! get (λ m, isdir m (a ++ [x])); if d : bool then ret tt else throw x0) else None)) m = ([], m, Ok tt)) as H.
    { intros k' Hk'. unfold bind at 1. rewrite Hk'. unfold catch. rewrite Hmk. simpl. unfold bind, get. rewrite Hdir. done. }
    rewrite rev_involutive. destruct (rev a) as [|y ra] eqn:Era; [by apply H|]. apply H.
    unfold bind, get. rewrite Hex. done.
  Qed.
End links.

(** ** C101 *)
Lemma profiles_found m q : profiles_at m q (map fst (List.filter (λ e, is_Dir e.2) (entries m q))).
Proof.
  split.
  - pose proof (NoDup_entries m q) as H. induction (entries m q) as [|[x n] l IH]; [constructor|]. cbn in H |- *.
    apply NoDup_cons in H as [Hx H]. destruct (is_Dir n); cbn; [|by apply IH]. apply NoDup_cons. split; [|by apply IH].
    intros ([x' n'] & -> & Hin)%elem_of_list_fmap. apply Hx, elem_of_list_fmap. exists (x', n'). split; [done|].
    by apply elem_of_list_In, filter_In in Hin as [?%elem_of_list_In _].
  - intros x. rewrite elem_of_list_fmap. split.
    + intros ([x' n] & -> & Hin). apply elem_of_list_In, filter_In in Hin as [Hin Hn]. apply elem_of_list_In, elem_of_entries in Hin.
      destruct n as [| |t]; [done|done|]. by exists t.
    + intros [t Ht]. exists (x, Dir t). split; [done|]. apply elem_of_list_In, filter_In. split; [|done].
      by apply elem_of_list_In, elem_of_entries.
Qed.

(** A command finds exactly the directories in the profiles directory, wherever that
    is, and changes nothing. *)
Theorem C101_found now m d q : wf_fs m → leads_to m d q →
  ∃ l, find_profiles now d m = ([], m, Ok l) ∧ profiles_at m q l.
Proof.
  intros Hwf Hd. eexists. split; [|apply (profiles_found m q)].
  unfold find_profiles. unfold bind at 1. rewrite (makedirs_there m Hwf now d q Hd). destruct Hd as [Hr [t Ht]].
  unfold bind, eval, scandir. rewrite Hr, Ht. done.
Qed.
Print Assumptions C101_found.

Lemma namei_join (m : fs) f b : b ≠ [] → ∀ n a cur q, dir_at m q → namei n true m cur a = Ok q →
  ∃ n', namei n f m cur (a ++ b) = namei n' f m q b.
Proof.
  intros Hb. induction n as [|n IH]; induction a as [|c a IHa]; intros cur q Hd H.
  1, 3: eexists; simpl in H; by injection H as <-.
  - simpl in H |- *. case_bool_decide; [by apply IHa|].
    destruct (m !! (cur ++ [c])) as [[? ?|t ?|t]|] eqn:E.
    + destruct a; [|done]. injection H as <-. destruct Hd as [? Hd]. rewrite node_at_app_ne in Hd by done. congruence.
    + by rewrite andb_false_r in H.
    + by apply IHa.
    + destruct a; [|done]. injection H as <-. destruct Hd as [? Hd]. rewrite node_at_app_ne in Hd by done. congruence.
  - simpl in H |- *. case_bool_decide; [by apply IHa|].
    destruct (m !! (cur ++ [c])) as [[? ?|t ?|t]|] eqn:E.
    + destruct a; [|done]. injection H as <-. destruct Hd as [? Hd]. rewrite node_at_app_ne in Hd by done. congruence.
    + rewrite andb_false_r in H. rewrite (bool_decide_false (a ++ b = [])) by (by destruct a). simpl. rewrite app_assoc. by apply IH.
    + by apply IHa.
    + destruct a; [|done]. injection H as <-. destruct Hd as [? Hd]. rewrite node_at_app_ne in Hd by done. congruence.
Qed.
Section create.
  Context (m : fs) (Hwf : wf_fs m).
  Lemma namei_mono m' : m ⊆ m' → ∀ n a cur q, dir_at m q → namei n true m cur a = Ok q → namei n true m' cur a = Ok q.
  Proof using Type.
    intros Hm. induction n as [|n IH]; induction a as [|c a IHa]; intros cur q Hd H; try done; simpl in H |- *.
    all: case_bool_decide; [by apply IHa|]; destruct (m !! (cur ++ [c])) as [[? ?|t ?|t]|] eqn:E;
      [rewrite (lookup_weaken _ _ _ _ E Hm); done|rewrite (lookup_weaken _ _ _ _ E Hm)|rewrite (lookup_weaken _ _ _ _ E Hm); by apply IHa
      |destruct a; [|done]; injection H as <-; destruct Hd as [? Hd]; rewrite node_at_app_ne in Hd by done; congruence].
    - done.
    - rewrite andb_false_r in H |- *. by apply IH.
  Qed.
  Context (now : Z) (a q : path) (x : str) (Hl : leads_to m a q) (Hx : m !! (q ++ [x]) = None).
  Lemma missing_ok r : dirs_ok m (q ++ x :: r).
  Proof using Hwf Hl Hx.
    intros p Hp Hpre. destruct Hl as [_ Hq]. destruct (prefix_weak_total p q (q ++ x :: r)) as [H|[s ->]]; [done|by eexists| |].
    - right. by apply (wf_dir_anc m Hwf q).
    - apply prefix_app_inv in Hpre. destruct s as [|y s]; [right; by rewrite app_nil_r|]. apply prefix_cons_inv_1 in Hpre as ->.
      left. apply (wf_missing_below m (q ++ [x]) Hwf); [by destruct q|done|]. exists s. by rewrite <-app_assoc.
  Qed.
  Lemma leads_mk r : leads_to (m ∪ dirmap now (q ++ r)) a q.
  Proof using Hl. destruct Hl as [Hr Hq]. split; [|by apply dir_at_mk]. apply namei_mono; [apply map_union_subseteq_l|done|done]. Qed.
  Lemma mkdir_missing s y : valid_comps (s ++ [y]) → dirs_ok m (q ++ s) → m !! (q ++ s ++ [y]) = None →
    let m' := m ∪ dirmap now (q ++ s ++ [y]) in mkdir now (a ++ s ++ [y]) (m ∪ dirmap now (q ++ s)) = ([m'], m', Ok tt).
  Proof using Hwf Hl.
    intros Hv Hok Hn m'. set (m1 := m ∪ dirmap now (q ++ s)). apply valid_app in Hv as [Hvs Hvy%valid_one].
    assert (resolve false m1 (a ++ s ++ [y]) = Ok (q ++ s ++ [y])) as Hr.
    { destruct (leads_mk s) as [Hr Hq]. unfold resolve.
      destruct (namei_join m1 false (s ++ [y]) ltac:(by destruct s) 40 a [] q Hq Hr) as [n' ->].
      rewrite namei_dirs; [rewrite app_assoc; by apply namei_last|done|].
      intros p Hp Hpre. apply dir_at_made; [done|]. by apply prefix_app. }
    assert (node_at m1 (q ++ s ++ [y]) = None) as Hno.
    { rewrite app_assoc, node_at_app_ne by done. subst m1. rewrite lookup_mk, <-app_assoc, Hn, decide_False; [done|].
      intros [_ H%prefix_length]. rewrite !app_length in H. cbn in H. lia. }
    unfold mkdir, bind, eval, get. rewrite Hr. cbn. rewrite Hno. cbn. subst m' m1.
    rewrite !(app_assoc q s [y]) in *. by rewrite mk_snoc.
  Qed.
  Lemma exists_missing s : s ≠ [] → valid_comps s → head s = Some x → exists_ m (a ++ s) = false.
  Proof using Hl Hx.
    intros Hs Hv Hh. destruct Hl as [Hr Hq]. unfold exists_, stat, resolve.
    destruct (namei_join m true s Hs 40 a [] q Hq Hr) as [n' ->]. destruct s as [|x' s]; [done|]. injection Hh as ->.
    inversion_clear Hv as [|? ? Hvx _].
    assert (namei n' true m q (x :: s) = match s with [] => Ok (q ++ [x]) | _ => Err FileNotFound end) as ->.
    { destruct n'; simpl; rewrite bool_decide_false by (by intros ->; destruct Hvx as (_ & _ & _ & ?)); by rewrite Hx. }
    destruct s; [|done]. by rewrite node_at_app_ne, Hx.
  Qed.
  Lemma makedirs_missing r : valid_comps (x :: r) → ∃ tr, makedirs now (a ++ x :: r) m = (tr, m ∪ dirmap now (q ++ x :: r), Ok tt).
  Proof using Hwf Hl Hx.
    assert (∀ s y (k : M fs unit) tr, k m = (tr, m ∪ dirmap now (q ++ s), Ok tt) →
      valid_comps (s ++ [y]) → dirs_ok m (q ++ s) → m !! (q ++ s ++ [y]) = None →
      ∃ tr, bind k (λ _, catch (mkdir now (a ++ s ++ [y])) (λ x0,
        if is_oserror x0 then Some (d ←! get (λ m, isdir m (a ++ s ++ [y])); if d : bool then ret tt else throw x0) else None)) m
      = (tr, m ∪ dirmap now (q ++ s ++ [y]), Ok tt)) as Hstep.
    { intros s y k tr Hk Hv Hok Hn. unfold bind at 1. rewrite Hk. unfold catch. rewrite mkdir_missing by done. by eexists. }
    induction r as [|y r IH] using rev_ind; intros Hv.
    - unfold makedirs. rewrite rev_app_distr. cbn [rev app makedirs_rev]. rewrite rev_involutive.
      assert (m = m ∪ dirmap now (q ++ [])) as Em. { destruct Hl as [_ Hq]. by rewrite app_nil_r, mk_existing. }
      destruct (rev a) as [|z ra].
      + apply (Hstep [] x _ []); [by rewrite <-Em|done| |done]. intros p Hp Hpre. apply (missing_ok [] p Hp). etrans; [exact Hpre|].
        rewrite app_nil_r. by eexists.
      + apply (Hstep [] x _ []); [|done| |done].
        * assert (exists_ m a = true) as Hex. { destruct Hl as [Hr [t Ht]]. unfold exists_, stat. by rewrite Hr, Ht. }
          unfold bind, get. rewrite Hex. cbn. by rewrite <-Em.
        * intros p Hp Hpre. apply (missing_ok [] p Hp). etrans; [exact Hpre|]. rewrite app_nil_r. by eexists.
    - assert (valid_comps (x :: r)) as Hv'. { change (x :: r ++ [y]) with ((x :: r) ++ [y]) in Hv. by apply valid_app in Hv as [? _]. }
      destruct (IH Hv') as [tr Htr]. unfold makedirs in Htr |- *.
      change (x :: r ++ [y]) with ((x :: r) ++ [y]) in *. rewrite app_assoc, rev_app_distr. cbn [rev app makedirs_rev].
      destruct (rev (a ++ x :: r)) as [|z ra] eqn:Era.
      { exfalso. apply (f_equal (@length _)) in Era. rewrite rev_length, app_length in Era. cbn in Era. lia. }
      assert (rev (z :: ra) = a ++ x :: r) as Er by (by rewrite <-Era, rev_involutive). rewrite Er.
      rewrite <-app_assoc. eapply (Hstep (x :: r) y).
      + pose proof (exists_missing (x :: r) ltac:(done) Hv' eq_refl) as Hex. unfold bind, get. rewrite Hex. cbn [app]. unfold catch. rewrite Htr. done.
      + done.
      + apply missing_ok.
      + apply (wf_missing_below m (q ++ [x]) Hwf); [by destruct q|done|]. exists (r ++ [y]). by rewrite <-app_assoc.
  Qed.
End create.

(** If it is missing there are no profiles; the directories that are missing on the
    path are created where it leads, nothing else changes. *)
Theorem C101_created now m a q x r : wf_fs m → leads_to m a q → m !! (q ++ [x]) = None → valid_comps (x :: r) →
  ∃ tr m', find_profiles now (a ++ x :: r) m = (tr, m', Ok []) ∧ leads_to m' (a ++ x :: r) (q ++ x :: r) ∧
    ∀ p, m' !! p = if decide (q ++ [x] `prefix_of` p ∧ p `prefix_of` q ++ x :: r) then Some (Dir now) else m !! p.
Proof.
  intros Hwf Hl Hx Hv. destruct (makedirs_missing m Hwf now a q x Hl Hx r Hv) as [tr Htr].
  pose proof (missing_ok m Hwf a q x Hl Hx r) as Hok. set (m' := m ∪ dirmap now (q ++ x :: r)) in *.
  assert (∀ p, q ++ [x] `prefix_of` p → m !! p = None) as Hbelow.
  { intros p. by apply (wf_missing_below m (q ++ [x]) Hwf); [destruct q|]. }
  assert (dir_at m' (q ++ x :: r)) as Hd by by apply dir_at_made.
  assert (leads_to m' (a ++ x :: r) (q ++ x :: r)) as Hl'.
  { split; [|done]. destruct (leads_mk m now a q Hl (x :: r)) as [Hr Hq]. unfold resolve.
    destruct (namei_join m' true (x :: r) ltac:(done) 40 a [] q Hq Hr) as [n' ->].
    rewrite <-(app_nil_r (x :: r)) at 1. rewrite namei_dirs; [by destruct n'|done|].
    intros p Hp Hpre. apply dir_at_made; [done|]. by apply prefix_app. }
  assert (entries m' (q ++ x :: r) = []) as Hes.
  { apply entries_nil. intros p n Hp [y ->]. subst m'. rewrite lookup_mk, Hbelow in Hp by (exists (r ++ [y]); by rewrite <-!app_assoc).
    destruct (decide _) as [[_ H%prefix_length]|]; [|done]. rewrite !app_length in H. cbn in H. lia. }
  exists tr, m'. split_and!; [|done|].
  - unfold find_profiles. unfold bind at 1. rewrite Htr. unfold bind, eval, scandir. destruct Hl' as [-> [t ->]]. rewrite Hes. cbn.
    by rewrite !app_nil_r.
  - intros p. subst m'. rewrite lookup_mk. destruct (m !! p) eqn:Ep.
    + rewrite decide_False; [done|]. intros [H _]. apply Hbelow in H. congruence.
    + destruct (decide (p ≠ [] ∧ p `prefix_of` q ++ x :: r)) as [[Hp Hpre]|Hno].
      * rewrite decide_True; [done|]. split; [|done].
        destruct (prefix_weak_total p q (q ++ x :: r)) as [H|[s ->]]; [done|by eexists| |].
        -- destruct Hl as [_ Hq]. destruct (wf_dir_anc m Hwf q p Hq H) as [t Ht]. rewrite node_at_ne in Ht by done. congruence.
        -- apply prefix_app_inv in Hpre. destruct s as [|y s].
           ++ destruct Hl as [_ [t Ht]]. rewrite app_nil_r in *. rewrite node_at_ne in Ht by done. congruence.
           ++ apply prefix_cons_inv_1 in Hpre as ->. exists s. by rewrite <-app_assoc.
      * rewrite decide_False; [done|]. intros [[s ->] H2]. apply Hno. split; [|done]. by destruct q.
Qed.
Print Assumptions C101_created.

(** Something else in its place, such as a file, a link to one or a link to
    nothing, is an error, and nothing changes. *)
Lemma namei_oserror f m e : ∀ n a cur, namei n f m cur a = Err e → is_oserror e = true.
Proof.
  induction n as [|n IH]; induction a as [|c a IHa]; intros cur H; try done; simpl in H.
  all: case_bool_decide; [by eapply IHa|]; destruct (m !! (cur ++ [c])) as [[? ?|t ?|t]|];
    [destruct a; [done|by injection H as <-]| |by eapply IHa|destruct a; [done|by injection H as <-]].
  all: destruct (bool_decide (a = []) && negb f); [done|]; ((by injection H as <-) || (by eapply IH)).
Qed.
Section blocked.
  Context (m : fs) (Hwf : wf_fs m) (now : Z) (a q : path) (x : str) (n : node).
  Context (Hl : leads_to m a q) (Hvx : valid_name x) (Hn : m !! (q ++ [x]) = Some n) (Hnd : isdir m (a ++ [x]) = false).
  Lemma resolve_blocked f r : r ≠ [] → ∃ e, resolve f m (a ++ x :: r) = Err e ∧ is_oserror e = true.
  Proof using Hwf Hl Hnd.
    intros Hr. destruct (resolve f m (a ++ x :: r)) as [p|e] eqn:E; [|by exists e; split; [|by eapply namei_oserror]].
    exfalso. unfold resolve in E. replace (a ++ x :: r) with ((a ++ [x]) ++ r) in E by by rewrite <-app_assoc.
    destruct (namei_split m Hwf f 40 (a ++ [x]) [] r p (dir_at_nil m) Hr E) as (n' & q0 & Hq & [t Ht] & _).
    unfold isdir, stat, resolve in Hnd. by rewrite Hq, Ht in Hnd.
  Qed.
  Lemma makedirs_blocked r : ∃ e, makedirs now (a ++ x :: r) m = ([], m, Err e) ∧ is_oserror e = true.
  Proof using Hwf Hl Hvx Hn Hnd.
    assert (∀ r, ∃ e, mkdir now (a ++ x :: r) m = ([], m, Err e) ∧ is_oserror e = true) as Hmk.
    { intros r'. destruct (decide (r' = [])) as [->|Hr'].
      - exists FileExists. split; [|done]. unfold mkdir, bind, eval, get. destruct Hl as [Hr Hq].
        destruct (namei_join m false [x] ltac:(done) 40 a [] q Hq Hr) as [n' En]. unfold resolve. rewrite En, (namei_last n' false m q x) by done.
        cbn. by rewrite node_at_app_ne, Hn.
      - destruct (resolve_blocked false r' Hr') as (e & He & Ho). exists e. split; [|done]. unfold mkdir, bind, eval. by rewrite He. }
    assert (∀ r, isdir m (a ++ x :: r) = false) as Hdir.
    { intros r'. destruct (decide (r' = [])) as [->|Hr']; [done|]. destruct (resolve_blocked true r' Hr') as (e & He & _).
      unfold isdir, stat. by rewrite He. }
    assert (∀ r (k : M fs unit), k m = ([], m, Ok tt) → ∃ e, bind k (λ _, catch (mkdir now (a ++ x :: r)) (λ x0,
      if is_oserror x0 then Some (d ←! get (λ m, isdir m (a ++ x :: r)); if d : bool then ret tt else throw x0) else None)) m
      = ([], m, Err e) ∧ is_oserror e = true) as Hstep.
    { intros r' k Hk. destruct (Hmk r') as (e & He & Ho). exists e. split; [|done]. unfold bind at 1. rewrite Hk. unfold catch. rewrite He, Ho.
      unfold bind, get. by rewrite Hdir. }
    induction r as [|y r IH] using rev_ind.
    - unfold makedirs. rewrite rev_app_distr. cbn [rev app makedirs_rev]. rewrite rev_involutive. destruct (rev a) as [|z ra]; apply Hstep; [done|].
      assert (exists_ m a = true) as Hex. { destruct Hl as [Hr [t Ht]]. unfold exists_, stat. by rewrite Hr, Ht. }
      unfold bind, get. by rewrite Hex.
    - destruct IH as (e & He & Ho). unfold makedirs in He |- *.
      replace (a ++ x :: r ++ [y]) with ((a ++ x :: r) ++ [y]) by by rewrite <-app_assoc.
      rewrite rev_app_distr. cbn [rev app makedirs_rev]. rewrite rev_involutive.
      destruct (rev (a ++ x :: r)) as [|z ra] eqn:Era.
      { exfalso. apply (f_equal (@length _)) in Era. rewrite rev_length, app_length in Era. cbn in Era. lia. }
      rewrite <-app_assoc. cbn [app].
      destruct (exists_ m (a ++ x :: r)) eqn:Ex.
      { apply Hstep. unfold bind, get. by rewrite Ex. }
      destruct (decide (e = FileExists)) as [->|Hne].
      + apply Hstep. unfold bind, get. rewrite Ex. unfold catch. by rewrite He.
      + exists e. split; [|done]. unfold bind at 1, bind at 1, get at 1. rewrite Ex. unfold catch at 1. rewrite He. by destruct e.
  Qed.
End blocked.
Theorem C101_blocked now m a q x n r : wf_fs m → leads_to m a q → valid_name x → m !! (q ++ [x]) = Some n → isdir m (a ++ [x]) = false →
  ∃ e, find_profiles now (a ++ x :: r) m = ([], m, Err e) ∧ is_oserror e = true.
Proof.
  intros Hwf Hl Hv Hn Hnd. destruct (makedirs_blocked m Hwf now a q x n Hl Hv Hn Hnd r) as (e & He & Ho). exists e. split; [|done].
  unfold find_profiles. unfold bind at 1. by rewrite He.
Qed.
Print Assumptions C101_blocked.

(** A name selects the profile of that name exactly if there is one. *)
Theorem C101_selected now m d q ex x : wf_fs m → leads_to m d q →
  ∃ s, find_profile now d ex x m = ([], m, Ok s) ∧
    match s with
    | Selected y => y = x ∧ ∃ t, m !! (q ++ [x]) = Some (Dir t)
    | _ => ¬ ∃ t, m !! (q ++ [x]) = Some (Dir t)
    end.
Proof.
  intros Hwf Hd. destruct (C101_found now m d q Hwf Hd) as (l & Hl & _ & Hin). eexists. split.
  { unfold find_profile. unfold bind. rewrite Hl. done. }
  specialize (Hin x). unfold select_profile. case_bool_decide as Hx; [split; [done|by apply Hin]|]. rewrite Hin in Hx.
  destruct ex; [|done]. by destruct l.
Qed.
Print Assumptions C101_selected.

(** One of the three cases holds for every path. *)
Theorem C101_cases m d : wf_fs m → valid_comps d →
  (∃ q, leads_to m d q)
  ∨ ∃ a q x r, d = a ++ x :: r ∧ leads_to m a q ∧ valid_comps (x :: r)
      ∧ (m !! (q ++ [x]) = None ∨ ∃ n, m !! (q ++ [x]) = Some n ∧ isdir m (a ++ [x]) = false).
Proof.
  intros Hwf. induction d as [|y d IH] using rev_ind; intros Hv; [left; exists []; split; [done|apply dir_at_nil]|].
  apply valid_app in Hv as [Hv1 Hv2]. destruct (IH Hv1) as [[q Hq]|(a & q & x & r & -> & Hl & Hvr & H)].
  - destruct (isdir m (d ++ [y])) eqn:Ed.
    + left. unfold isdir, stat in Ed. destruct (resolve true m (d ++ [y])) as [p|] eqn:Er; [|done].
      destruct (node_at m p) as [[| |t]|] eqn:En; try done. exists p. split; [done|by exists t].
    + right. exists d, q, y, []. split; [done|]. split; [done|]. split; [done|].
      destruct (m !! (q ++ [y])) as [n|]; [right; by exists n|by left].
  - right. exists a, q, x, (r ++ [y]). split; [by rewrite <-app_assoc|]. split; [done|]. split; [|done].
    change (x :: r ++ [y]) with ((x :: r) ++ [y]). by apply valid_app.
Qed.
Print Assumptions C101_cases.

(** ** Example *)
(** The profiles directory is reached through a link; of its entries two are
    directories, one is a file and one is a link to a directory. *)
Definition c101_d : path := [lit "home"; lit ".config"; lit "zielen"; lit "profiles"].
Definition c101_q : path := [lit "home"; lit "dotfiles"; lit "zielen"; lit "profiles"].
Definition c101_m : fs := list_to_map [
  ([lit "home"], Dir 1); ([lit "home"; lit "dotfiles"], Dir 1); ([lit "home"; lit ".config"], Link (lit "dotfiles") 1);
  ([lit "home"; lit "dotfiles"; lit "zielen"], Dir 1); (c101_q, Dir 1);
  (c101_q ++ [lit "a"], Dir 1); (c101_q ++ [lit "b"], Dir 1); (c101_q ++ [lit "c"], Link (lit "a") 1); (c101_q ++ [lit "d"], File [] 1)].
Example C101_example : leads_to c101_m c101_d c101_q ∧
  ∃ l, find_profiles 5 c101_d c101_m = ([], c101_m, Ok l) ∧ lit "b" ∈ l ∧ lit "c" ∉ l ∧ lit "d" ∉ l.
Proof.
  assert (leads_to c101_m c101_d c101_q) as Hl. { split; [vm_compute; reflexivity|exists 1%Z; vm_compute; reflexivity]. }
  split; [exact Hl|].
  assert (wf_fs c101_m) as Hwf by (apply (bool_decide_unpack _); vm_compute; exact Logic.I).
  destruct (C101_found 5 c101_m c101_d c101_q Hwf Hl) as (l & Hl' & _ & Hin). exists l. split; [exact Hl'|].
  split_and!; [apply Hin; exists 1%Z; vm_compute; reflexivity|..]; intros H; apply Hin in H as [t Ht]; vm_compute in Ht; discriminate.
Qed.
(** Below the link, "new" is missing; the file "d" would be in the way. *)
Example C101_example_other :
  let a := [lit "home"; lit ".config"] in let q := [lit "home"; lit "dotfiles"] in
  wf_fs c101_m ∧ leads_to c101_m a q ∧ c101_m !! (q ++ [lit "new"]) = None ∧ valid_comps [lit "new"; lit "profiles"]
  ∧ leads_to c101_m c101_d c101_q ∧ valid_name (lit "d") ∧ c101_m !! (c101_q ++ [lit "d"]) = Some (File [] 1) ∧ isdir c101_m (c101_d ++ [lit "d"]) = false.
Proof.
  cbv zeta. split; [apply (bool_decide_unpack _); vm_compute; exact Logic.I|].
  split; [split; [vm_compute; reflexivity|exists 1%Z; vm_compute; reflexivity]|]. split; [vm_compute; reflexivity|].
  split; [apply (bool_decide_unpack _); vm_compute; exact Logic.I|]. split; [apply C101_example|].
  split; [apply (bool_decide_unpack _); vm_compute; exact Logic.I|]. split; vm_compute; reflexivity.
Qed.
