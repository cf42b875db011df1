(** C94: the local and the remote directory of a profile are the ones that the
    configuration file names. *)
From Verif Require Export HomeDir.
From Verif Require Import ConfigProofs.
From stdpp Require Import options.

(** ** Specification *)

(** [home] is a way to write the directory with the components [hl]; slashes
    may follow it. *)
Definition home_names (home : str) (hl : list str) : Prop :=
  valid_comps hl ∧ ∃ n, home = abs_path hl ++ replicate n c_slash.

(** The components of the directory that a value names: from the home
    directory after "~", otherwise from the root. *)
Definition named_dir (hl : list str) (value : str) : list str :=
  match value with
  | c :: r => if bool_decide (c = c_tilde) then walk hl (split_on c_slash r) else walk [] (split_on c_slash value)
  | [] => []
  end.

(** No ".." among the names leads out of the directory where they start;
    [n] is how far below it they are already. *)
Fixpoint stays_below (n : nat) (steps : list str) : bool :=
  match steps with
  | [] => true
  | x :: xs =>
      if bool_decide (x = [] ∨ x = dot) then stays_below n xs
      else if bool_decide (x = dotdot) then match n with O => false | S n' => stays_below n' xs end
      else stays_below (S n) xs
  end.

Definition dir_key (k : str) : Prop := k = lit "LocalDir" ∨ k = lit "RemoteDir".

(** ** Lemmas *)
Local Ltac lits := apply (bool_decide_unpack _); vm_compute; exact Logic.I.
Lemma accepted_shape k v : dir_key k → check_value k v = false → abs_syntax v.
Proof.
  intros Hk Hc.
  assert (re_abs v = true) as H.
  { destruct Hk as [-> | ->]; unfold check_value in Hc;
      destruct (bool_decide (v = [])) eqn:E;
      rewrite ?andb_false_r in Hc; cbn [andb negb] in Hc.
    all: try (rewrite (bool_decide_true (_ ∈ required_keys)) in Hc by lits; done).
    all: rewrite (bool_decide_false (_ ∈ bool_keys)) in Hc by lits.
    all: cbn [andb] in Hc.
    - rewrite bool_decide_true in Hc by done. by destruct (re_abs v).
    - rewrite bool_decide_false in Hc by lits.
      rewrite bool_decide_true in Hc by done. by destruct (re_abs v). }
  unfold re_abs in H. apply orb_true_iff in H as [H|H]; apply startswith_spec in H as [r ->]; exists r; auto.
Qed.
Lemma tilde_accepted k r : dir_key k → check_value k (c_tilde :: c_slash :: r) = false.
Proof.
  intros Hk. destruct Hk as [-> | ->]; unfold check_value;
    rewrite (bool_decide_false (c_tilde :: c_slash :: r = [])) by done; rewrite andb_false_r;
    rewrite (bool_decide_false (_ ∈ bool_keys)) by lits; cbn [andb].
  - by rewrite bool_decide_true.
  - rewrite bool_decide_false by lits.
    by rewrite bool_decide_true.
Qed.

Lemma starts1 c x : c_slash ≠ c → startswith [c_slash] (c :: x) = false.
Proof. intros H. cbn [startswith]. by rewrite (proj2 (N.eqb_neq c_slash c)). Qed.
Lemma starts2 c x : c_slash ≠ c → startswith [c_slash; c_slash] (c_slash :: c :: x) = false.
Proof. exact (starts1 c x). Qed.

(** Home without its final slashes. *)
Definition home_root (hl : list str) : str := match hl with [] => [] | _ => abs_path hl end.
Lemma rstrip_slashes a n : (∀ q, a ≠ q ++ [c_slash]) → rstrip_by is_slash (a ++ replicate n c_slash) = a.
Proof.
  intros Ha. unfold rstrip_by. rewrite rev_app_distr.
  rewrite lstrip_by_app.
  - rewrite lstrip_by_idem; [apply rev_involutive|].
    intros c r E. unfold is_slash. destruct (N.eqb_spec c c_slash) as [->|_]; [|done].
    exfalso. apply (Ha (rev r)). rewrite <-(rev_involutive a), E. done.
  - apply Forall_rev. apply Forall_replicate. done.
Qed.
Lemma abs_path_no_slash l q : l ≠ [] → valid_comps l → abs_path l ≠ q ++ [c_slash].
Proof.
  intros Hn Hv E. unfold abs_path in E. destruct q as [|z q]; simpl in E.
  - injection E as E. revert E. apply join_on_ne; [done|]. eapply Forall_impl; [exact Hv|apply valid_ne].
  - injection E as _ E. revert E. by apply join_on_last_ne.
Qed.
Lemma home_rstrip home hl : home_names home hl → rstrip_by is_slash home = home_root hl.
Proof.
  intros [Hv [n ->]]. destruct hl as [|x hl].
  - change (abs_path [] ++ replicate n c_slash) with ([] ++ replicate (S n) c_slash).
    apply rstrip_slashes. intros [|? ?]; done.
  - apply rstrip_slashes. intros q. by apply abs_path_no_slash.
Qed.

Lemma expand_tilde home users hl r : home_names home hl →
  expanduser home users (c_tilde :: c_slash :: r) = home_root hl ++ c_slash :: r.
Proof.
  intros H. unfold expanduser. rewrite N.eqb_refl.
  change (take_while not_slash (c_slash :: r)) with (@nil char). cbv zeta iota.
  rewrite (home_rstrip home hl H). simpl (drop _ _). by destruct (home_root hl).
Qed.
Lemma expand_tilde_only home users hl : home_names home hl →
  expanduser home users [c_tilde] = abs_path hl.
Proof.
  intros H. unfold expanduser. rewrite N.eqb_refl.
  change (take_while not_slash []) with (@nil char). cbv zeta iota.
  rewrite (home_rstrip home hl H). simpl (drop _ _). rewrite app_nil_r. by destruct hl.
Qed.
Lemma expand_other home users c r : c ≠ c_tilde → expanduser home users (c :: r) = c :: r.
Proof. intros H. unfold expanduser. by rewrite (proj2 (N.eqb_neq c c_tilde)). Qed.

Lemma root_join hl l : l ≠ [] → home_root hl ++ c_slash :: join_on c_slash l = abs_path (hl ++ l).
Proof.
  intros Hl. destruct hl as [|x hl]; [done|]. unfold home_root, abs_path.
  rewrite join_on_app by done. done.
Qed.

Lemma walk_stays cs hl l :
  Forall (λ c, c_slash ∉ c) cs → valid_comps l → stays_below (length l) cs = true →
  ∃ l', norm_comps false cs (rev l ++ [[c_tilde]]) = [c_tilde] :: l' ∧ walk (hl ++ l) cs = hl ++ l' ∧ valid_comps l'.
Proof.
  revert l. induction cs as [|c cs IH]; intros l Hcs Hl Hs.
  - exists l. simpl. rewrite rev_app_distr, rev_involutive. done.
  - inversion_clear Hcs as [|? ? Hc Hcs']. cbn [stays_below norm_comps walk] in *.
    destruct (decide (c = [] ∨ c = dot)) as [E|E].
    + rewrite bool_decide_true in Hs by done. rewrite !(bool_decide_true (c = [] ∨ c = dot)) by done. by apply IH.
    + rewrite bool_decide_false in Hs by done. rewrite !(bool_decide_false (c = [] ∨ c = dot)) by done.
      destruct (decide (c = dotdot)) as [->|E'].
      * rewrite bool_decide_true in Hs by done. rewrite (bool_decide_false (dotdot ≠ dotdot)) by auto.
        rewrite (bool_decide_true (dotdot = dotdot)) by done.
        destruct l as [|x l _] using rev_ind; [done|].
        apply Forall_app in Hl as [Hl Hx]. inversion_clear Hx as [|? ? Hx' _].
        rewrite app_length, Nat.add_comm in Hs. cbn [length Nat.add] in Hs.
        rewrite rev_app_distr. cbn [rev app]. destruct Hx' as (?&?&?&?).
        rewrite (bool_decide_false (x = dotdot)) by done.
        rewrite app_assoc, removelast_last. by apply IH.
      * rewrite bool_decide_false in Hs by done. rewrite (bool_decide_true (c ≠ dotdot)) by done.
        rewrite (bool_decide_false (c = dotdot)) by done.
        destruct (IH (l ++ [c])) as (l' & H1 & H2 & H3); [done| | |].
        -- apply Forall_app. split; [done|]. constructor; [|constructor].
           unfold valid_name. split; [intros ->; apply E; by left|]. split; [done|].
           split; [intros ->; apply E; by right|done].
        -- rewrite app_length, Nat.add_comm. done.
        -- exists l'. rewrite rev_app_distr in H1. cbn [rev app] in H1. rewrite app_assoc in H2. done.
Qed.

Lemma split_tilde r : split_on c_slash (c_tilde :: c_slash :: r) = [c_tilde] :: split_on c_slash r.
Proof.
  change (c_tilde :: c_slash :: r) with ([c_tilde] ++ c_slash :: r). apply split_on_app.
  intros H. apply elem_of_list_singleton in H. done.
Qed.
Lemma split_slash r : split_on c_slash (c_slash :: r) = [] :: split_on c_slash r.
Proof. apply (split_on_app c_slash [] r). apply not_elem_of_nil. Qed.
Lemma normpath_tilde r :
  normpath (c_tilde :: c_slash :: r) =
  match join_on c_slash (norm_comps false (split_on c_slash r) [[c_tilde]]) with [] => dot | q => q end.
Proof.
  unfold normpath. change (startswith [c_slash] (c_tilde :: c_slash :: r)) with false. cbv zeta iota.
  rewrite split_tilde. cbn [norm_comps].
  rewrite bool_decide_false by lits. rewrite bool_decide_true by lits. cbn [app]. by destruct (join_on _ _).
Qed.

(** ** C94 *)

(** Every accepted value whose ".." do not lead out of the home directory after
    "~", and which does not begin with two slashes, is understood as the
    directory it names.
    Missing: values such as "~/../x", see below. *)
Theorem C94_path_partial home hl users k v :
  home_names home hl → dir_key k → check_value k v = false →
  startswith [c_slash; c_slash] v = false →
  (∀ r, v = c_tilde :: r → stays_below 0 (split_on c_slash r) = true) →
  dir_of_value home users v = abs_path (named_dir hl v).
Proof.
  intros Hh Hk Hc H2 Hs. destruct (accepted_shape k v Hk Hc) as [r [-> | ->]]; unfold dir_of_value.
  - rewrite normpath_abs by done. unfold abs_path at 1. rewrite expand_other by done. done.
  - specialize (Hs _ eq_refl). fold c_tilde. rewrite normpath_tilde.
    rewrite split_slash in Hs. cbn [stays_below] in Hs. rewrite bool_decide_true in Hs by auto.
    destruct (walk_stays (split_on c_slash r) hl []) as (l' & H1 & H3 & H4); [apply split_on_elem|constructor|done|].
    cbn [rev app] in H1. rewrite H1. rewrite app_nil_r in H3.
    unfold named_dir. change (126%N) with c_tilde. rewrite bool_decide_true by done.
    rewrite split_slash. cbn [walk]. rewrite bool_decide_true by auto. rewrite H3.
    destruct l' as [|x l'].
    + cbn [join_on]. rewrite (expand_tilde_only home users hl Hh). by rewrite app_nil_r.
    + change (join_on c_slash ([c_tilde] :: x :: l')) with (c_tilde :: c_slash :: join_on c_slash (x :: l')).
      cbv iota. rewrite (expand_tilde home users hl _ Hh). by apply root_join.
Qed.
Print Assumptions C94_path_partial.

(** A value that leads out of the home directory and down again is accepted,
    but the path that is used is not absolute: it depends on the working
    directory of the process. *)
Theorem C94_relative_refuted home users k x l :
  dir_key k → valid_comps (x :: l) → startswith [c_tilde] x = false →
  let v := lit "~/../" ++ rel_path (x :: l) in
  check_value k v = false ∧ dir_of_value home users v = rel_path (x :: l) ∧ isabs (dir_of_value home users v) = false.
Proof.
  intros Hk Hv Hx v.
  assert (dir_of_value home users v = rel_path (x :: l)) as H.
  { unfold dir_of_value, v. change (lit "~/../" ++ rel_path (x :: l)) with (c_tilde :: c_slash :: (dotdot ++ c_slash :: rel_path (x :: l))).
    rewrite normpath_tilde. rewrite split_on_app by lits.
    cbn [norm_comps]. rewrite bool_decide_false by lits.
    rewrite bool_decide_false by auto. rewrite bool_decide_false by lits.
    unfold rel_path. rewrite split_on_join; [|done|by apply valid_comps_noslash].
    assert (∀ l' acc, valid_comps l' → norm_comps false l' acc = rev acc ++ l') as Hn.
    { clear. induction l' as [|y l' IH]; intros acc Hv; cbn [norm_comps]; [by rewrite app_nil_r|].
      inversion_clear Hv as [|? ? Hy Hl]. rewrite bool_decide_false by by apply valid_not_special.
      destruct Hy as (?&?&?&?). rewrite bool_decide_true by done. rewrite IH by done. simpl. by rewrite <-app_assoc. }
    rewrite Hn by done. cbn [rev app].
    inversion_clear Hv as [|? ? Hx' _]. destruct Hx' as (Hne&_).
    destruct x as [|c x]; [done|].
    assert (c ≠ c_tilde) as Hct. { intros ->. done. }
    destruct l; [|].
    - cbn [join_on]. by rewrite expand_other.
    - cbn [join_on app]. by rewrite expand_other. }
  split; [by apply tilde_accepted|]. split; [done|]. rewrite H. by apply rel_not_abs.
Qed.
Print Assumptions C94_relative_refuted.

(** *** Completion: [contract_user] *)
Lemma slash_comps_abs l : valid_comps l → slash_comps (abs_path l) = l.
Proof.
  intros Hv. unfold slash_comps. destruct (decide (l = [])) as [->|Hn]; [done|].
  rewrite split_abs by done. cbn [List.filter]. rewrite bool_decide_true by done. cbn [negb].
  clear Hn. induction Hv as [|x l Hx Hl IH]; cbn [List.filter]; [done|].
  rewrite bool_decide_false by by apply valid_ne. cbn [negb]. by rewrite IH.
Qed.
Lemma normpath_valid l : valid_comps l → normpath (abs_path l) = abs_path l.
Proof.
  intros Hv. destruct (decide (l = [])) as [->|Hn]; [done|].
  rewrite normpath_abs.
  - rewrite split_abs by done. cbn [walk]. rewrite bool_decide_true by auto.
    by rewrite walk_valid.
  - done.
  - destruct l as [|x l]; [done|]. inversion Hv as [|? ? Hx _]; subst.
    pose proof (rel_not_abs (x :: l) Hn Hv) as H. unfold isabs, rel_path in H. unfold abs_path. exact H.
Qed.
Lemma get_home home users hl : home_names home hl → get_home_dir home users = home_root hl ++ [c_slash].
Proof. intros H. unfold get_home_dir. by apply expand_tilde. Qed.
Lemma normpath_home hl : valid_comps hl → normpath (home_root hl ++ [c_slash]) = abs_path hl.
Proof.
  intros Hv. destruct hl as [|x hl]; [done|]. unfold home_root.
  rewrite normpath_abs.
  - rewrite split_on_mid. rewrite split_abs by done. rewrite walk_app.
    assert (walk [] ([] :: x :: hl) = x :: hl) as ->; [|done].
    change (walk [] (x :: hl) = x :: hl). by rewrite walk_valid.
  - done.
  - pose proof (rel_not_abs (x :: hl) ltac:(done) Hv) as H. unfold isabs, rel_path in H. unfold abs_path.
    inversion Hv as [|? ? Hx _]; subst. destruct Hx as (Hne & Hs & _). destruct x as [|c x]; [done|].
    apply not_elem_of_cons in Hs as [Hs _].
    destruct hl; by apply starts2.
Qed.
(** The steps from the home directory to another one. *)
Definition steps_to (hl l : list str) : list str :=
  let n := length (common_prefix hl l) in replicate (length hl - n) dotdot ++ drop n l.
Lemma contract_shape home users hl l : home_names home hl → valid_comps l →
  contract_user home users (abs_path l) =
  c_tilde :: c_slash :: match steps_to hl l with [] => dot | s => join_on c_slash s end.
Proof.
  intros Hh Hv. unfold contract_user, relpath_of. rewrite (get_home home users hl Hh).
  rewrite normpath_home by apply Hh. rewrite normpath_valid by done.
  rewrite !slash_comps_abs by (done || apply Hh). fold (steps_to hl l). cbv zeta.
  set (t := match steps_to hl l with [] => dot | _ => _ end).
  assert (startswith [c_slash] t = false) as Ht.
  { unfold t. destruct (steps_to hl l) as [|y s] eqn:E; [done|].
    assert (y ≠ [] ∧ c_slash ∉ y) as [Hy Hys].
    { assert (Forall (λ y, y ≠ [] ∧ c_slash ∉ y) (steps_to hl l)) as HF.
      { unfold steps_to. apply Forall_app. split.
        - apply Forall_replicate. split; [done|]. lits.
        - apply Forall_drop. eapply Forall_impl; [exact Hv|]. intros z (?&?&?&?). done. }
      rewrite E in HF. by inversion HF. }
    destruct y as [|c y]; [done|]. apply not_elem_of_cons in Hys as [Hc _].
    destruct s; by apply starts1. }
  unfold pjoin. rewrite Ht. done.
Qed.
Lemma walk_back hl n d : walk (hl ++ d) (replicate (length d) dotdot ++ n) = walk hl n.
Proof.
  revert n. induction d as [|x d IH] using rev_ind; intros n; [by rewrite app_nil_r|].
  rewrite app_length, Nat.add_comm. cbn [length Nat.add replicate app walk].
  rewrite bool_decide_false by lits. rewrite bool_decide_true by done.
  rewrite app_assoc, removelast_last. apply IH.
Qed.
Lemma common_prefix_split a b : ∃ x y, a = common_prefix a b ++ x ∧ b = common_prefix a b ++ y.
Proof.
  revert b. induction a as [|x a IH]; intros [|y b]; simpl; eauto.
  case_bool_decide as E; [|eauto]. subst. destruct (IH b) as (u & v & Hu & Hv). exists u, v. split; simpl; congruence.
Qed.
Lemma walk_steps hl l : valid_comps l → walk hl (steps_to hl l) = l.
Proof.
  intros Hv. unfold steps_to. destruct (common_prefix_split hl l) as (x & y & Hx & Hy).
  set (p := common_prefix hl l) in *. clearbody p. subst hl l. cbv zeta.
  rewrite drop_app. rewrite app_length. replace (length p + length x - length p) with (length x) by lia.
  rewrite walk_back. apply walk_valid. by apply Forall_app in Hv as [_ ?].
Qed.

(** [contract_user] is the opposite of [expanduser]: what it returns begins with
    "~/", and expanding it names the same directory. *)
Theorem C94_contract home hl users l :
  home_names home hl → valid_comps l →
  startswith (lit "~/") (contract_user home users (abs_path l)) = true
  ∧ normpath (expanduser home users (contract_user home users (abs_path l))) = abs_path l.
Proof.
  intros Hh Hv. split; [by rewrite (contract_shape home users hl l Hh Hv)|]. rewrite (contract_shape home users hl l Hh Hv). rewrite (expand_tilde home users hl _ Hh).
  set (t := match steps_to hl l with [] => dot | _ => _ end).
  assert (split_on c_slash t = match steps_to hl l with [] => [dot] | s => s end) as Ht.
  { unfold t. destruct (steps_to hl l) as [|y s] eqn:E; [done|]. rewrite <-E. apply split_on_join; [by rewrite E|].
    unfold steps_to. apply Forall_app. split; [apply Forall_replicate; lits|].
    apply Forall_drop. by apply valid_comps_noslash. }
  assert (startswith [c_slash] t = false) as Hts.
  { pose proof (contract_shape home users hl l Hh Hv) as Hc. fold t in Hc.
    destruct (startswith [c_slash] t) eqn:E; [|done]. exfalso.
    apply startswith_spec in E as [k Hk].
    assert (split_on c_slash t = [] :: split_on c_slash k) as Hk'. { rewrite Hk. apply split_slash. }
    rewrite Ht in Hk'. destruct (steps_to hl l) as [|y s] eqn:E'; [done|]. injection Hk' as -> _.
    assert (Forall (λ y, y ≠ []) (steps_to hl l)) as HF.
    { unfold steps_to. apply Forall_app. split; [by apply Forall_replicate|].
      apply Forall_drop. eapply Forall_impl; [exact Hv|]. apply valid_ne. }
    rewrite E' in HF. by inversion HF. }
  destruct Hh as [Hhv _].
  rewrite normpath_abs.
  - rewrite split_on_mid, Ht. f_equal. rewrite walk_app.
    assert (walk [] (split_on c_slash (home_root hl)) = hl) as ->.
    { destruct hl as [|x hl]; [done|]. unfold home_root. rewrite split_abs by done.
      change (walk [] (x :: hl) = x :: hl). by rewrite walk_valid. }
    pose proof (walk_steps hl l Hv) as Hw. destruct (steps_to hl l); [|done].
    exact Hw.
  - by destruct hl.
  - destruct hl as [|x hl]; [exact Hts|]. unfold home_root, abs_path.
    inversion Hhv as [|? ? Hx _]; subst. destruct Hx as (Hne & Hs & _). destruct x as [|c x]; [done|].
    apply not_elem_of_cons in Hs as [Hs _].
    destruct hl; by apply starts2.
Qed.
Print Assumptions C94_contract.

(** What the prompt offers for a directory below the home directory, taken as
    the value, is understood as that directory. *)
Theorem C94_completed_partial home hl users k l :
  home_names home hl → dir_key k → valid_comps l → hl `prefix_of` l →
  check_value k (contract_user home users (abs_path l)) = false
  ∧ dir_of_value home users (contract_user home users (abs_path l)) = abs_path l.
Proof.
  intros Hh Hk Hv [d ->]. 
  assert (steps_to hl (hl ++ d) = d) as Hst.
  { unfold steps_to. assert (common_prefix hl (hl ++ d) = hl) as ->.
    { clear. induction hl as [|x hl IH]; [by destruct d|]. simpl. rewrite bool_decide_true by done. by rewrite IH. }
    rewrite Nat.sub_diag, drop_app. done. }
  pose proof (contract_shape home users hl _ Hh Hv) as Hc. rewrite Hst in Hc.
  assert (check_value k (contract_user home users (abs_path (hl ++ d))) = false) as Ha.
  { rewrite Hc. by apply tilde_accepted. }
  split; [done|]. apply Forall_app in Hv as [_ Hd].
  assert (∀ n d', valid_comps d' → stays_below n d' = true) as Hsb.
  { clear. intros n d'. revert n. induction d' as [|x d' IH]; intros n Hv; [done|]. inversion_clear Hv as [|? ? Hx Hl].
    cbn [stays_below]. rewrite bool_decide_false by by apply valid_not_special. destruct Hx as (?&?&?&?).
    rewrite bool_decide_false by done. by apply IH. }
  remember (match d with [] => dot | _ => join_on c_slash d end) as t eqn:Et.
  assert (contract_user home users (abs_path (hl ++ d)) = c_tilde :: c_slash :: t) as Hc'.
  { rewrite Hc, Et. by destruct d. }
  clear Hc. rename Hc' into Hc.
  assert (split_on c_slash t = match d with [] => [dot] | s => s end) as Ht.
  { rewrite Et. destruct d as [|y s]; [done|]. apply split_on_join; [done|]. by apply valid_comps_noslash. }
  rewrite (C94_path_partial home hl users k _ Hh Hk Ha).
  - rewrite Hc. unfold named_dir. rewrite bool_decide_true by done. rewrite split_slash, Ht.
    cbn [walk]. rewrite bool_decide_true by auto. destruct d as [|y s].
    + cbn [walk]. rewrite bool_decide_true by auto. by rewrite app_nil_r.
    + by rewrite walk_valid.
  - rewrite Hc. done.
  - intros r Hr. rewrite Hc in Hr. injection Hr as <-. rewrite split_slash, Ht. cbn [stays_below].
    rewrite bool_decide_true by auto. destruct d; [done|]. by apply Hsb.
Qed.
Print Assumptions C94_completed_partial.

(** For every directory that is not below the home directory what the prompt
    offers is accepted, but the path that is used afterwards is not absolute. *)
Theorem C94_completed_refuted home hl users k l :
  home_names home hl → dir_key k → valid_comps l → ¬ hl `prefix_of` l →
  (∀ x, x ∈ l → startswith [c_tilde] x = false) →
  check_value k (contract_user home users (abs_path l)) = false
  ∧ isabs (dir_of_value home users (contract_user home users (abs_path l))) = false.
Proof.
  intros Hh Hk Hv Hp Hx. rewrite (contract_shape home users hl l Hh Hv).
  split; [by apply tilde_accepted|].
  unfold steps_to. destruct (common_prefix_split hl l) as (x & y & Hhx & Hly).
  set (p := common_prefix hl l) in *. clearbody p. subst hl l. cbv zeta.
  rewrite drop_app. rewrite app_length. replace (length p + length x - length p) with (length x) by lia.
  destruct x as [|x0 x]. { exfalso. apply Hp. rewrite app_nil_r. by exists y. }
  cbn [length replicate app].
  apply Forall_app in Hv as [_ Hv].
  assert (∀ z, z ∈ y → startswith [c_tilde] z = false) as Hy. { intros z Hz. apply Hx, elem_of_app. by right. }
  clear Hx Hp Hh. unfold dir_of_value. rewrite normpath_tilde.
  rewrite split_on_join; [|done|].
  2:{ constructor; [lits|]. apply Forall_app. split; [apply Forall_replicate; lits|by apply valid_comps_noslash]. }
  cbn [norm_comps]. rewrite bool_decide_false by lits. rewrite bool_decide_false by auto. rewrite bool_decide_false by lits.
  assert (∀ n acc, Forall (λ z, z = dotdot) acc →
    norm_comps false (replicate n dotdot ++ y) acc = rev acc ++ replicate n dotdot ++ y) as Hn.
  { induction n as [|n IH]; intros acc Ha; cbn [replicate app].
    - clear Hy. assert (∀ a, norm_comps false y a = rev a ++ y) as ->; [|done].
      induction Hv as [|z y Hz Hy IH]; intros a; cbn [norm_comps]; [by rewrite app_nil_r|].
      rewrite bool_decide_false by by apply valid_not_special. destruct Hz as (?&?&?&?).
      rewrite bool_decide_true by done. rewrite IH. simpl. by rewrite <-app_assoc.
    - cbn [norm_comps]. rewrite bool_decide_false by lits. rewrite bool_decide_false by auto.
      assert (norm_comps false (replicate n dotdot ++ y) (dotdot :: acc) = rev acc ++ dotdot :: replicate n dotdot ++ y) as Hs.
      { rewrite IH by by constructor. simpl. by rewrite <-app_assoc. }
      destruct acc as [|z acc]; [exact Hs|]. inversion Ha; subst. rewrite bool_decide_true by done. exact Hs. }
  rewrite Hn by constructor. cbn [rev app].
  destruct (length x) as [|n]; cbn [replicate app].
  - destruct y as [|z y]; [done|]. specialize (Hy z ltac:(left)). inversion_clear Hv as [|? ? Hz _].
    destruct Hz as (Hne & Hs & _). destruct z as [|c z]; [done|].
    assert (c ≠ c_tilde) as Hct. { intros ->. done. }
    apply not_elem_of_cons in Hs as [Hs _].
    destruct y; cbn [join_on app]; rewrite expand_other by done; by apply starts1.
  - destruct (replicate n dotdot ++ y); done.
Qed.
Print Assumptions C94_completed_refuted.

Example C94_ex :
  home_names (lit "/home/me/") [lit "home"; lit "me"]
  ∧ check_value (lit "LocalDir") (lit "~/a/../b//./c/") = false
  ∧ stays_below 0 (split_on c_slash (lit "/a/../b//./c/")) = true
  ∧ dir_of_value (lit "/home/me/") (λ _, None) (lit "~/a/../b//./c/") = lit "/home/me/b/c"
  ∧ dir_of_value (lit "/home/me/") (λ _, None) (lit "~/../you/x") = lit "you/x"
  ∧ contract_user (lit "/home/me/") (λ _, None) (lit "/home/me/b c") = lit "~/b c"
  ∧ contract_user (lit "/home/me/") (λ _, None) (lit "/mnt/x") = lit "~/../../mnt/x"
  ∧ dir_of_value (lit "/home/me/") (λ _, None) (lit "~/../../mnt/x") = lit "../mnt/x".
Proof.
  split; [|vm_compute; auto 10]. split; [|exists 1; done].
  apply (bool_decide_unpack _). vm_compute. exact Logic.I.
Qed.
