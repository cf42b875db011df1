(** [os.path] (posixpath, CPython 3.5/3.6) on strings, as far as /repo calls it,
    and the pure path functions of /repo built on it. *)
From Verif Require Export Str.
From stdpp Require Import options.

Definition is_slash (c : char) : bool := N.eqb c c_slash.
Definition not_slash (c : char) : bool := negb (N.eqb c c_slash).

(** [os.path.isabs] *)
Definition isabs (p : str) : bool := startswith [c_slash] p.

(** [os.path.join(a, b)] with two arguments *)
Definition pjoin (a b : str) : str :=
  if startswith [c_slash] b then b
  else match a with
       | [] => a ++ b
       | _ => if endswith [c_slash] a then a ++ b else a ++ c_slash :: b
       end.

(** [os.path.split]: [head_raw] is [p[:p.rfind("/") + 1]]. *)
Definition head_raw (p : str) : str := rev (lstrip_by not_slash (rev p)).
Fixpoint take_while (f : char → bool) (x : str) : str :=
  match x with
  | [] => []
  | c :: x' => if f c then c :: take_while f x' else []
  end.
Definition basename (p : str) : str := rev (take_while not_slash (rev p)).
Definition dirname (p : str) : str :=
  let head := head_raw p in
  if forallb is_slash head then head else rstrip_by is_slash head.

(** [os.path.splitext]: the extension starts at the last dot of the last
    component, unless everything before that dot in the component is dots. *)
Definition not_dot (c : char) : bool := negb (N.eqb c c_dot).
Definition is_dot (c : char) : bool := N.eqb c c_dot.
Definition splitext (p : str) : str * str :=
  let base := basename p in
  if existsb is_dot base then
    (* [stem] ends just before the last dot of [base] *)
    let ext := c_dot :: rev (take_while not_dot (rev base)) in
    let stem := rev (tail (lstrip_by not_dot (rev base))) in
    if forallb is_dot stem then (p, []) else (head_raw p ++ stem, ext)
  else (p, []).

(** [os.path.normpath].  [norm_comps] is the loop over the components, with
    the collected list reversed. *)
Fixpoint norm_comps (abs : bool) (comps : list str) (acc : list str) : list str :=
  match comps with
  | [] => rev acc
  | c :: cs =>
      if bool_decide (c = [] ∨ c = dot) then norm_comps abs cs acc
      else if bool_decide (c ≠ dotdot) then norm_comps abs cs (c :: acc)
      else match acc with
           | [] => if abs then norm_comps abs cs acc else norm_comps abs cs (c :: acc)
           | a :: acc' =>
               if bool_decide (a = dotdot) then norm_comps abs cs (c :: acc)
               else norm_comps abs cs acc'
           end
  end.
Definition normpath (p : str) : str :=
  match p with
  | [] => dot
  | _ =>
      let initial :=
        if startswith [c_slash] p then
          if startswith [c_slash; c_slash] p
             && negb (startswith [c_slash; c_slash; c_slash] p)
          then [c_slash; c_slash] else [c_slash]
        else [] in
      let comps := norm_comps (startswith [c_slash] p) (split_on c_slash p) [] in
      let r := initial ++ join_on c_slash comps in
      match r with [] => dot | _ => r end
  end.

(** [os.path.commonpath([a, b])].  [None] models the ValueError for mixing
    absolute and relative paths. *)
Definition real_comp (c : str) : bool := negb (bool_decide (c = [] ∨ c = dot)).
Definition path_comps (p : str) : list str :=
  List.filter real_comp (split_on c_slash p).
Fixpoint common_prefix (a b : list str) : list str :=
  match a, b with
  | x :: a', y :: b' => if bool_decide (x = y) then x :: common_prefix a' b' else []
  | _, _ => []
  end.
Definition commonpath (a b : str) : option str :=
  if Bool.eqb (isabs a) (isabs b) then
    Some ((if isabs a then [c_slash] else [])
            ++ join_on c_slash (common_prefix (path_comps a) (path_comps b)))
  else None.

(** /repo/zielen/fstools.py 197-221, [is_unsafe_symlink].  [link] is what
    [os.readlink(link_path)] returns, [None] when it raises OSError (not a
    link).  The outer [None] is the ValueError of [commonpath], which can only
    happen when the arguments are not absolute. *)
Definition is_unsafe_symlink (link : option str) (link_path parent_path : str)
  : option bool :=
  match link with
  | None => Some false
  | Some link_dest =>
      if negb (isabs link_dest) then
        let abs_link_dest := normpath (pjoin (dirname link_path) link_dest) in
        match commonpath abs_link_dest parent_path with
        | Some c => Some (negb (bool_decide (c = parent_path)))
        | None => None
        end
      else Some true
  end.

(** * Specification side: component lists *)

(** An ordinary file name: nonempty, no slash, not "." or "..". *)
Definition valid_name (x : str) : Prop :=
  x ≠ [] ∧ c_slash ∉ x ∧ x ≠ dot ∧ x ≠ dotdot.
Definition valid_comps (l : list str) : Prop := Forall valid_name l.

Global Instance valid_name_dec x : Decision (valid_name x).
Proof. unfold valid_name. apply _. Defined.
Global Instance valid_comps_dec l : Decision (valid_comps l).
Proof. unfold valid_comps. apply _. Defined.

(** The absolute path with the given components. *)
Definition abs_path (l : list str) : str := c_slash :: join_on c_slash l.
(** The relative path with the given components. *)
Definition rel_path (l : list str) : str := join_on c_slash l.

(** Walk from directory [d] (components from the root of the file system)
    along the components of a link text. *)
Fixpoint walk (d : list str) (steps : list str) : list str :=
  match steps with
  | [] => d
  | x :: xs =>
      if bool_decide (x = [] ∨ x = dot) then walk d xs
      else if bool_decide (x = dotdot) then walk (removelast d) xs
      else walk (d ++ [x]) xs
  end.

(** * Lemmas *)

Lemma valid_ne x : valid_name x → x ≠ [].
Proof. by intros (?&?&?&?). Qed.
Lemma valid_noslash x : valid_name x → c_slash ∉ x.
Proof. by intros (?&?&?&?). Qed.
Lemma valid_comps_noslash l : valid_comps l → Forall (λ x, c_slash ∉ x) l.
Proof. intros H. eapply Forall_impl; [exact H|]. apply valid_noslash. Qed.

Lemma join_on_app c l1 l2 : l1 ≠ [] → l2 ≠ [] →
  join_on c (l1 ++ l2) = join_on c l1 ++ c :: join_on c l2.
Proof.
  induction l1 as [|x l1 IH]; [done|]. intros _ H2.
  destruct l1 as [|y l1].
  - destruct l2; done.
  - change (join_on c ((x :: y :: l1) ++ l2)) with (x ++ c :: join_on c ((y :: l1) ++ l2)).
    rewrite IH by done. change (join_on c (x :: y :: l1)) with (x ++ c :: join_on c (y :: l1)).
    by rewrite <-app_assoc.
Qed.

Lemma join_on_ne c l : l ≠ [] → Forall (λ x, x ≠ []) l → join_on c l ≠ [].
Proof.
  destruct l as [|x l]; [done|]. intros _ H. inversion_clear H.
  destruct l; [done|]. simpl. destruct x; done.
Qed.

Lemma rel_path_inj l l' : valid_comps l → valid_comps l' → rel_path l = rel_path l' → l = l'.
Proof.
  intros Hl Hl' H. unfold rel_path in H.
  destruct (decide (l = [])) as [->|Hn]; destruct (decide (l' = [])) as [->|Hn']; try done.
  - exfalso. symmetry in H. revert H. apply join_on_ne; [done|].
    eapply Forall_impl; [exact Hl'|apply valid_ne].
  - exfalso. revert H. apply join_on_ne; [done|].
    eapply Forall_impl; [exact Hl|apply valid_ne].
  - rewrite <-(split_on_join c_slash l), <-(split_on_join c_slash l'), H;
      auto using valid_comps_noslash.
Qed.

Lemma valid_not_special x : valid_name x → ¬ (x = [] ∨ x = dot).
Proof. intros (?&?&?&?) [?|?]; done. Qed.

(** head and tail of a path with at least one slash *)
Lemma lstrip_not_slash_app x y : c_slash ∉ x →
  lstrip_by not_slash (x ++ c_slash :: y) = c_slash :: y.
Proof.
  induction x as [|a x IH]; simpl; intros H.
  - done.
  - apply not_elem_of_cons in H as [H1 H2]. unfold not_slash at 1.
    destruct (N.eqb_spec a c_slash) as [->|_]; [done|]. simpl. auto.
Qed.
Lemma lstrip_not_slash_none x : c_slash ∉ x → lstrip_by not_slash x = [].
Proof.
  intros H. apply lstrip_by_all. apply Forall_forall. intros c Hc. unfold not_slash.
  destruct (N.eqb_spec c c_slash) as [->|_]; done.
Qed.
Lemma take_while_app x y : c_slash ∉ x → take_while not_slash (x ++ c_slash :: y) = x.
Proof.
  induction x as [|a x IH]; simpl; intros H.
  - done.
  - apply not_elem_of_cons in H as [H1 H2]. unfold not_slash at 1.
    destruct (N.eqb_spec a c_slash) as [->|_]; [done|]. simpl. by rewrite IH.
Qed.
Lemma take_while_none x : c_slash ∉ x → take_while not_slash x = x.
Proof.
  induction x as [|a x IH]; simpl; intros H; [done|].
  apply not_elem_of_cons in H as [H1 H2]. unfold not_slash at 1.
  destruct (N.eqb_spec a c_slash) as [->|_]; [done|]. simpl. by rewrite IH.
Qed.
Lemma not_elem_of_rev {A} (x : A) l : x ∉ l → x ∉ rev l.
Proof. intros H Hi. apply H. rewrite <-(rev_involutive l). by apply elem_of_list_In, in_rev, elem_of_list_In; rewrite rev_involutive. Qed.

Lemma head_raw_app a b : c_slash ∉ b → head_raw (a ++ c_slash :: b) = a ++ [c_slash].
Proof.
  intros H. unfold head_raw. rewrite rev_app_distr. simpl. rewrite <-app_assoc. simpl.
  rewrite lstrip_not_slash_app by by apply not_elem_of_rev.
  simpl. by rewrite rev_involutive.
Qed.
Lemma head_raw_none b : c_slash ∉ b → head_raw b = [].
Proof.
  intros H. unfold head_raw. by rewrite lstrip_not_slash_none by by apply not_elem_of_rev.
Qed.
Lemma basename_app a b : c_slash ∉ b → basename (a ++ c_slash :: b) = b.
Proof.
  intros H. unfold basename. rewrite rev_app_distr. simpl. rewrite <-app_assoc. simpl.
  rewrite take_while_app by by apply not_elem_of_rev. by rewrite rev_involutive.
Qed.
Lemma basename_none b : c_slash ∉ b → basename b = b.
Proof.
  intros H. unfold basename. rewrite take_while_none by by apply not_elem_of_rev.
  by rewrite rev_involutive.
Qed.

(** Every path is its raw head followed by its base name. *)
Lemma head_raw_basename p : head_raw p ++ basename p = p.
Proof.
  unfold head_raw, basename. rewrite <-rev_app_distr.
  rewrite <-(rev_involutive p) at 3. f_equal.
  induction (rev p) as [|c x IH]; simpl; [done|].
  destruct (not_slash c); [simpl; by rewrite IH|done].
Qed.
Lemma basename_noslash p : c_slash ∉ basename p.
Proof.
  unfold basename. apply not_elem_of_rev. induction (rev p) as [|c x IH]; simpl.
  - apply not_elem_of_nil.
  - unfold not_slash at 1. destruct (N.eqb_spec c c_slash) as [->|Hn]; simpl.
    + apply not_elem_of_nil.
    + apply not_elem_of_cons. split; [congruence|done].
Qed.
(** The raw head is empty or ends with a slash. *)
Lemma head_raw_shape p : head_raw p = [] ∨ ∃ q, head_raw p = q ++ [c_slash].
Proof.
  unfold head_raw. destruct (lstrip_by_spec not_slash (rev p)) as (q & _ & _ & H).
  destruct (lstrip_by not_slash (rev p)) as [|c r]; [by left|]. right.
  specialize (H c r eq_refl). unfold not_slash in H.
  destruct (N.eqb_spec c c_slash) as [->|_]; [|done]. exists (rev r). done.
Qed.

Lemma rstrip_slash_snoc a : (∀ q, a ≠ q ++ [c_slash]) → rstrip_by is_slash (a ++ [c_slash]) = a.
Proof.
  intros H. unfold rstrip_by. rewrite rev_app_distr. simpl.
  change (is_slash c_slash) with true. cbv iota.
  rewrite lstrip_by_idem; [apply rev_involutive|].
  intros c r E. unfold is_slash. destruct (N.eqb_spec c c_slash) as [->|_]; [|done].
  exfalso. apply (H (rev r)). rewrite <-(rev_involutive a), E. done.
Qed.

Lemma noslash_snoc_ne a b q : c_slash ∉ b → b ≠ [] → a ++ b ≠ q ++ [c_slash].
Proof.
  intros Hb Hne E. destruct b as [|x b] using rev_ind; [done|].
  rewrite app_assoc in E. apply app_inj_tail in E as [_ ->].
  apply Hb. apply elem_of_app. right. apply elem_of_list_singleton. done.
Qed.

Lemma join_on_last_ne c l q : c_slash = c → l ≠ [] → valid_comps l → join_on c l ≠ q ++ [c_slash].
Proof.
  intros <- Hne Hv. destruct l as [|x l _] using rev_ind; [done|].
  apply Forall_app in Hv as [Hl Hx]. inversion_clear Hx as [|? ? Hx' _].
  destruct l as [|y l].
  - simpl. apply (noslash_snoc_ne []); [by apply valid_noslash|by apply valid_ne].
  - rewrite join_on_app by done. simpl (join_on _ [x]).
    rewrite (app_assoc (join_on c_slash (y :: l)) [c_slash] x : _ ++ _ :: _ = _).
    apply noslash_snoc_ne; [by apply valid_noslash|by apply valid_ne].
Qed.

Lemma existsb_noslash l : l ≠ [] → valid_comps l → forallb is_slash (join_on c_slash l ++ [c_slash]) = false.
Proof.
  intros Hne Hv. destruct l as [|x l]; [done|]. inversion_clear Hv as [|? ? Hx _].
  pose proof (valid_noslash _ Hx) as Hs. pose proof (valid_ne _ Hx) as Hn.
  destruct x as [|a x]; [done|]. apply not_elem_of_cons in Hs as [Ha _].
  assert (is_slash a = false) as Hf.
  { unfold is_slash. destruct (N.eqb_spec a c_slash) as [->|_]; done. }
  destruct l; simpl; by rewrite Hf.
Qed.

(** [dirname] and [basename] agree with the component view. *)
Lemma dirname_rel l x : valid_comps l → valid_name x →
  dirname (rel_path (l ++ [x])) = rel_path l.
Proof.
  intros Hl Hx. unfold dirname, rel_path. destruct l as [|y l].
  - simpl. rewrite head_raw_none by by apply valid_noslash. done.
  - rewrite join_on_app by done. simpl (join_on _ [x]).
    rewrite head_raw_app by by apply valid_noslash.
    rewrite existsb_noslash by done.
    apply rstrip_slash_snoc. intros q. by apply join_on_last_ne.
Qed.
Lemma basename_rel l x : valid_name x → basename (rel_path (l ++ [x])) = x.
Proof.
  intros Hx. unfold rel_path. destruct l as [|y l].
  - simpl. apply basename_none. by apply valid_noslash.
  - rewrite join_on_app by done. simpl (join_on _ [x]).
    by rewrite basename_app by by apply valid_noslash.
Qed.
Lemma dirname_abs l x : valid_comps l → valid_name x →
  dirname (abs_path (l ++ [x])) = abs_path l.
Proof.
  intros Hl Hx. unfold dirname, abs_path. destruct l as [|y l].
  - change (c_slash :: join_on c_slash ([] ++ [x])) with ([] ++ c_slash :: x).
    rewrite head_raw_app by by apply valid_noslash. done.
  - rewrite join_on_app by done. simpl (join_on _ [x]). rewrite app_comm_cons.
    rewrite head_raw_app by by apply valid_noslash.
    change (forallb is_slash ((c_slash :: join_on c_slash (y :: l)) ++ [c_slash]))
      with (forallb is_slash (join_on c_slash (y :: l) ++ [c_slash])).
    rewrite existsb_noslash by done.
    apply rstrip_slash_snoc. intros q E.
    destruct q as [|z q]; simpl in E.
    + injection E as E. revert E. apply (join_on_ne c_slash (y :: l)); [done|].
      eapply Forall_impl; [exact Hl|apply valid_ne].
    + injection E as _ E. revert E. by apply (join_on_last_ne c_slash (y :: l)).
Qed.

(** Joining. *)
Lemma noslash_head x : c_slash ∉ x → startswith [c_slash] x = false.
Proof.
  destruct x as [|a x]; [done|]. intros H. apply not_elem_of_cons in H as [H _].
  cbn [startswith]. destruct (N.eqb_spec c_slash a); [congruence|done].
Qed.
Lemma rel_not_abs l : l ≠ [] → valid_comps l → isabs (rel_path l) = false.
Proof.
  intros Hn Hv. destruct l as [|x l]; [done|]. inversion_clear Hv as [|? ? Hx _].
  pose proof (valid_noslash _ Hx) as Hs. pose proof (valid_ne _ Hx) as Hne.
  destruct x as [|a x]; [done|]. apply noslash_head in Hs.
  unfold isabs, rel_path. destruct l; done.
Qed.
Lemma endswith_slash_false a : (∀ q, a ≠ q ++ [c_slash]) → endswith [c_slash] a = false.
Proof.
  intros H. destruct (endswith [c_slash] a) eqn:E; [|done]. exfalso.
  unfold endswith in E. change (rev [c_slash]) with [c_slash] in E. apply startswith_spec in E as [k Hk].
  apply (H (rev k)). by rewrite <-(rev_involutive a), Hk.
Qed.
Lemma pjoin_abs_rel l l' : l ≠ [] → l' ≠ [] → valid_comps l → valid_comps l' →
  pjoin (abs_path l) (rel_path l') = abs_path (l ++ l').
Proof.
  intros Hn Hn' Hv Hv'. unfold pjoin.
  pose proof (rel_not_abs l' Hn' Hv') as Ha. unfold isabs in Ha. rewrite Ha.
  unfold abs_path. rewrite endswith_slash_false.
  - unfold rel_path. rewrite join_on_app by done. done.
  - intros [|z q] E.
    + injection E as E. revert E. apply join_on_ne; [done|].
      eapply Forall_impl; [exact Hv|apply valid_ne].
    + injection E as _ E. revert E. by apply join_on_last_ne.
Qed.
Lemma pjoin_rel l l' : l ≠ [] → l' ≠ [] → valid_comps l → valid_comps l' →
  pjoin (rel_path l) (rel_path l') = rel_path (l ++ l').
Proof.
  intros Hn Hn' Hv Hv'. unfold pjoin.
  pose proof (rel_not_abs l' Hn' Hv') as Ha. unfold isabs in Ha. rewrite Ha.
  assert (join_on c_slash l ≠ []) as Hne.
  { apply join_on_ne; [done|]. eapply Forall_impl; [exact Hv|apply valid_ne]. }
  unfold rel_path in *. rewrite endswith_slash_false.
  - rewrite join_on_app by done. destruct (join_on c_slash l); done.
  - intros q. by apply join_on_last_ne.
Qed.

(** Depth: the number of slashes. *)
Lemma count_char_app c x y : count_char c (x ++ y) = count_char c x + count_char c y.
Proof. unfold count_char. by rewrite List.filter_app, app_length. Qed.
Lemma count_char_none c x : c ∉ x → count_char c x = 0.
Proof.
  unfold count_char. induction x as [|a x IH]; simpl; intros H; [done|].
  apply not_elem_of_cons in H as [H1 H2]. destruct (N.eqb_spec c a) as [->|_]; [done|]. auto.
Qed.
Lemma count_slash_rel l : valid_comps l → count_char c_slash (rel_path l) = length l - 1.
Proof.
  intros Hv. induction l as [|x l IH]; [done|]. inversion_clear Hv as [|? ? Hx Hl].
  specialize (IH Hl). destruct l as [|y l].
  - simpl. apply count_char_none. by apply valid_noslash.
  - unfold rel_path in *.
    change (join_on c_slash (x :: y :: l)) with (x ++ [c_slash] ++ join_on c_slash (y :: l)).
    rewrite !count_char_app, IH, count_char_none by by apply valid_noslash.
    change (count_char c_slash [c_slash]) with 1. simpl. lia.
Qed.

(** Normalisation of an absolute path is the walk from the root. *)
Lemma norm_comps_walk cs acc :
  Forall (λ c, c_slash ∉ c) cs → dotdot ∉ acc →
  norm_comps true cs acc = walk (rev acc) cs.
Proof.
  revert acc. induction cs as [|c cs IH]; intros acc Hcs Hacc; simpl; [done|].
  inversion_clear Hcs as [|? ? Hc Hcs'].
  destruct (decide (c = [] ∨ c = dot)) as [E|E].
  - rewrite !bool_decide_true by done. by apply IH.
  - rewrite !(bool_decide_false (c = [] ∨ c = dot)) by done.
    destruct (decide (c = dotdot)) as [->|E'].
    + rewrite (bool_decide_false (dotdot ≠ dotdot)) by auto.
      rewrite (bool_decide_true (dotdot = dotdot)) by done.
      destruct acc as [|a acc].
      * rewrite IH by done. done.
      * apply not_elem_of_cons in Hacc as [Ha Hacc].
        rewrite bool_decide_false by congruence. rewrite IH by done.
        simpl. by rewrite removelast_last.
    + rewrite (bool_decide_true (c ≠ dotdot)) by done.
      rewrite (bool_decide_false (c = dotdot)) by done.
      rewrite IH; [done|done|]. apply not_elem_of_cons. split; [congruence|done].
Qed.

Lemma walk_app d a b : walk d (a ++ b) = walk (walk d a) b.
Proof. revert d. induction a as [|x a IH]; intros d; simpl; [done|]. repeat case_bool_decide; auto. Qed.

Lemma walk_valid d l : valid_comps l → walk d l = d ++ l.
Proof.
  revert d. induction l as [|x l IH]; intros d Hv; simpl; [by rewrite app_nil_r|].
  inversion_clear Hv as [|? ? Hx Hl]. pose proof (valid_not_special _ Hx).
  destruct Hx as (?&?&?&?).
  rewrite !bool_decide_false by done. rewrite IH by done. by rewrite <-app_assoc.
Qed.

Lemma removelast_valid d : valid_comps d → valid_comps (removelast d).
Proof.
  intros H. destruct d as [|x d _] using rev_ind; [done|]. rewrite removelast_last.
  by apply Forall_app in H as [? _].
Qed.

Lemma walk_result_valid d cs : valid_comps d → Forall (λ c, c_slash ∉ c) cs →
  valid_comps (walk d cs).
Proof.
  revert d. induction cs as [|c cs IH]; intros d Hd Hcs; simpl; [done|].
  inversion_clear Hcs as [|? ? Hc Hcs'].
  case_bool_decide as E1; [by apply IH|].
  case_bool_decide as E2; [apply IH; [by apply removelast_valid|done]|].
  apply IH; [|done]. apply Forall_app. split; [done|]. constructor; [|constructor].
  unfold valid_name. naive_solver.
Qed.

Lemma split_abs l : valid_comps l → l ≠ [] → split_on c_slash (abs_path l) = [] :: l.
Proof.
  intros Hv Hn. unfold abs_path. simpl.
  rewrite split_on_join by (done || by apply valid_comps_noslash). done.
Qed.
Lemma path_comps_abs l : valid_comps l → path_comps (abs_path l) = l.
Proof.
  intros Hv. unfold path_comps. destruct (decide (l = [])) as [->|Hn]; [done|].
  rewrite split_abs by done. simpl.
  clear Hn. induction Hv as [|x l Hx Hl IH]; simpl; [done|].
  unfold real_comp at 1. rewrite bool_decide_false by by apply valid_not_special.
  simpl. by rewrite IH.
Qed.

Lemma join_on_noslash_head l : valid_comps l → isabs (join_on c_slash l) = false.
Proof.
  intros Hv. destruct l as [|x l]; [done|]. by apply (rel_not_abs (x :: l)).
Qed.

Lemma normpath_abs p : isabs p = true → startswith [c_slash; c_slash] p = false →
  normpath p = abs_path (walk [] (split_on c_slash p)).
Proof.
  intros Ha H2. unfold normpath, isabs in *. destruct p as [|c p]; [done|].
  rewrite Ha, H2. cbn [andb]. rewrite norm_comps_walk; [done|apply split_on_elem|].
  apply not_elem_of_nil.
Qed.

Lemma common_prefix_eq a b : common_prefix a b = b ↔ b `prefix_of` a.
Proof.
  revert b. induction a as [|x a IH]; intros [|y b]; simpl.
  - split; [intros _; apply prefix_nil|done].
  - split; [done|]. intros H. by apply prefix_nil_not in H.
  - split; [intros _; apply prefix_nil|done].
  - case_bool_decide as E.
    + subst. split.
      * intros [= H]. apply prefix_cons. by apply IH.
      * intros H. f_equal. apply IH. by apply prefix_cons_inv_2 in H.
    + split; [done|]. intros H. apply prefix_cons_inv_1 in H. congruence.
Qed.
Lemma common_prefix_valid a b : valid_comps b → valid_comps (common_prefix a b).
Proof.
  revert a. induction b as [|y b IH]; intros [|x a] H; simpl; try constructor.
  inversion_clear H. case_bool_decide; [|constructor]. subst. constructor; [done|by apply IH].
Qed.

Lemma abs_path_inj l l' : valid_comps l → valid_comps l' → abs_path l = abs_path l' → l = l'.
Proof. intros ? ? [= H]. by apply rel_path_inj. Qed.

Lemma commonpath_abs a b : valid_comps a → valid_comps b →
  commonpath (abs_path a) (abs_path b) = Some (abs_path (common_prefix a b)).
Proof. intros Ha Hb. unfold commonpath. simpl. rewrite !path_comps_abs by done. done. Qed.

(** The main fact: exactness of the decision. *)
Lemma is_unsafe_symlink_correct (P rel : list str) (name dest : str) :
  P ≠ [] → valid_comps P → valid_comps rel → valid_name name →
  is_unsafe_symlink (Some dest) (abs_path (P ++ rel ++ [name])) (abs_path P)
  = Some (negb (negb (isabs dest)
                && bool_decide (P `prefix_of` walk (P ++ rel) (split_on c_slash dest)))).
Proof.
  intros HPn HP Hrel Hname. unfold is_unsafe_symlink.
  destruct (isabs dest) eqn:Ha; [done|]. cbn [negb andb].
  rewrite app_assoc, dirname_abs by (done || by apply Forall_app).
  assert (valid_comps (P ++ rel)) as HD by by apply Forall_app.
  assert (P ++ rel ≠ []) as HDn by by destruct P.
  set (D := P ++ rel) in *. clearbody D.
  assert (pjoin (abs_path D) dest = abs_path D ++ c_slash :: dest) as ->.
  { unfold pjoin. unfold isabs in Ha. rewrite Ha. unfold abs_path at 1 2 3.
    rewrite endswith_slash_false; [done|].
    intros [|z q] E.
    - injection E as E. revert E. apply join_on_ne; [done|].
      eapply Forall_impl; [exact HD|apply valid_ne].
    - injection E as _ E. revert E. by apply join_on_last_ne. }
  rewrite normpath_abs; [|done|].
  2:{ unfold abs_path. pose proof (join_on_noslash_head D HD) as Hh.
      unfold isabs in Hh. simpl in *. destruct (join_on c_slash D) as [|z q] eqn:E.
      - exfalso. revert E. apply join_on_ne; [done|].
        eapply Forall_impl; [exact HD|apply valid_ne].
      - simpl in *. exact Hh. }
  rewrite split_on_mid, split_abs by done. rewrite walk_app.
  assert (walk [] ([] :: D) = D) as ->.
  { change (walk [] ([] :: D)) with (walk [] D). by apply walk_valid. }
  rewrite commonpath_abs; [|apply walk_result_valid; [done|apply split_on_elem]|done].
  f_equal. f_equal. apply bool_decide_ext. split.
  - intros E. apply common_prefix_eq. apply abs_path_inj; [by apply common_prefix_valid|done|done].
  - intros H. f_equal. by apply common_prefix_eq.
Qed.
