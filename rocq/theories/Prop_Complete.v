(** C95: what the prompt offers to complete a path. *)
From Verif Require Import Complete GlobProofs Prop_HomeDir FSDec.
From stdpp Require Import options.

(** ** Specification *)
(** No wildcards in a name. *)
Definition literal (x : str) : Prop := ∀ c, c ∈ x → c ∉ lit "*?[".
(** The entry [x] of the directory [d] continues the beginning [b] of a name;
    hidden files are only offered after a dot. *)
Definition continues (m : fs) (d : path) (b x : str) : Prop :=
  is_Some (m !! (d ++ [x])) ∧ b `prefix_of` x ∧ (hidden x → hidden b).

(** ** Lemmas *)
Lemma literal_magic x : literal x ↔ has_magic x = false.
Proof.
  assert (∀ c, magic_char c = true ↔ c ∈ lit "*?[") as Hc.
  { intros c. unfold magic_char. rewrite !orb_true_iff, !N.eqb_eq. change (lit "*?[") with [c_star; c_quest; c_open]. rewrite !elem_of_cons, elem_of_nil. tauto. }
  unfold literal, has_magic. rewrite <-not_true_iff_false, existsb_exists. split.
  - intros H (c & Hin%elem_of_list_In & Hm). apply Hc in Hm. by eapply H.
  - intros H c Hin Hm. apply H. exists c. split; [by apply elem_of_list_In|by apply Hc].
Qed.
Lemma translate_literal b n : has_magic b = false → length b < n → translate_aux n (b ++ [c_star]) = map TChar b ++ [TStar].
Proof.
  revert n. induction b as [|c b IH]; intros [|n] Hb Hn; simpl in Hn; try lia.
  - cbn [app translate_aux]. change (c_star =? c_star)%N with true. by destruct n.
  - unfold has_magic in Hb. cbn [existsb] in Hb. apply orb_false_iff in Hb as [Hc Hb].
    unfold magic_char in Hc. rewrite !orb_false_iff in Hc. destruct Hc as [[H1 H2] H3].
    cbn [app translate_aux map]. unfold is_open. rewrite H1, H2, H3. rewrite IH; [done|done|lia].
Qed.
Lemma tmatch_literal b x : tmatch (map TChar b ++ [TStar]) x = true ↔ b `prefix_of` x.
Proof.
  revert x. induction b as [|c b IH]; intros x.
  - cbn [map app]. rewrite star_match. split; [intros _; apply prefix_nil|]. intros _. exists x, []. by rewrite app_nil_r.
  - cbn [map app]. rewrite one_match by done. split.
    + intros (d & y & -> & Hd & Hy). cbn [tok_ok] in Hd. apply N.eqb_eq in Hd as ->. apply prefix_cons. by apply IH.
    + intros [k ->]. exists c, (b ++ k). split; [done|]. cbn [tok_ok]. rewrite N.eqb_refl. split; [done|]. apply IH. by exists k.
Qed.
Lemma fnmatch_literal b x : literal b → fnmatch (b ++ [c_star]) x = true ↔ b `prefix_of` x.
Proof.
  intros Hb%literal_magic. unfold fnmatch, translate. rewrite translate_literal; [apply tmatch_literal|done|].
  rewrite app_length. simpl. lia.
Qed.
Lemma has_magic_star b : has_magic (b ++ [c_star]) = true.
Proof. unfold has_magic. rewrite existsb_app. apply orb_true_iff. by right. Qed.
Lemma hidden_star b : ishidden (b ++ [c_star]) = ishidden b.
Proof. by destruct b as [|c b]; [|destruct b]. Qed.

Lemma glob_flat m d b s : wf_fs m → dir_at m d → Forall literal d → literal b →
  s ∈ map abs_path (iglob_flat m (rev (d ++ [b ++ [c_star]])) false) ↔ ∃ x, s = abs_path (d ++ [x]) ∧ continues m d b x.
Proof.
  intros Hwf Hd Hdl Hb. rewrite rev_app_distr. cbn [rev app iglob_flat existsb]. rewrite has_magic_star. cbn [orb negb].
  assert (existsb has_magic (rev d) = false) as ->.
  { apply not_true_iff_false. rewrite existsb_exists. intros (x & Hx & Hm). apply in_rev, elem_of_list_In in Hx.
    rewrite Forall_forall in Hdl. apply Hdl, literal_magic in Hx. congruence. }
  rewrite rev_involutive. cbn [flat_map]. rewrite app_nil_r. unfold glob1. rewrite !elem_of_list_fmap.
  setoid_rewrite elem_of_list_fmap. setoid_rewrite elem_of_list_fmap.
  setoid_rewrite elem_of_list_In. setoid_rewrite filter_In. setoid_rewrite <-elem_of_list_In.
  unfold continues. split.
  - intros (? & -> & ? & -> & x & -> & Hx & Hm). exists x. split; [done|].
    rewrite (tree_listdir m Hwf) in Hx by done. split; [done|].
    apply andb_true_iff in Hm as [Hh Hf]. apply fnmatch_literal in Hf; [|done]. split; [done|].
    rewrite hidden_star in Hh. intros Hhx%ishidden_spec. rewrite Hhx in Hh. apply ishidden_spec. by destruct (ishidden b).
  - intros (x & -> & Hx & Hp & Hh). exists (d ++ [x]). split; [done|]. exists [x]. split; [done|]. exists x. split; [done|].
    split; [by apply (tree_listdir m Hwf)|]. apply andb_true_iff. split; [|by apply fnmatch_literal].
    rewrite hidden_star. destruct (ishidden x) eqn:E; [|by rewrite orb_true_r].
    apply ishidden_spec in E. apply Hh, ishidden_spec in E. by rewrite E.
Qed.

Lemma text_comps_abs l : l ≠ [] → valid_comps l → text_comps (abs_path l) = l.
Proof.
  intros Hn Hv. unfold text_comps. rewrite slash_comps_abs by done. unfold final_slash. rewrite split_abs by done.
  rewrite last_cons. destruct (last l) as [x|] eqn:E; [|by apply last_None in E].
  apply last_Some in E as [l' ->]. apply Forall_app in Hv as [_ Hv]. inversion_clear Hv as [|? ? Hx _].
  pose proof (valid_ne _ Hx). destruct x; [done|]. by rewrite app_nil_r.
Qed.
Lemma star_valid b : c_slash ∉ b → valid_name (b ++ [c_star]).
Proof.
  intros Hb. assert (∀ q, b ++ [c_star] = q ++ [c_dot] → False) as Hl.
  { intros q E. by apply app_inj_tail in E as [_ E]. }
  split; [by destruct b|]. split; [intros [H|H]%elem_of_app; [done|]; by apply elem_of_list_singleton in H|].
  split; [intros E; by apply (Hl [])|intros E; by apply (Hl [c_dot])].
Qed.
Lemma abs_star d b : abs_path (d ++ [b]) ++ [c_star] = abs_path (d ++ [b ++ [c_star]]).
Proof.
  unfold abs_path. cbn [app]. f_equal. destruct d as [|x d]; [done|]. rewrite !join_on_app by done.
  rewrite <-app_assoc. done.
Qed.
Lemma pjoin_star d : valid_comps d → pjoin (abs_path d) [c_star] = abs_path (d ++ [[c_star]]).
Proof.
  intros Hv. destruct (decide (d = [])) as [->|Hn]; [done|].
  apply (pjoin_abs_rel d [[c_star]]); [done|done|done|]. constructor; [|constructor]. by apply (star_valid []), not_elem_of_nil.
Qed.
Lemma isdir_none m d b : wf_fs m → dir_at m d → valid_name b → (∀ n, m !! (d ++ [b]) = Some n → ∃ c t, n = File c t) →
  g_isdir m (d ++ [b]) = false.
Proof.
  intros Hwf Hd Hb Hm. assert (valid_comps (d ++ [b])) as Hv.
  { apply Forall_app. split; [by apply (wf_dir_valid m Hwf)|]. by constructor. }
  unfold g_isdir. rewrite undot_valid by done. unfold isdir. rewrite (stat_follow m Hwf); [|done|by rewrite parent_snoc|].
  - rewrite node_at_ne by by destruct d. destruct (m !! (d ++ [b])) as [n|] eqn:E; [|done]. by destruct (Hm n eq_refl) as (c & t & ->).
  - intros t k E. by destruct (Hm _ E) as (? & ? & ?).
Qed.

(** What is found for an absolute path name. *)
Lemma found_prefix m home users d b e text : wf_fs m → dir_at m d → Forall literal (d ++ [b]) → valid_name b →
  (∀ n, m !! (d ++ [b]) = Some n → ∃ c t, n = File c t) →
  expanduser home users text = e → e = abs_path (d ++ [b]) →
  ∃ l, (∀ s, s ∈ l ↔ ∃ x, s = abs_path (d ++ [x]) ∧ continues m d b x)
    ∧ autocomplete m home users text = if bool_decide (e = text) then l else map (contract_user home users) l.
Proof.
  intros Hwf Hd Hl Hb Hm He ->. assert (valid_comps (d ++ [b])) as Hv.
  { apply Forall_app. split; [by apply (wf_dir_valid m Hwf)|]. by constructor. }
  apply Forall_app in Hl as [Hdl Hbl]. inversion_clear Hbl as [|? ? Hbl' _].
  eexists. split; [intros s; by apply (glob_flat m d b s Hwf Hd)|].
  unfold autocomplete. rewrite He, slash_comps_abs, isdir_none by done. unfold glob_text.
  rewrite abs_star, text_comps_abs; [done|by destruct d|]. apply Forall_app in Hv as [Hv1 Hv2]. apply Forall_app. split; [done|].
  constructor; [|constructor]. apply star_valid. apply Hb.
Qed.
Lemma found_dir m home users d e text : wf_fs m → dir_at m d → Forall literal d →
  expanduser home users text = e → e = abs_path d ∨ (d ≠ [] ∧ e = abs_path d ++ [c_slash]) →
  ∃ l, (∀ s, s ∈ l ↔ ∃ x, s = abs_path (d ++ [x]) ∧ continues m d [] x)
    ∧ autocomplete m home users text = if bool_decide (e = text) then l else map (contract_user home users) l.
Proof.
  intros Hwf Hd Hl He Hs. pose proof (wf_dir_valid m Hwf _ Hd) as Hv.
  assert (pjoin e [c_star] = abs_path (d ++ [[c_star]])) as Hj.
  { destruct Hs as [-> | [Hn ->]]; [by apply pjoin_star|]. rewrite <-(pjoin_star d) by done. unfold pjoin.
    change (startswith [c_slash] [c_star]) with false. cbv iota. rewrite (endswith_slash_false (abs_path d)) by (intros q; by apply abs_path_no_slash).
    assert (endswith [c_slash] (abs_path d ++ [c_slash]) = true) as ->.
    { unfold endswith. by rewrite rev_app_distr. }
    unfold abs_path. cbn [app]. rewrite <-app_assoc. done. }
  assert (slash_comps e = d) as Hc.
  { destruct Hs as [-> | [Hn ->]]; [by apply slash_comps_abs|]. rewrite <-(slash_comps_abs d) at 2 by done. unfold slash_comps.
    rewrite split_on_mid. cbn [split_on]. rewrite List.filter_app. cbn [List.filter]. rewrite bool_decide_true by done. cbn [negb]. by rewrite app_nil_r. }
  eexists. split; [intros s; apply (glob_flat m d [] s Hwf Hd Hl)|].
  { intros c Hc'. by apply elem_of_nil in Hc'. }
  unfold autocomplete. rewrite He, Hc, (tree_isdir m Hwf) by done. unfold glob_text.
  rewrite Hj, text_comps_abs; [done|by destruct d|]. apply Forall_app. split; [done|].
  constructor; [|constructor]. by apply (star_valid []), not_elem_of_nil.
Qed.
Lemma contract_below home users hl l : home_names home hl → valid_comps (hl ++ l) → l ≠ [] →
  contract_user home users (abs_path (hl ++ l)) = lit "~/" ++ rel_path l.
Proof.
  intros Hh Hv Hl. rewrite (contract_shape home users hl _ Hh Hv).
  assert (steps_to hl (hl ++ l) = l) as ->.
  { unfold steps_to. assert (common_prefix hl (hl ++ l) = hl) as ->.
    { clear. induction hl as [|x hl IH]; [by destruct l|]. simpl. rewrite bool_decide_true by done. by rewrite IH. }
    rewrite Nat.sub_diag, drop_app. done. }
  destruct l; done.
Qed.

(** ** C95 *)

(** For the beginning of a name in a directory everything in that directory
    which continues it is offered, and nothing else. *)
Theorem C95_name_partial m home users d b s :
  wf_fs m → dir_at m d → valid_name b → Forall literal (d ++ [b]) →
  (∀ n, m !! (d ++ [b]) = Some n → ∃ c t, n = File c t) →
  s ∈ autocomplete m home users (abs_path (d ++ [b])) ↔ ∃ x, s = abs_path (d ++ [x]) ∧ continues m d b x.
Proof.
  intros Hwf Hd Hb Hl Hm.
  destruct (found_prefix m home users d b (abs_path (d ++ [b])) (abs_path (d ++ [b]))) as (l & Hs & ->); try done.
  by rewrite bool_decide_true.
Qed.
Print Assumptions C95_name_partial.

(** For a directory, with or without a slash after it, everything in it that is not hidden. *)
Theorem C95_dir_partial m home users d e s :
  wf_fs m → dir_at m d → Forall literal d → e = abs_path d ∨ (d ≠ [] ∧ e = abs_path d ++ lit "/") →
  s ∈ autocomplete m home users e ↔ ∃ x, s = abs_path (d ++ [x]) ∧ is_Some (m !! (d ++ [x])) ∧ ¬ hidden x.
Proof.
  intros Hwf Hd Hl He.
  destruct (found_dir m home users d e e) as (l & Hs & ->); try done.
  { by destruct He as [-> | [_ ->]]. }
  rewrite bool_decide_true, Hs by done. unfold continues. split.
  - intros (x & -> & H & _ & Hh). exists x. split; [done|]. split; [done|]. intros Hx. apply Hh in Hx. done.
  - intros (x & -> & H & Hh). exists x. split; [done|]. split; [done|]. split; [apply prefix_nil|done].
Qed.
Print Assumptions C95_dir_partial.

(** After "~/" the same with the names in the home directory; what is offered
    begins with "~/" again. *)
Theorem C95_home_partial m home hl users d b s :
  wf_fs m → home_names home hl → dir_at m (hl ++ d) → valid_name b → Forall literal (hl ++ d ++ [b]) →
  (∀ n, m !! (hl ++ d ++ [b]) = Some n → ∃ c t, n = File c t) →
  s ∈ autocomplete m home users (lit "~/" ++ rel_path (d ++ [b])) ↔ ∃ x, s = lit "~/" ++ rel_path (d ++ [x]) ∧ continues m (hl ++ d) b x.
Proof.
  intros Hwf Hh Hd Hb Hl Hm. rewrite (app_assoc hl) in Hl, Hm.
  destruct (found_prefix m home users (hl ++ d) b (abs_path ((hl ++ d) ++ [b])) (lit "~/" ++ rel_path (d ++ [b]))) as (l & Hs & ->); try done.
  { change (lit "~/" ++ rel_path (d ++ [b])) with (c_tilde :: c_slash :: join_on c_slash (d ++ [b])). rewrite (expand_tilde home users hl) by done.
    rewrite root_join, app_assoc; [done|by destruct d]. }
  rewrite bool_decide_false by done. rewrite elem_of_list_fmap. setoid_rewrite Hs.
  assert (∀ x, continues m (hl ++ d) b x → contract_user home users (abs_path ((hl ++ d) ++ [x])) = lit "~/" ++ rel_path (d ++ [x])) as Hc.
  { intros x [[n Hn] _]. rewrite <-app_assoc. apply contract_below; [done| |by destruct d]. rewrite app_assoc. by apply (wf_valid m Hwf _ n). }
  split.
  - intros (? & -> & x & -> & Hx). exists x. split; [by apply Hc|done].
  - intros (x & -> & Hx). eexists. split; [symmetry; by apply Hc|]. by exists x.
Qed.
Print Assumptions C95_home_partial.
Theorem C95_home_dir_partial m home hl users d e s :
  wf_fs m → home_names home hl → dir_at m (hl ++ d) → Forall literal (hl ++ d) →
  e = lit "~/" ++ rel_path d ∨ (d ≠ [] ∧ e = lit "~/" ++ rel_path d ++ lit "/") →
  s ∈ autocomplete m home users e ↔ ∃ x, s = lit "~/" ++ rel_path (d ++ [x]) ∧ is_Some (m !! (hl ++ d ++ [x])) ∧ ¬ hidden x.
Proof.
  intros Hwf Hh Hd Hl He.
  assert (∃ e', expanduser home users e = e' ∧ (e' = abs_path (hl ++ d) ∨ (hl ++ d ≠ [] ∧ e' = abs_path (hl ++ d) ++ [c_slash]))) as (e' & He' & Hs').
  { eexists. split; [done|]. destruct (decide (d = [])) as [-> | Hn].
    - destruct He as [-> | [? _]]; [|done]. change (lit "~/" ++ rel_path []) with (c_tilde :: c_slash :: []).
      rewrite (expand_tilde home users hl), app_nil_r by done. destruct hl as [|y hl]; [by left|]. right. done.
    - destruct He as [-> | [_ ->]].
      + left. change (lit "~/" ++ rel_path d) with (c_tilde :: c_slash :: join_on c_slash d). by rewrite (expand_tilde home users hl), root_join by done.
      + right. split; [by destruct hl|]. change (lit "~/" ++ rel_path d ++ lit "/") with (c_tilde :: c_slash :: (join_on c_slash d ++ [c_slash])).
        rewrite (expand_tilde home users hl) by done. rewrite <-(root_join hl d) by done. rewrite <-app_assoc. done. }
  destruct (found_dir m home users (hl ++ d) e' e) as (l & Hs & ->); try done.
  rewrite bool_decide_false.
  2:{ intros ->. assert (∃ r, e = c_tilde :: r) as [r Hr] by (destruct He as [-> | [_ ->]]; by eexists). destruct Hs' as [E | [_ E]]; by rewrite Hr in E. }
  rewrite elem_of_list_fmap. setoid_rewrite Hs.
  assert (∀ x, is_Some (m !! (hl ++ d ++ [x])) → contract_user home users (abs_path ((hl ++ d) ++ [x])) = lit "~/" ++ rel_path (d ++ [x])) as Hc.
  { intros x [n Hn]. rewrite <-app_assoc. apply contract_below; [done| |by destruct d]. by apply (wf_valid m Hwf _ n). }
  unfold continues. setoid_rewrite <-(app_assoc hl) at 2. split.
  - intros (? & -> & x & -> & H & _ & Hx). exists x. split; [by apply Hc|]. split; [done|]. intros Hh'. by apply Hx in Hh'.
  - intros (x & -> & H & Hx). eexists. split; [symmetry; by apply Hc|]. exists x. split; [done|]. split; [done|]. split; [apply prefix_nil|done].
Qed.
Print Assumptions C95_home_dir_partial.

(** Brackets in what was typed are taken as a pattern: the file that begins with
    them is not offered, another one is. *)
Definition exHome : fs := list_to_map
  [([lit "h"], Dir 1); ([lit "h"; lit "[ab]c"], File [] 2); ([lit "h"; lit "ac"], File [] 2); ([lit "h"; lit ".x"], Dir 2);
   ([lit "h"; lit "docs"], Dir 2); ([lit "h"; lit "doc.txt"], File [] 3); ([lit "h"; lit "docs"; lit "b c"], File [] 3)]%Z.
Lemma exHome_wf : wf_fs exHome.
Proof. apply (bool_decide_unpack _). vm_compute. exact Logic.I. Qed.
Theorem C95_brackets_refuted : ∃ m home users d b x y,
  wf_fs m ∧ dir_at m d ∧ valid_name b ∧ m !! (d ++ [b]) = None
  ∧ continues m d b x ∧ abs_path (d ++ [x]) ∉ autocomplete m home users (abs_path (d ++ [b]))
  ∧ ¬ b `prefix_of` y ∧ abs_path (d ++ [y]) ∈ autocomplete m home users (abs_path (d ++ [b])).
Proof.
  exists exHome, (lit "/h"), (λ _, None), [lit "h"], (lit "[ab]"), (lit "[ab]c"), (lit "ac").
  split; [apply exHome_wf|]. split; [by exists 1%Z|].
  split; [apply (bool_decide_unpack _); vm_compute; exact Logic.I|]. split; [by vm_compute|].
  split; [split; [by eexists|]; split; [by exists (lit "c")|done]|].
  split; [apply (bool_decide_unpack _); vm_compute; exact Logic.I|].
  split; [intros [k E]; done|]. apply (bool_decide_unpack _); vm_compute; exact Logic.I.
Qed.
Print Assumptions C95_brackets_refuted.

Example C95_ex :
  wf_fs exHome ∧ home_names (lit "/h") [lit "h"]
  ∧ autocomplete exHome (lit "/h") (λ _, None) (lit "/h/do") ≡ₚ [lit "/h/docs"; lit "/h/doc.txt"]
  ∧ autocomplete exHome (lit "/h") (λ _, None) (lit "~/do") ≡ₚ [lit "~/docs"; lit "~/doc.txt"]
  ∧ autocomplete exHome (lit "/h") (λ _, None) (lit "~/.") ≡ₚ [lit "~/docs"; lit "~/doc.txt"; lit "~/ac"; lit "~/[ab]c"]
  ∧ autocomplete exHome (lit "/h") (λ _, None) (lit "/h/.x") = []
  ∧ autocomplete exHome (lit "/h") (λ _, None) (lit "~/docs") = [lit "~/docs/b c"]
  ∧ autocomplete exHome (lit "/h") (λ _, None) (lit "~/docs/b") = [lit "~/docs/b c"].
Proof.
  split; [apply exHome_wf|]. split; [split; [apply (bool_decide_unpack _); vm_compute; exact Logic.I|by exists 0]|].
  split_and!; try (vm_compute; reflexivity); apply (bool_decide_unpack _); vm_compute; exact Logic.I.
Qed.
