(** C51-C54, C64, C66, C70, C71: naming, selecting, checking and locking
    profiles. *)
From Verif Require Import Command.
From stdpp Require Import options.

(** ** C54 Valid profile names stay inside the profiles directory. *)
Lemma name_chars_spec word s : name_chars word s = true ↔ s ≠ [] ∧ Forall (λ c, word c = true ∨ c = c_dash) s.
Proof.
  unfold name_chars. rewrite andb_true_iff, negb_true_iff, bool_decide_eq_false, forallb_forall, Forall_forall.
  split; intros [H1 H2]; (split; [done|]); intros c Hc.
  - apply elem_of_list_In, H2 in Hc. rewrite orb_true_iff, N.eqb_eq in Hc. done.
  - apply elem_of_list_In, H2 in Hc. rewrite orb_true_iff, N.eqb_eq. done.
Qed.
Lemma accepted_chars word s : name_accepted word s = true ↔ s ≠ [] ∧ Forall (λ c, (word c = true ∨ c = c_dash) ∧ is_space c = false) s.
Proof.
  unfold name_accepted. split.
  - destruct (existsb is_space s) eqn:E; [done|].
    assert (Forall (λ c, is_space c = false) s) as Hns.
    { apply Forall_forall. intros c Hc. destruct (is_space c) eqn:Ec; [|done]. exfalso.
      assert (existsb is_space s = true) by (apply existsb_exists; exists c; by rewrite <-elem_of_list_In). congruence. }
    unfold name_regex. rewrite orb_true_iff. intros [H|H].
    + apply name_chars_spec in H as [H1 H2]. split; [done|]. by apply Forall_and.
    + destruct (rev s) as [|c r] eqn:Er; [done|]. apply andb_true_iff in H as [Hc%N.eqb_eq _]. exfalso.
      rewrite Forall_forall in Hns. assert (is_space c = false) as Hf; [|by subst c].
      apply Hns. rewrite <-(rev_involutive s), Er. simpl. rewrite elem_of_app. right. by apply elem_of_list_singleton.
  - intros [Hn Hf]. apply Forall_and in Hf as [Hf1 Hf2].
    assert (existsb is_space s = false) as ->.
    { destruct (existsb is_space s) eqn:E; [|done]. apply existsb_exists in E as (c & Hc%elem_of_list_In & Hsp).
      rewrite Forall_forall in Hf2. apply Hf2 in Hc. congruence. }
    unfold name_regex. apply orb_true_iff. left. by apply name_chars_spec.
Qed.
(** [word] is Python's [\w]: on ASCII the letters, digits and the underscore,
    anything beyond.  The name is a name of one entry, without NUL, and the
    directory of the profile is this entry of the profiles directory. *)
Theorem C54_profile_names word s :
  (∀ c, (c < 128)%N → word c = ascii_word c) →
  name_accepted word s = true →
  valid_name s ∧ 0%N ∉ s
  ∧ ∀ d, d ≠ [] → valid_comps d → profile_dir (abs_path d) s = abs_path (d ++ [s]).
Proof.
  intros Hw Ha. apply accepted_chars in Ha as [Hn Hf].
  assert (∀ c, c ∈ s → (c < 128)%N → ascii_word c = true ∨ c = c_dash) as Hc.
  { intros c Hc Hlt. rewrite Forall_forall in Hf. destruct (Hf c Hc) as [[H|H] _]; [left|by right]. by rewrite <-Hw. }
  assert (valid_name s) as Hv.
  { split; [done|]. split; [|split].
    - intros H. destruct (Hc _ H) as [?|?]; done.
    - intros ->. destruct (Hc c_dot) as [?|?]; [left|done..].
    - intros ->. destruct (Hc c_dot) as [?|?]; [left|done..]. }
  split; [done|]. split; [intros H; destruct (Hc _ H) as [?|?]; done|].
  intros d Hd Hvd. unfold profile_dir. change s with (rel_path [s]) at 1. apply pjoin_abs_rel; [done|done|done|by apply Forall_singleton].
Qed.
Print Assumptions C54_profile_names.
Example C54_ex :
  name_accepted ascii_word (lit "my-laptop_2") = true ∧ name_accepted ascii_word (lit "../x") = false
  ∧ name_accepted ascii_word (lit "..") = false ∧ name_accepted ascii_word (lit "a b") = false
  ∧ name_accepted ascii_word (lit "a" ++ [c_nl]) = false ∧ name_accepted ascii_word [] = false.
Proof. vm_compute. done. Qed.

(** ** C52 Locks of different profiles do not interfere. *)
Lemma digits_no_dash n : c_dash ∉ show_N n.
Proof. intros H. pose proof (show_N_digits n) as Hd. rewrite Forall_forall in Hd. apply Hd in H. done. Qed.
Lemma dash_split (a a' b b' : str) : c_dash ∉ a → c_dash ∉ a' → a ++ [c_dash] ++ b = a' ++ [c_dash] ++ b' → a = a' ∧ b = b'.
Proof.
  revert a'. induction a as [|x a IH]; intros [|x' a'] Ha Ha' E; simpl in E.
  - by injection E as ->.
  - injection E as E _. exfalso. apply Ha'. rewrite E. left.
  - injection E as E _. exfalso. apply Ha. rewrite E. left.
  - injection E as -> E. destruct (IH a') as [-> ->]; [set_solver..|exact E|done].
Qed.
Theorem C52_lock_names u u' n n' b :
  socket_name u n = Some b → socket_name u' n' = Some b → u = u' ∧ n = n'.
Proof.
  unfold socket_name. intros H H'.
  destruct (utf8 (lock_name u n)) as [x|] eqn:E; [|done]. case_bool_decide; [|done].
  destruct (utf8 (lock_name u' n')) as [x'|] eqn:E'; [|done]. case_bool_decide; [|done].
  injection H as ->. injection H' as ->. pose proof (utf8_inj _ _ _ E E') as Eq.
  unfold lock_name in Eq. apply app_inv_head in Eq. apply dash_split in Eq as [Hu Hn]; [|apply digits_no_dash..].
  split; [by apply show_N_inj|done].
Qed.
Print Assumptions C52_lock_names.
(** Dashes and digits in names do not confuse the users. *)
Example C52_ex : is_Some (socket_name 1000 (lit "1-a")) ∧ is_Some (socket_name 10 (lit "00-1-a"))
  ∧ socket_name 1000 (lit "1-a") ≠ socket_name 10 (lit "00-1-a") ∧ socket_name 1000 (lit "1-a") ≠ socket_name 1000 (lit "a").
Proof. by repeat split; (vm_compute; (eexists; reflexivity) || discriminate). Qed.

(** ** C51 One operation per profile at a time. *)
Definition inside (who : nat → N * str) (s : system) (i : nat) : Prop := states s !! i = Some PInside.
Record lock_inv (who : nat → N * str) (s : system) : Prop := {
  li_held : ∀ i, states s !! i = Some PInside → ∃ b, socket_name (who i).1 (who i).2 = Some b ∧ sockets s !! b = Some i;
  li_owner : ∀ b i, sockets s !! b = Some i → states s !! i = Some PInside ∧ socket_name (who i).1 (who i).2 = Some b
}.
Lemma close_all_inv who i s : lock_inv who s → lock_inv who (close_all i s).
Proof.
  intros [H1 H2]. split; simpl.
  - intros j Hj. destruct (decide (i = j)) as [<-|Hne]; [by rewrite lookup_insert in Hj|].
    rewrite lookup_insert_ne in Hj by done. destruct (H1 j Hj) as (b & Hb & Hs). exists b. split; [done|].
    apply map_filter_lookup_Some. split; [done|]. simpl. congruence.
  - intros b j Hj. apply map_filter_lookup_Some in Hj as [Hj Hne]. simpl in Hne. destruct (H2 b j Hj) as [H H'].
    split; [by rewrite lookup_insert_ne|done].
Qed.
Lemma run_event_inv who s ev : lock_inv who s → lock_inv who (run_event who s ev).
Proof.
  intros Hi. destruct ev as [i|i|i|i]; simpl.
  - destruct (states s !! i) eqn:E; [done|]. destruct Hi as [H1 H2]. split; simpl.
    + intros j Hj. destruct (decide (i = j)) as [<-|Hne]; [by rewrite lookup_insert in Hj|]. rewrite lookup_insert_ne in Hj by done. auto.
    + intros b j Hj. destruct (H2 b j Hj) as [H H']. split; [|done]. rewrite lookup_insert_ne; [done|]. intros ->. congruence.
  - unfold do_lock. destruct (states s !! i) as [[]|] eqn:E; try done.
    assert (lock_inv who (System (sockets s) (<[i:=PDone]> (states s)))) as Hdone.
    { destruct Hi as [H1 H2]. split; simpl.
      - intros j Hj. destruct (decide (i = j)) as [<-|Hne]; [by rewrite lookup_insert in Hj|]. rewrite lookup_insert_ne in Hj by done. auto.
      - intros b j Hj. destruct (H2 b j Hj) as [H H']. split; [|done]. rewrite lookup_insert_ne; [done|]. intros ->. congruence. }
    destruct (socket_name (who i).1 (who i).2) as [b|] eqn:Eb; [|done].
    destruct (sockets s !! b) as [j|] eqn:Es; [done|].
    destruct Hi as [H1 H2]. split; simpl.
    + intros j Hj. destruct (decide (i = j)) as [<-|Hne].
      { exists b. split; [done|]. by rewrite lookup_insert. }
      rewrite lookup_insert_ne in Hj by done. destruct (H1 j Hj) as (b' & Hb' & Hs). exists b'. split; [done|].
      rewrite lookup_insert_ne; [done|]. intros ->. congruence.
    + intros b' j Hj. destruct (decide (b = b')) as [<-|Hne].
      { rewrite lookup_insert in Hj. injection Hj as <-. split; [by rewrite lookup_insert|done]. }
      rewrite lookup_insert_ne in Hj by done. destruct (H2 b' j Hj) as [H H']. split; [|done].
      rewrite lookup_insert_ne; [done|]. intros ->. congruence.
  - destruct (states s !! i) as [[]|]; try done. by apply close_all_inv.
  - destruct (states s !! i); [|done]. by apply close_all_inv.
Qed.
Lemma run_events_inv who l : lock_inv who (run_events who l).
Proof.
  unfold run_events. assert (lock_inv who (System ∅ ∅)) as H0.
  { split; simpl; [intros i Hi|intros b i Hi]; by rewrite lookup_empty in Hi. }
  revert H0. generalize (System ∅ ∅). induction l as [|ev l IH]; intros s Hs; [done|]. simpl. by apply IH, run_event_inv.
Qed.
(** After any events of any processes, two that are inside their locked section
    for the same user and profile are the same. *)
Theorem C51_mutual_exclusion who l i j :
  states (run_events who l) !! i = Some PInside → states (run_events who l) !! j = Some PInside →
  who i = who j → i = j.
Proof.
  intros Hi Hj E. pose proof (run_events_inv who l) as [H _].
  destruct (H i Hi) as (b & Hb & Hs). destruct (H j Hj) as (b' & Hb' & Hs'). rewrite E in Hb. congruence.
Qed.
Print Assumptions C51_mutual_exclusion.
(** The lock is free again when its holder has finished or died: a process that
    tries then gets inside, and it gets inside only then. *)
Theorem C51_released who l i b :
  states (run_events who l) !! i = Some PStart → socket_name (who i).1 (who i).2 = Some b →
  states (run_events who (l ++ [Lock i])) !! i = Some PInside ↔
  ∀ j, who j = who i → states (run_events who l) !! j ≠ Some PInside.
Proof.
  intros Hi Hb. pose proof (run_events_inv who l) as Hinv. unfold run_events in *. rewrite foldl_app. simpl.
  set (s := foldl _ _ l) in *. unfold do_lock. rewrite Hi, Hb. destruct (sockets s !! b) as [j|] eqn:E; simpl.
  - rewrite lookup_insert. split; [done|]. intros H. destruct (li_owner _ _ Hinv b j E) as [Hj Hb']. exfalso. apply (H j); [|done].
    destruct (who i) as [u n], (who j) as [u' n']; simpl in *. by destruct (C52_lock_names _ _ _ _ _ Hb Hb') as [-> ->].
  - rewrite lookup_insert. split; [|done]. intros _ j Hw Hj. destruct (li_held _ _ Hinv j Hj) as (b' & Hb' & Hs).
    rewrite Hw, Hb in Hb'. injection Hb' as <-. congruence.
Qed.
Print Assumptions C51_released.
Example C51_ex :
  let who := λ i : nat, if bool_decide (i = 2) then (1000%N, lit "b") else (1000%N, lit "a") in
  let l := [Start 0; Start 1; Start 2; Start 3; Lock 0; Lock 1; Lock 2; Die 0] in
  states (run_events who l) !! 1 = Some PDone ∧ states (run_events who l) !! 2 = Some PInside
  ∧ states (run_events who l) !! 3 = Some PStart ∧ states (run_events who (l ++ [Lock 3])) !! 3 = Some PInside.
Proof. vm_compute. done. Qed.

(** ** C70 Every accepted profile name can be locked: not true.
    With a long name every command fails as if another one were running. *)
Theorem C70_long_name_refuted :
  ∃ s who, name_accepted ascii_word s = true ∧ length s < 255 ∧ (∀ i, who i = (0%N, s)) ∧
  ∀ l i, states (run_events who l) !! i ≠ Some PInside.
Proof.
  set (s := replicate 100 97%N). exists s, (λ _, (0%N, s)).
  split; [vm_compute; reflexivity|]. split; [rewrite <-Nat.ltb_lt; vm_compute; reflexivity|]. split; [done|].
  intros l i Hi. destruct (li_held _ _ (run_events_inv (λ _, (0%N, s)) l) i Hi) as (b & Hb & _).
  vm_compute in Hb. discriminate.
Qed.
Print Assumptions C70_long_name_refuted.
(** It is true for names of at most 89 ASCII characters and user ids of at most
    ten digits. *)
Lemma utf8_ascii s : Forall (λ c, (c < 128)%N) s → utf8 s = Some s.
Proof.
  unfold utf8. induction 1 as [|c s Hc H IH]; [done|]. cbn [encode_with]. rewrite IH. unfold utf8_char.
  destruct (N.ltb_spec c 128); [done|lia].
Qed.
Theorem C70_short_names_partial s uid l who i :
  Forall (λ c, (c < 128)%N) s → length s <= 89 → (length (show_N uid) <= 10) →
  who i = (uid, s) → states (run_events who l) !! i = Some PStart →
  (∀ j, who j = who i → states (run_events who l) !! j ≠ Some PInside) →
  states (run_events who (l ++ [Lock i])) !! i = Some PInside.
Proof.
  intros Ha Hl Hu Hw Hs Hfree.
  assert (socket_name (who i).1 (who i).2 = Some (lock_name uid s)) as Hb.
  { rewrite Hw. cbn [fst snd]. unfold socket_name. rewrite utf8_ascii.
    - rewrite bool_decide_true; [done|]. unfold lock_name. rewrite !app_length. simpl. lia.
    - unfold lock_name. rewrite !Forall_app. split; [by repeat constructor|]. split; [|split; [by repeat constructor|done]].
      eapply Forall_impl; [apply show_N_digits|]. intros c Hc. unfold is_digit in Hc. apply andb_true_iff in Hc as [_ Hc%N.leb_le]. lia. }
  by apply (C51_released who l i _ Hs Hb).
Qed.
Print Assumptions C70_short_names_partial.

(** ** C53 A profile can be selected by its directory: not true. *)
(** A name selects its profile, and nothing else selects any profile. *)
Theorem C53_names_partial names exists_ input :
  (input ∈ names → select_profile names exists_ input = Selected input)
  ∧ ∀ n, select_profile names exists_ input = Selected n → n = input ∧ n ∈ names.
Proof.
  unfold select_profile. split.
  - intros H. by rewrite bool_decide_true.
  - intros n. case_bool_decide; [intros [= <-]; done|]. destruct exists_; [by destruct names|done].
Qed.
Print Assumptions C53_names_partial.
(** An input that is not a name never selects a profile; if it is an existing
    path, such as a local directory, the program ends with AttributeError. *)
Theorem C53_directory_refuted names input :
  names ≠ [] → input ∉ names → select_profile names true input = SelAttributeErr.
Proof. intros Hn Hi. unfold select_profile. rewrite bool_decide_false by done. by destruct names. Qed.
Print Assumptions C53_directory_refuted.
Example C53_ex : select_profile [lit "a"; lit "b"] true (lit "b") = Selected (lit "b")
  ∧ select_profile [lit "a"; lit "b"] true (lit "/home/me/b") = SelAttributeErr
  ∧ select_profile [lit "a"; lit "b"] false (lit "c") = SelInputErr.
Proof. done. Qed.

(** ** C64 Local directories never overlap. *)
Definition overlap (a b : list str) : Prop := a `prefix_of` b ∨ b `prefix_of` a.
Lemma common_prefix_comm a b : common_prefix a b = common_prefix b a.
Proof.
  revert b. induction a as [|x a IH]; intros [|y b]; simpl; try done.
  destruct (decide (x = y)) as [->|Hn]; [by rewrite !bool_decide_true, IH|].
  rewrite !bool_decide_false; done.
Qed.
Lemma overlap_spec a b : valid_comps a → valid_comps b →
  abs_path (common_prefix a b) = abs_path a ∨ abs_path (common_prefix a b) = abs_path b ↔ overlap a b.
Proof.
  intros Ha Hb. unfold overlap.
  assert (valid_comps (common_prefix a b)) as Hc by by apply common_prefix_valid.
  assert (∀ x y, valid_comps x → valid_comps y → abs_path x = abs_path y ↔ x = y) as Hinj.
  { intros x y Hx Hy. split; [by apply abs_path_inj|by intros ->]. }
  rewrite !Hinj by done. rewrite <-(common_prefix_eq a b), <-(common_prefix_eq b a), (common_prefix_comm b a). tauto.
Qed.
(** [profiles] are the local directories of the other profiles. *)
Theorem C64_verify_partial prog dir profiles :
  valid_comps prog → valid_comps dir → Forall (λ np, valid_comps np.2) profiles →
  verify_local_dir (abs_path prog) (abs_path dir) (map (λ np, (np.1, abs_path np.2)) profiles) = VOk ↔
  ¬ overlap dir prog ∧ Forall (λ np, ¬ overlap dir np.2) profiles.
Proof.
  intros Hp Hd Hf. unfold verify_local_dir. rewrite commonpath_abs by done.
  assert (∃ l, overlapping (abs_path dir) (map (λ np, (np.1, abs_path np.2)) profiles) = Some l
    ∧ (l = [] ↔ Forall (λ np, ¬ overlap dir np.2) profiles)) as (l & El & Hl).
  { induction Hf as [|[n p] profiles Hn Hf IH]; cbn [map overlapping fst snd]; [by exists []|]. destruct IH as (l & -> & Hl). simpl in Hn.
    rewrite commonpath_abs by done. eexists. split; [done|]. rewrite Forall_cons, <-Hl. cbn [fst snd].
    assert (overlap dir p ↔ overlap p dir) as Hsym by (unfold overlap; tauto).
    case_bool_decide as Hb; rewrite overlap_spec, <-Hsym in Hb by done; [|tauto]. split; [done|]. by intros [? _]. }
  rewrite El. case_bool_decide as Hb; rewrite overlap_spec in Hb by done.
  - split; [done|]. by intros [? _].
  - destruct l as [|n l]; [|]; split; try done.
    + intros _. split; [done|]. by apply Hl.
    + intros [_ H]. by apply Hl in H.
Qed.
Print Assumptions C64_verify_partial.
Example C64_ex :
  let prog := [lit "home"; lit "me"; lit ".config"; lit "zielen"] in
  let other := [lit "home"; lit "me"; lit "docs"] in
  verify_local_dir (abs_path prog) (abs_path [lit "home"; lit "me"; lit "docs2"]) [(lit "p", abs_path other)] = VOk
  ∧ verify_local_dir (abs_path prog) (abs_path [lit "home"; lit "me"; lit "docs"; lit "x"]) [(lit "p", abs_path other)] = VProfiles [lit "p"]
  ∧ verify_local_dir (abs_path prog) (abs_path [lit "home"]) [(lit "p", abs_path other)] = VProgram.
Proof. vm_compute. done. Qed.
(** It is not true for a path with two leading slashes, which [normpath] keeps
    and which is the same directory on Linux. *)
Theorem C64_double_slash_refuted :
  ∃ prog dir other, isabs dir = true ∧ normpath dir = dir ∧ normpath other = other ∧ normpath prog = prog
    ∧ path_comps dir `prefix_of` path_comps other
    ∧ verify_local_dir prog dir [(lit "p", other)] = VOk.
Proof.
  exists (lit "/home/me/.config/zielen"), (lit "//data"), (lit "/data/docs").
  do 4 (split; [vm_compute; reflexivity|]). split; [by exists [lit "docs"]|]. vm_compute. reflexivity.
Qed.
Print Assumptions C64_double_slash_refuted.
(** Nor is it true when the first attempt was killed before the check: the
    initialization is then resumed without it. *)
Theorem C64_resume_refuted :
  ∃ check local p0 p1,
    p_status p0 = None ∧ check local = false
    ∧ (init_profile check local p0).2 = Err InputErr
    ∧ p1 ∈ (init_profile check local p0).1.1
    ∧ (init_profile check local p1).2 = Ok tt ∧ p_status (init_profile check local p1).1.2 = Some IInitialized
    ∧ p_local (init_profile check local p1).1.2 = Some local.
Proof.
  exists (λ _, false), (lit "/home"), (PDir None None true), (PDir (Some IPartial) (Some (lit "/home")) true).
  split_and!; try done. right. left.
Qed.
Print Assumptions C64_resume_refuted.

(** ** C71 An initialization does not destroy an existing profile: not true.
    The profile is read before it is locked; one that another process has
    initialized meanwhile is started again, and deleted when the remote
    directory turns out not to be empty. *)
Theorem C71_init_race_refuted :
  ∃ local l1 l2,
    p_status (r_pdir (race (λ _, true) local l1)) = Some IInitialized
    ∧ p_status (r_pdir (race (λ _, true) local (l1 ++ l2))) = None.
Proof.
  exists (lit "/home/me/docs"), [(true, IReads); (false, IReads); (true, ILocks); (true, IRuns)], [(false, ILocks); (false, IRuns)].
  done.
Qed.
Print Assumptions C71_init_race_refuted.
(** It is true if every process that reads the profile then finishes before
    another one reads it. *)
Definition turn (i : bool) : list (bool * istep) := [(i, IReads); (i, ILocks); (i, IRuns)].
Theorem C71_no_race_partial check local l :
  let s := race check local (concat (map turn l)) in
  p_status (r_pdir s) = Some IInitialized → ∀ l', p_status (r_pdir (race check local (concat (map turn (l ++ l'))))) = Some IInitialized.
Proof.
  intros s. set (ok := λ s : irace, r_holder s = None).
  assert (∀ l s, ok s → ok (foldl (race_step check local) s (concat (map turn l)))
    ∧ (p_status (r_pdir s) = Some IInitialized → p_status (r_pdir (foldl (race_step check local) s (concat (map turn l)))) = Some IInitialized)) as G.
  { clear. induction l as [|i l IH]; intros s Hs; [done|]. change (concat (map turn (i :: l))) with (turn i ++ concat (map turn l)). rewrite foldl_app.
    assert (foldl (race_step check local) s (turn i) = IRace (init_body (p_status (r_pdir s)) check local (r_pdir s)).1.2 None
       (λ j, if Bool.eqb i j then Some (p_status (r_pdir s)) else r_seen s j)) as E.
    { unfold turn. simpl. rewrite eqb_reflx, Hs. simpl. rewrite bool_decide_true by done. by rewrite eqb_reflx. }
    rewrite E. destruct (IH (IRace (init_body (p_status (r_pdir s)) check local (r_pdir s)).1.2 None
       (λ j, if Bool.eqb i j then Some (p_status (r_pdir s)) else r_seen s j)) eq_refl) as [H1 H2].
    split; [exact H1|]. intros Hi. apply H2. simpl. by rewrite Hi. }
  intros Hi l'. rewrite map_app, concat_app. unfold race in *. rewrite foldl_app. apply G; [|exact Hi].
  apply G. done.
Qed.
Print Assumptions C71_no_race_partial.
(** In particular one that finds the profile initialized says so, and writes
    nothing at all. *)
Theorem C71_exists check local p :
  p_status p = Some IInitialized →
  (init_profile check local p).2 = Err InputErr ∧ (init_profile check local p).1.2 = p ∧ ∀ q, q ∈ (init_profile check local p).1.1 → q = p.
Proof.
  intros Hi. unfold init_profile, init_body, bind, get, throw. rewrite Hi. simpl. split_and!; [done..|].
  intros q Hq. set_solver.
Qed.
Print Assumptions C71_exists.
Example C71_exists_ex : (init_profile (λ _, true) (lit "/d") (PDir (Some IInitialized) (Some (lit "/e")) true)).1.2
  = PDir (Some IInitialized) (Some (lit "/e")) true.
Proof. done. Qed.
Example C71_ex : p_status (r_pdir (race (λ _, true) (lit "/d") (concat (map turn [true])))) = Some IInitialized
  ∧ p_status (r_pdir (race (λ _, true) (lit "/d") (concat (map turn [true; false])))) = Some IInitialized.
Proof. done. Qed.

(** ** C66 Every file name can be tracked: not true.
    A name that is not valid UTF-8 comes from the operating system with
    surrogates, and cannot be encoded to compute the id of the path. *)
Theorem C66_file_names_refuted sha :
  ∃ s b, valid_name s ∧ 0%N ∉ s ∧ fsencode s = Some b ∧ length b <= 255 ∧ hash_path sha s = None.
Proof.
  exists (lit "caf" ++ [56553%N]), [99; 97; 102; 233]%N. split; [apply (bool_decide_unpack _); vm_compute; exact I|].
  split; [apply (bool_decide_unpack _); vm_compute; exact I|]. split; [done|]. split; [simpl; lia|done].
Qed.
Print Assumptions C66_file_names_refuted.
(** Exactly the names with surrogates are affected. *)
Theorem C66_file_names_partial sha s :
  Forall (λ c, (c < 1114112)%N) s →
  is_Some (hash_path sha s) ↔ Forall (λ c, ¬ (55296 <= c <= 57343)%N) s.
Proof.
  intros Hs. assert (is_Some (hash_path sha s) ↔ is_Some (utf8 s)) as ->.
  { unfold hash_path. destruct (utf8 s); [done|]. split; by intros [? ?]. }
  rewrite utf8_some by done. apply Forall_proper; [|done]. intros c. unfold is_surrogate.
  rewrite andb_false_iff, !N.leb_gt. lia.
Qed.
Print Assumptions C66_file_names_partial.
Example C66_ex : is_Some (hash_path (λ b, Z.of_nat (length b)) (lit "caf" ++ [233%N; 8364%N; 128512%N])).
Proof. vm_compute. eauto. Qed.
