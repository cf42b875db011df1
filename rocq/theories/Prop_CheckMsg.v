(** C99: every problem of a configuration file is reported. *)
From Verif Require Export CheckMsg.
From Verif Require Import ConfigProofs.
From stdpp Require Import options.

(** ** Specification *)
(** What is said about a value that is not allowed. *)
Definition wants (k v r : str) : Prop :=
  (k ∈ required_keys ∧ v = [] ∧ r = lit "must not be blank")
  ∨ (k ∈ bool_keys ∧ r = lit "must have a boolean value")
  ∨ ((k = lit "LocalDir" ∨ k = lit "RemoteDir") ∧ v ≠ [] ∧ r = lit "must be an absolute path")
  ∨ (k = lit "StorageLimit" ∧ v ≠ [] ∧ r = lit "must be an integer followed by a unit (e.g. 10GB)")
  ∨ ((k = lit "SyncInterval" ∨ k = lit "PriorityHalfLife" ∨ k = lit "TrashCleanupPeriod") ∧ r = lit "must be an integer").

(** ** Proofs *)
Local Ltac lits := apply (bool_decide_unpack _); vm_compute; exact Logic.I.
Lemma check_message_value k v : check_value k v = bool_decide (is_Some (check_message k v)).
Proof.
  assert (∀ x : str, bool_decide (is_Some (Some x)) = true) as HS by (intros; by apply bool_decide_true).
  assert (bool_decide (is_Some (@None str)) = false) as HN by (apply bool_decide_false; by intros [? ?]).
  unfold check_value, check_message.
  repeat match goal with |- context [if ?b then _ else _] => destruct b end; rewrite ?HS, ?HN; try done.
  all: destruct (re_limit v); rewrite ?HS, ?HN; done.
Qed.
Lemma check_message_wants k v r : check_message k v = Some r → wants k v r ∧ k ∈ all_keys.
Proof.
  unfold check_message, wants.
  destruct (bool_decide (k ∈ required_keys) && bool_decide (v = [])) eqn:E1.
  { apply andb_true_iff in E1 as [H1%bool_decide_eq_true H2%bool_decide_eq_true]. intros [= <-]. split; [auto|]. unfold all_keys. apply elem_of_app. auto. }
  destruct (bool_decide (k ∈ bool_keys) && _ && _) eqn:E2.
  { apply andb_true_iff in E2 as [[H1%bool_decide_eq_true _]%andb_true_iff _]. intros [= <-]. split; [auto|].
    revert k H1 E1. clear. intros k H _. revert k H. apply Forall_forall. lits. }
  assert (k ∈ required_keys → v ≠ []) as Hne.
  { intros Hk Hv. rewrite !bool_decide_true in E1 by done. done. }
  clear E1 E2. destruct (bool_decide (k = lit "LocalDir")) eqn:H1; [apply bool_decide_eq_true in H1; subst k|]. { destruct (re_abs v); [done|]. intros [= <-]. split; [right; right; left; split; [by left|]; split; [apply Hne; lits|done]|lits]. }
  destruct (bool_decide (k = lit "RemoteDir")) eqn:H2; [apply bool_decide_eq_true in H2; subst k|]. { destruct (re_abs v); [done|]. intros [= <-]. split; [right; right; left; split; [by right|]; split; [apply Hne; lits|done]|lits]. }
  destruct (bool_decide (k = lit "StorageLimit")) eqn:H3; [apply bool_decide_eq_true in H3; subst k|]. { destruct (re_limit v); [done|]. intros [= <-]. split; [right; right; right; left; split; [done|]; split; [apply Hne; lits|done]|lits]. }
  destruct (bool_decide (k = lit "SyncInterval")) eqn:H4; [apply bool_decide_eq_true in H4; subst k|]. { destruct (re_int v); [done|]. intros [= <-]. split; [do 4 right; auto|lits]. }
  destruct (bool_decide (k = lit "PriorityHalfLife")) eqn:H5; [apply bool_decide_eq_true in H5; subst k|]. { destruct (re_int v); [done|]. intros [= <-]. split; [do 4 right; auto|lits]. }
  destruct (bool_decide (k = lit "TrashCleanupPeriod")) eqn:H6; [apply bool_decide_eq_true in H6; subst k|done]. destruct (re_sint v); [done|]. intros [= <-]. split; [do 4 right; auto|lits].
Qed.
Lemma wants_fun k v r r' : wants k v r → wants k v r' → r = r'.
Proof.
  assert (k ∈ bool_keys → k ∉ required_keys ∧ k ≠ lit "LocalDir" ∧ k ≠ lit "RemoteDir" ∧ k ≠ lit "StorageLimit"
    ∧ k ≠ lit "SyncInterval" ∧ k ≠ lit "PriorityHalfLife" ∧ k ≠ lit "TrashCleanupPeriod") as Hb.
  { apply (proj1 (Forall_forall (λ k, k ∉ required_keys ∧ k ≠ lit "LocalDir" ∧ k ≠ lit "RemoteDir" ∧ k ≠ lit "StorageLimit"
    ∧ k ≠ lit "SyncInterval" ∧ k ≠ lit "PriorityHalfLife" ∧ k ≠ lit "TrashCleanupPeriod") bool_keys)). lits. }
  assert (k = lit "LocalDir" ∨ k = lit "RemoteDir" → k ≠ lit "StorageLimit"
    ∧ k ≠ lit "SyncInterval" ∧ k ≠ lit "PriorityHalfLife" ∧ k ≠ lit "TrashCleanupPeriod") as Hd by (intros [-> | ->]; lits).
  assert (k = lit "StorageLimit" → k ≠ lit "SyncInterval" ∧ k ≠ lit "PriorityHalfLife" ∧ k ≠ lit "TrashCleanupPeriod") as Hl by (intros ->; lits).
  assert (k = lit "SyncInterval" ∨ k = lit "PriorityHalfLife" ∨ k = lit "TrashCleanupPeriod" → k ∉ required_keys) as Hi by (intros [-> | [-> | ->]]; lits).
  unfold wants. intros H H'. repeat destruct H as [H|H]; repeat destruct H' as [H'|H']; naive_solver.
Qed.

Lemma NoDup_omap_inj {A B} (f : A → option B) (l : list A) : NoDup l →
  (∀ x y z, x ∈ l → y ∈ l → f x = Some z → f y = Some z → x = y) → NoDup (omap f l).
Proof.
  intros Hl. induction Hl as [|x l Hx Hl IH]; intros Hf; [constructor|]. cbn.
  assert (NoDup (omap f l)) as HN by (apply IH; intros a b z Ha Hb; apply Hf; by right).
  destruct (f x) as [z|] eqn:E; [|done]. constructor; [|done].
  intros (y & Hy & Ey)%elem_of_list_omap. apply Hx. rewrite (Hf x y z); [done|by left|by right|done..].
Qed.
Lemma until_quote (c : char) (a a' b b' : str) : a ++ c :: b = a' ++ c :: b' → c ∉ a → c ∉ a' → a = a'.
Proof.
  revert a'. induction a as [|x a IH]; intros [|x' a'] E Ha Ha'; [done|..]; cbn in E; injection E as E1 E2.
  - subst. exfalso. apply Ha'. by left.
  - subst. exfalso. apply Ha. by left.
  - subst. f_equal. apply IH; [done|..]; intros ?; [apply Ha|apply Ha']; by right.
Qed.
Lemma no_quote (k : str) : k ∈ all_keys → 39%N ∉ k.
Proof. apply (proj1 (Forall_forall (λ k : str, 39%N ∉ k) all_keys)). lits. Qed.

(** The problems of a file, each with its message; the messages are different, so
    that each problem is reported once. *)
Theorem C99_messages context check_empty raw : (∀ k v, raw !! k = Some v → stripped v) →
  NoDup (check_messages context check_empty raw)
  ∧ ∀ m, m ∈ check_messages context check_empty raw ↔
      (∃ k, k ∈ required_keys ∧ raw !! k = None ∧ m = context ++ lit ": missing required option '" ++ k ++ lit "'")
      ∨ (∃ k, is_Some (raw !! k) ∧ k ∉ all_keys ∧ m = context ++ lit ": unrecognized option '" ++ k ++ lit "'")
      ∨ (∃ k v r, raw !! k = Some v ∧ k ∈ all_keys ∧ (check_empty = true ∨ v ≠ []) ∧ ¬ value_syntax k v
          ∧ wants k v r ∧ m = context ++ lit ": '" ++ k ++ lit "' " ++ r).
Proof.
  intros Hs. split.
  - unfold check_messages. apply NoDup_app. split; [|split].
    + apply NoDup_fmap_2; [|apply NoDup_ListNoDup, List.NoDup_filter, NoDup_ListNoDup; lits].
      intros x y E. apply (inj (app context)), (inj (app _)) in E. by apply (inj (λ z, z ++ _)) in E.
    + intros m Hm. apply elem_of_list_fmap in Hm as (k & -> & _). rewrite elem_of_app. intros [H|H].
      * apply elem_of_list_fmap in H as (k' & E & _). by apply (inj (app context)) in E.
      * apply elem_of_list_omap in H as ([k' v'] & _ & E). destruct (_ || _); [|done]. cbn [fst snd] in E.
        destruct (check_message k' v'); [|done]. cbn in E. injection E as E. by apply (inj (app context)) in E.
    + apply NoDup_app. split; [|split].
      * apply NoDup_fmap_2.
        { intros x y E. apply (inj (app context)), (inj (app _)) in E. by apply (inj (λ z, z ++ _)) in E. }
        apply NoDup_ListNoDup, List.NoDup_filter, NoDup_ListNoDup, NoDup_fst_map_to_list.
      * intros m Hm H. apply elem_of_list_fmap in Hm as (k & -> & _).
        apply elem_of_list_omap in H as ([k' v'] & _ & E). destruct (_ || _); [|done]. cbn [fst snd] in E.
        destruct (check_message k' v'); [|done]. cbn in E. injection E as E. by apply (inj (app context)) in E.
      * apply NoDup_omap_inj; [apply NoDup_map_to_list|]. intros [k v] [k' v'] m H1 H2 E E'.
        apply elem_of_map_to_list in H1, H2. cbn [fst snd] in E, E'.
        destruct (check_empty || _); [|done]. destruct (check_empty || _); [|done].
        destruct (check_message k v) as [r|] eqn:Er; [|done]. destruct (check_message k' v') as [r'|] eqn:Er'; [|done].
        cbn in E, E'. injection E as <-. injection E' as E'. apply (inj (app context)) in E'. injection E' as E'.
        apply until_quote in E' as ->; [congruence|apply no_quote; by eapply check_message_wants..].
  - intros m. unfold check_messages. rewrite !elem_of_app. f_equiv; [|f_equiv].
    + rewrite elem_of_list_fmap. setoid_rewrite elem_of_list_In. setoid_rewrite filter_In. setoid_rewrite <-elem_of_list_In. setoid_rewrite bool_decide_eq_true. naive_solver.
    + rewrite elem_of_list_fmap. setoid_rewrite elem_of_list_In. setoid_rewrite filter_In. setoid_rewrite <-elem_of_list_In.
      setoid_rewrite negb_true_iff. setoid_rewrite bool_decide_eq_false. setoid_rewrite elem_of_list_fmap. split.
      * intros (k & -> & ([k' v] & -> & Hin%elem_of_map_to_list) & Hk). exists k'. split; [by eexists|done].
      * intros (k & [v Hv] & Hk & ->). exists k. split; [done|]. split; [|done]. exists (k, v). split; [done|]. by apply elem_of_map_to_list.
    + rewrite elem_of_list_omap. split.
      * intros ([k v] & Hin%elem_of_map_to_list & E). cbn [fst snd] in E. exists k, v. 
        destruct (check_empty || _) eqn:Ee; [|done]. destruct (check_message k v) as [r|] eqn:Em; [|done]. injection E as <-.
        destruct (check_message_wants _ _ _ Em) as [Hw Hk]. exists r. split; [done|]. split; [done|]. split.
        { apply orb_true_iff in Ee as [?|Ee]; [by left|right]. by apply negb_true_iff, bool_decide_eq_false in Ee. }
        split; [|done]. rewrite <-check_value_spec, check_message_value, Em by eauto. rewrite bool_decide_true by eauto. done.
      * intros (k & v & r & Hin & Hk & He & Hv & Hw & ->). exists (k, v). split; [by apply elem_of_map_to_list|]. cbn [fst snd].
        assert (check_empty || negb (bool_decide (v = [])) = true) as ->.
        { apply orb_true_iff. destruct He as [?|He]; [by left|right]. by apply negb_true_iff, bool_decide_eq_false. }
        rewrite <-check_value_spec, check_message_value in Hv by eauto.
        destruct (check_message k v) as [r'|] eqn:Em; [|exfalso; apply Hv; apply bool_decide_false; by intros [? ?]].
        destruct (check_message_wants _ _ _ Em) as [Hw' _]. assert (r' = r) as -> by by eapply wants_fun. done.
Qed.
Print Assumptions C99_messages.

(** The command fails exactly when there is something to report. *)
Theorem C99_raised context check_empty raw : check_all check_empty raw = true ↔ check_messages context check_empty raw ≠ [].
Proof.
  assert (∀ {A B} (f : A → B) l, map f l = [] ↔ l = []) as Hmap by (intros A B f [|]; done).
  assert (∀ l : list (str * str),
    omap (λ kv : str * str, if check_empty || negb (bool_decide (kv.2 = [])) then
        (λ e, context ++ lit ": '" ++ kv.1 ++ lit "' " ++ e) <$> check_message kv.1 kv.2 else None) l = []
    ↔ List.filter (λ kv, (check_empty || negb (bool_decide (kv.2 = []))) && check_value kv.1 kv.2) l = []) as Ho.
  { induction l as [|[k v] l IH]; [done|]. cbn [omap list_omap List.filter fst snd].
    destruct (check_empty || _); cbn [andb]; [|done]. rewrite check_message_value.
    destruct (check_message k v); cbn [fmap option_fmap option_map].
    - rewrite bool_decide_true by eauto. done.
    - rewrite bool_decide_false by (by intros [? ?]). done. }
  unfold check_all, check_messages. rewrite !orb_true_iff, !negb_true_iff, !bool_decide_eq_false.
  rewrite <-Ho. clear Ho. split.
  - intros [[H|H]|H] [E1 [E2 E3]%app_eq_nil]%app_eq_nil; apply H; [by apply Hmap in E1|by apply Hmap in E2|done].
  - intros H. match goal with |- (?a ≠ [] ∨ ?b ≠ []) ∨ ?c ≠ [] => destruct a; [|by left; left]; destruct b; [|by left; right]; destruct c; [|by right] end. done.
Qed.
Print Assumptions C99_raised.

(** The lines that are printed for the contents of a file. *)
Theorem C99_printed context content :
  let raw := cfg_read ∅ content in let lines := error_lines (check_messages context true raw) in
  NoDup lines
  ∧ ∀ l, l ∈ lines ↔
      (∃ k, k ∈ required_keys ∧ raw !! k = None ∧ l = lit "Error: " ++ context ++ lit ": missing required option '" ++ k ++ lit "'")
      ∨ (∃ k, is_Some (raw !! k) ∧ k ∉ all_keys ∧ l = lit "Error: " ++ context ++ lit ": unrecognized option '" ++ k ++ lit "'")
      ∨ (∃ k v r, raw !! k = Some v ∧ k ∈ all_keys ∧ ¬ value_syntax k v ∧ wants k v r
          ∧ l = lit "Error: " ++ context ++ lit ": '" ++ k ++ lit "' " ++ r).
Proof.
  intros raw lines. destruct (C99_messages context true raw) as [Hnd Hm].
  { apply cfg_read_stripped. intros ? ? H. by rewrite lookup_empty in H. }
  subst lines. unfold error_lines. split.
  - apply NoDup_fmap_2; [|done]. intros a b H. by apply app_inv_head in H.
  - intros l. rewrite elem_of_list_fmap. split.
    + intros (m & -> & H). apply Hm in H as [(k & H1 & H2 & ->)|[(k & H1 & H2 & ->)|(k & v & r & H1 & H2 & _ & H3 & H4 & ->)]].
      * left. by exists k.
      * right. left. by exists k.
      * right. right. by exists k, v, r.
    + intros H. enough (∃ m, l = lit "Error: " ++ m ∧ m ∈ check_messages context true raw) as (m & -> & Hin) by by exists m.
      destruct H as [(k & H1 & H2 & ->)|[(k & H1 & H2 & ->)|(k & v & r & H1 & H2 & H3 & H4 & ->)]]; eexists; (split; [reflexivity|]); apply Hm.
      * left. by exists k.
      * right. left. by exists k.
      * right. right. exists k, v, r. split_and!; try done. by left.
Qed.
Print Assumptions C99_printed.

(** A file with each kind of problem. *)
Example C99_ex :
  let raw := cfg_read ∅ (lit "LocalDir=/l
StorageLimit=lots
SyncInterval=5m
Colour=red
") in
  (∀ k v, raw !! k = Some v → stripped v)
  ∧ Forall (λ m, m ∈ error_lines (check_messages (lit "config file") true raw))
     [lit "Error: config file: missing required option 'RemoteDir'"; lit "Error: config file: unrecognized option 'Colour'";
      lit "Error: config file: 'StorageLimit' must be an integer followed by a unit (e.g. 10GB)";
      lit "Error: config file: 'SyncInterval' must be an integer"]
  ∧ length (check_messages (lit "config file") true raw) = 4.
Proof.
  intros raw. split; [|split].
  - apply cfg_read_stripped. intros ? ? ?. by rewrite lookup_empty in H.
  - lits.
  - vm_compute. done.
Qed.
