(** C82 and C83: the command "list", and the configuration file that "init"
    writes. *)
From Verif Require Import ProfileGen ConfigProofs Prop_Table.
From stdpp Require Import options.

(** * C83: generating the configuration file *)

(** A template as the manual describes it: it mentions the mandatory options,
    knows no others than the options there are, and what it says is well formed;
    mandatory options may be left blank. *)
Definition good_template (lines : list str) : Prop :=
  (∀ k, k ∈ required_keys → file_mentions lines k)
  ∧ (∀ k, file_mentions lines k → k ∈ all_keys)
  ∧ (∀ k v, file_assigns lines k v → v = [] ∨ value_syntax k v).
(** No option that has a default is left blank, except for the boolean ones. *)
Definition no_blanks (lines : list str) : Prop :=
  ∀ k, file_assigns lines k [] → k ∈ required_keys ∨ k ∈ bool_keys.

Lemma cfg_read_assigns content k v : cfg_read ∅ content !! k = Some v ↔ file_assigns (read_lines content) k v.
Proof.
  unfold cfg_read. destruct (fold_read_lookup (read_lines content) ∅ k) as [(v' & Ha & Hv)|[Hno Hv]]; rewrite Hv.
  - split; [by intros [= <-]|]. intros Ha'. f_equal. by eapply file_assigns_fun.
  - rewrite lookup_empty. split; [done|]. intros (pre & l & post & E & Ha & _). destruct Hno. exists l, v. rewrite E. split; [set_solver|done].
Qed.
Lemma mentions_assigns content k : file_mentions (read_lines content) k ↔ ∃ v, file_assigns (read_lines content) k v.
Proof.
  split.
  - intros Hm. destruct (fold_read_lookup (read_lines content) ∅ k) as [(v & Ha & _)|[Hno _]]; [by exists v|done].
  - intros (v & pre & l & post & E & Ha & _). exists l, v. rewrite E. split; [set_solver|done].
Qed.
Lemma check_all_false raw : (∀ k v, raw !! k = Some v → stripped v) →
  (∀ k, k ∈ required_keys → is_Some (raw !! k)) → (∀ k, is_Some (raw !! k) → k ∈ all_keys) →
  (∀ k v, raw !! k = Some v → v = [] ∨ value_syntax k v) → check_all false raw = false.
Proof.
  intros Hs Hr Ha Hv. unfold check_all. apply orb_false_iff. split; [apply orb_false_iff; split|];
    apply negb_false_iff, bool_decide_eq_true, filter_nil.
  - intros k Hk. apply bool_decide_eq_false. destruct (Hr k Hk) as [v ->]. done.
  - intros k Hk. apply negb_false_iff, bool_decide_eq_true, Ha. apply elem_of_list_fmap in Hk as ([k' v] & -> & Hk).
    apply elem_of_map_to_list in Hk. simpl in *. eauto.
  - intros [k v] Hk. apply elem_of_map_to_list in Hk. simpl. destruct (Hv k v Hk) as [->|Hx]; [by rewrite bool_decide_eq_true_2|].
    apply andb_false_iff. right. apply check_value_spec; eauto.
Qed.

Lemma ask_spec k inputs v rest : ask k inputs = Some (v, rest) →
  ∃ pre x, inputs = pre ++ x :: rest ∧ v = strip x ∧ check_value k v = false ∧ ∀ y, y ∈ pre → check_value k (strip y) = true.
Proof.
  induction inputs as [|x r IH]; simpl; [done|]. destruct (check_value k (strip x)) eqn:E.
  - intros (pre & x' & -> & Hv & Hc & Hp)%IH. exists (x :: pre), x'. split; [done|]. split; [done|]. split; [done|]. by intros y [->|?]%elem_of_cons; [|apply Hp].
  - intros [= <- <-]. exists [], x. split; [done|]. split; [done|]. split; [done|]. by intros y ?%elem_of_nil.
Qed.
Lemma ask_all_spec keys : NoDup keys → ∀ raw inputs raw', ask_all keys raw inputs = Some raw' →
  (∀ k, k ∉ keys → raw' !! k = raw !! k)
  ∧ (∀ k, k ∈ keys → ∃ x, x ∈ inputs ∧ raw' !! k = Some (strip x) ∧ check_value k (strip x) = false).
Proof.
  induction 1 as [|k keys Hk Hnd IH]; intros raw inputs raw'; simpl.
  - intros [= <-]. split; [done|]. by intros k ?%elem_of_nil.
  - destruct (ask k inputs) as [[v rest]|] eqn:E; [|done]. apply ask_spec in E as (pre & x & -> & -> & Hc & _).
    intros H. destruct (IH _ _ _ H) as [Ho Hi]. split.
    + intros k' Hk'. rewrite not_elem_of_cons in Hk'. rewrite Ho by tauto. apply lookup_insert_ne. intros ->. tauto.
    + intros k' [->|Hk']%elem_of_cons.
      * exists x. split; [set_solver|]. split; [|done]. rewrite Ho by done. apply lookup_insert.
      * destruct (Hi k' Hk') as (y & Hy & ?). exists y. split; [set_solver|done].
Qed.
Lemma prompt_keys_spec raw k : k ∈ prompt_keys raw ↔ k ∈ required_keys ∧ (raw !! k = None ∨ raw !! k = Some []).
Proof.
  unfold prompt_keys. rewrite elem_of_list_In, filter_In, <-elem_of_list_In. destruct (raw !! k) as [v|]; [rewrite bool_decide_eq_true|]; naive_solver.
Qed.
Lemma prompt_nodup raw : NoDup (prompt_keys raw).
Proof. apply NoDup_ListNoDup, List.NoDup_filter, NoDup_ListNoDup. apply (bool_decide_unpack _). vm_compute. exact I. Qed.
Lemma prompt_spec raw inputs raw' : prompt raw inputs = Some raw' →
  (∀ k, k ∉ prompt_keys raw → raw' !! k = raw !! k)
  ∧ (∀ k, k ∈ prompt_keys raw → ∃ x, x ∈ inputs ∧ raw' !! k = Some (strip x) ∧ check_value k (strip x) = false).
Proof. apply ask_all_spec, prompt_nodup. Qed.
Lemma one_line_strip x : one_line x → one_line (strip x).
Proof. intros [H1 H2]. split; intros H%elem_strip; done. Qed.
Lemma assigns_one_line content k v : file_assigns (read_lines content) k v → one_line v.
Proof.
  intros (pre & l & post & E & [_ (a & b & -> & Ha & _ & <-)] & _).
  pose proof (lines_of_ok (univ_nl content)) as Hok. fold (read_lines content) in Hok.
  pose proof (read_lines_nocr content) as Hcr. rewrite E in *. rewrite Forall_app, Forall_cons in Hcr. destruct Hcr as (_ & Hcr & _).
  assert (last_line (a ++ c_eq :: b)) as Hl.
  { clear -Hok. revert Hok. induction pre as [|p pre IH]; simpl; [apply lines_ok_last|].
    destruct pre as [|q pre]; simpl in *; tauto. }
  split; [|intros H%elem_strip; apply Hcr; set_solver].
  intros H. destruct Hl as [(b' & Eb & Hb')|[_ Hb']]; [|apply Hb', elem_of_app; right; right; by eapply elem_strip].
  destruct (decide (b = [])) as [->|Hne]; [by vm_compute in H; apply elem_of_nil in H|].
  destruct (exists_last Hne) as (b0 & c & ->).
  change (a ++ c_eq :: b0 ++ [c]) with (a ++ (c_eq :: b0) ++ [c]) in Eb. rewrite app_assoc in Eb. apply app_inj_tail in Eb as [<- ->].
  destruct (strip_decomp (b0 ++ [c_nl])) as (s1 & s2 & Es & Hs1 & Hs2 & [_ He]).
  destruct (decide (s2 = [])) as [->|Hn2].
  - rewrite app_nil_r in Es. destruct (decide (strip (b0 ++ [c_nl]) = [])) as [E0|H0]; [rewrite E0 in H; by apply elem_of_nil in H|].
    destruct (exists_last H0) as (r & d & Er). specialize (He d r Er). rewrite Er, app_assoc in Es. apply app_inj_tail in Es as [_ <-]. done.
  - destruct (exists_last Hn2) as (r & d & ->). rewrite !app_assoc in Es. apply app_inj_tail in Es as [Es _]. apply Hb'.
    apply elem_of_app. right. right. rewrite Es. set_solver.
Qed.

(** The program writes a file that it accepts.  Every mandatory option has the
    value of the template, or, if that leaves it blank, one that the user typed;
    the other options are as in the template. *)
Theorem C83_usable_partial given template inputs content :
  let old := read_lines template in
  good_template old → no_blanks old → (∀ x, x ∈ inputs → one_line x) →
  generate_config given template inputs = GWritten content →
  let new := read_lines content in
  (∃ raw, read_config content = Some raw ∧ ∀ k v, raw !! k = Some v ↔ file_assigns new k v)
  ∧ (∀ k, k ∈ required_keys → ∃ v, file_assigns new k v ∧ value_syntax k v
       ∧ (given = true ∧ v ≠ [] ∧ file_assigns old k v
          ∨ (given = true → file_assigns old k []) ∧ ∃ x, x ∈ inputs ∧ v = strip x))
  ∧ (∀ k v, k ∉ required_keys → file_assigns new k v ↔ file_assigns old k v)
  ∧ length new = length old.
Proof.
  intros old (Hreq & Hall & Hsyn) Hnb Hin Hgen new. unfold generate_config in Hgen.
  set (raw := if given then cfg_read ∅ template else ∅) in *.
  destruct (given && check_all false raw) eqn:Ec; [done|].
  destruct (prompt raw inputs) as [raw'|] eqn:Ep; [|done]. injection Hgen as <-.
  destruct (prompt_spec _ _ _ Ep) as [Ho Hi].
  assert (∀ k v, raw !! k = Some v → given = true ∧ file_assigns old k v) as Hraw.
  { intros k v Hk. unfold raw in Hk. destruct given; [|by rewrite lookup_empty in Hk]. split; [done|]. by apply cfg_read_assigns. }
  assert (raw_ok raw') as Hok.
  { intros k v Hk. destruct (decide (k ∈ prompt_keys raw)) as [Hp|Hp].
    - destruct (Hi k Hp) as (x & Hx & Hr & _). rewrite Hr in Hk. injection Hk as <-. split; [apply strip_idem|]. by apply one_line_strip, Hin.
    - rewrite Ho in Hk by done. apply Hraw in Hk as [_ Hk]. split; [|by eapply assigns_one_line].
      destruct Hk as (pre & l & post & _ & [_ (a & b & _ & _ & _ & <-)] & _). apply strip_idem. }
  assert (∀ k v, raw' !! k = Some v → file_assigns new k v) as Hnew.
  { intros k v Hk. apply cfg_read_assigns. apply cfg_roundtrip; [done..|]. destruct (decide (k ∈ prompt_keys raw)) as [Hp|Hp].
    - apply prompt_keys_spec in Hp as [Hp _]. by apply Hreq.
    - rewrite Ho in Hk by done. apply Hraw in Hk as [_ Hk]. apply mentions_assigns. by exists v. }
  assert (∀ k v, raw' !! k = None → file_assigns new k v ↔ file_assigns old k v) as Hold.
  { intros k v Hk. unfold new, old. rewrite <-!cfg_read_assigns. by rewrite cfg_roundtrip_other. }
  assert (∀ k, k ∉ required_keys → raw' !! k = raw !! k) as Hopt.
  { intros k Hk. apply Ho. rewrite prompt_keys_spec. tauto. }
  assert (∀ k v, k ∉ required_keys → file_assigns new k v ↔ file_assigns old k v) as H3.
  { intros k v Hk. destruct (raw' !! k) as [v'|] eqn:E; [|by apply Hold].
    pose proof (Hnew k v' E) as Hn. rewrite Hopt in E by done. apply Hraw in E as [_ E].
    split; intros Hf; [by rewrite (file_assigns_fun _ _ _ _ Hf Hn)|by rewrite (file_assigns_fun _ _ _ _ Hf E)]. }
  assert (∀ k, k ∈ required_keys → ∃ v, file_assigns new k v ∧ value_syntax k v
       ∧ (given = true ∧ v ≠ [] ∧ file_assigns old k v
          ∨ (given = true → file_assigns old k []) ∧ ∃ x, x ∈ inputs ∧ v = strip x)) as H2.
  { intros k Hk. assert (k ∈ all_keys) as Ha by (apply elem_of_app; by left). destruct (decide (k ∈ prompt_keys raw)) as [Hp|Hp].
    - destruct (Hi k Hp) as (x & Hx & Hr & Hc). exists (strip x). split; [by apply Hnew|]. split; [apply check_value_spec; [done|apply strip_idem|done]|].
      right. split; [|by exists x]. intros Hg. apply prompt_keys_spec in Hp as [_ Hp]. unfold raw in Hp. rewrite Hg in Hp.
      destruct Hp as [Hp|Hp]; [|by apply cfg_read_assigns].
      destruct (proj1 (mentions_assigns template k) (Hreq k Hk)) as [v Hv]. apply cfg_read_assigns in Hv. by rewrite Hv in Hp.
    - destruct (raw !! k) as [v|] eqn:E; [|destruct Hp; rewrite prompt_keys_spec; by split; [|left]].
      assert (v ≠ []) as Hne by (intros ->; destruct Hp; rewrite prompt_keys_spec; by split; [|right]).
      exists v. split; [apply Hnew; by rewrite Ho|]. apply Hraw in E as [Hg E]. split; [by destruct (Hsyn k v E)|]. left. done. }
  split; [|split; [exact H2|split; [exact H3|]]].
  - exists (cfg_read ∅ (cfg_write raw' template)). split; [|intros k v; apply cfg_read_assigns]. unfold read_config.
    destruct (check_all true _) eqn:E; [exfalso|done]. apply check_all_spec in E; [|by apply cfg_read_stripped; intros k v; rewrite lookup_empty].
    destruct E as [(k & Hk & E)|[(k & v & E & Hk)|(k & v & E & Hk & Hn)]].
    + destruct (H2 k Hk) as (v & Hv & _). apply cfg_read_assigns in Hv. by rewrite Hv in E.
    + apply cfg_read_assigns in E. assert (k ∉ required_keys) as Hr by (intros Hr; apply Hk, elem_of_app; by left).
      apply H3 in E; [|done]. apply Hk, Hall, mentions_assigns. by exists v.
    + apply cfg_read_assigns in E. destruct (decide (k ∈ required_keys)) as [Hr|Hr].
      * destruct (H2 k Hr) as (v' & Hv' & Hs & _). by rewrite (file_assigns_fun _ _ _ _ E Hv') in Hn.
      * apply H3 in E; [|done]. destruct (Hsyn k v E) as [->|Hs]; [|done].
        destruct (Hnb k E) as [?|Hb]; [done|]. apply Hn. clear -Hb. split; [intros _; by left|].
        unfold bool_keys in Hb. rewrite !elem_of_cons, elem_of_nil in Hb. split; [|split; [|split]]; intros; exfalso;
          (destruct Hb as [->|[->|[->|[]]]]); repeat match goal with H : _ ∨ _ |- _ => destruct H end;
          match goal with H : @eq (list N) _ _ |- _ => vm_compute in H; discriminate H end.
  - unfold new. rewrite read_lines_write by done. by rewrite map_length.
Qed.
Print Assumptions C83_usable_partial.

(** A good template is never refused. *)
Theorem C83_accepted_partial given template inputs :
  good_template (read_lines template) → generate_config given template inputs ≠ GParseErr.
Proof.
  intros (Hreq & Hall & Hsyn). unfold generate_config.
  destruct given; simpl; [|by destruct (prompt _ _)]. rewrite check_all_false; [by destruct (prompt _ _)|..].
  - apply cfg_read_stripped. intros k v. by rewrite lookup_empty.
  - intros k Hk. destruct (proj1 (mentions_assigns template k) (Hreq k Hk)) as [v Hv]. apply cfg_read_assigns in Hv. by rewrite Hv.
  - intros k [v Hv]. apply Hall, mentions_assigns. exists v. by apply cfg_read_assigns.
  - intros k v Hk. by apply Hsyn, cfg_read_assigns.
Qed.
Print Assumptions C83_accepted_partial.

(** If the user at some time types an acceptable value for each of the mandatory
    options, one after the other, the file is written, whatever else they type. *)
Lemma ask_sub k a l inputs : a :: l `sublist_of` inputs → check_value k (strip a) = false →
  ∃ v rest, ask k inputs = Some (v, rest) ∧ l `sublist_of` rest.
Proof.
  intros Hs Ha. induction inputs as [|x r IH]; [by apply sublist_nil_r in Hs|]. simpl. destruct (check_value k (strip x)) eqn:E.
  - apply IH. apply sublist_cons_r in Hs as [Hs|(l' & [= <- <-] & _)]; [done|]. by rewrite E in Ha.
  - eexists _, _. split; [done|]. apply sublist_cons_r in Hs as [Hs|(l' & [= -> ->] & Hs)]; [|done]. etrans; [by apply sublist_cons|done].
Qed.
Lemma ask_all_sub keys answers : Forall2 (λ k a, check_value k (strip a) = false) keys answers →
  ∀ raw inputs, answers `sublist_of` inputs → is_Some (ask_all keys raw inputs).
Proof.
  induction 1 as [|k a keys answers Ha _ IH]; intros raw inputs Hs; simpl; [done|].
  destruct (ask_sub k a answers inputs Hs Ha) as (v & rest & -> & Hr). by apply IH.
Qed.
Lemma Forall2_sub {A B} (P : A → B → Prop) f l k : Forall2 P l k → ∃ k', k' `sublist_of` k ∧ Forall2 P (List.filter f l) k'.
Proof.
  induction 1 as [|x y l k Hx _ (k' & Hs & Hf)]; [exists []; split; constructor|]. simpl. destruct (f x).
  - exists (y :: k'). split; [by apply sublist_skip|by constructor].
  - exists k'. split; [by constructor|done].
Qed.
Theorem C83_prompted_partial given template inputs l r s :
  good_template (read_lines template) → [l; r; s] `sublist_of` inputs →
  value_syntax (lit "LocalDir") (strip l) → value_syntax (lit "RemoteDir") (strip r) → value_syntax (lit "StorageLimit") (strip s) →
  ∃ content, generate_config given template inputs = GWritten content.
Proof.
  intros Hg Hs Hl Hr Hv. pose proof (C83_accepted_partial given template inputs Hg) as Ha. unfold generate_config in *.
  destruct (given && _); [done|]. set (raw := if given then _ else _) in *.
  destruct (Forall2_sub (λ k a, check_value k (strip a) = false) (λ k, match raw !! k with Some v => bool_decide (v = []) | None => true end)
    required_keys [l; r; s]) as (k' & Hk & Hf).
  { repeat constructor; (apply check_value_spec; [apply (bool_decide_unpack _); vm_compute; exact I|apply strip_idem|done]). }
  destruct (ask_all_sub _ _ Hf raw inputs) as [raw' E]; [by etrans|]. unfold prompt, prompt_keys. rewrite E. by eexists.
Qed.
Print Assumptions C83_prompted_partial.

(** Deciding the hypotheses on examples. *)
Definition template_ok (lines : list str) : bool :=
  let kvs := omap option_kv lines in
  forallb (λ k, existsb (λ kv : str * str, bool_decide (kv.1 = k)) kvs) required_keys
  && forallb (λ kv : str * str, bool_decide (kv.1 ∈ all_keys)) kvs
  && forallb (λ kv : str * str, bool_decide (kv.2 = []) || negb (check_value kv.1 kv.2)) kvs.
Lemma template_ok_spec content : template_ok (read_lines content) = true → good_template (read_lines content).
Proof.
  unfold template_ok. rewrite !andb_true_iff, !forallb_forall. intros [[H1 H2] H3].
  assert (∀ k v, file_assigns (read_lines content) k v → In (k, v) (omap option_kv (read_lines content)) ∧ stripped v) as Hin.
  { intros k v (pre & l & post & E & Ha & _). split.
    - apply elem_of_list_In, elem_of_list_omap. exists l. split; [rewrite E; set_solver|]. by apply option_kv_assigns.
    - destruct Ha as [_ (a & b & _ & _ & _ & <-)]. apply strip_idem. }
  split; [|split].
  - intros k Hk%elem_of_list_In. apply H1 in Hk. apply existsb_exists in Hk as ([k' v] & Hk & E%bool_decide_eq_true). simpl in E. subst k'.
    apply elem_of_list_In, elem_of_list_omap in Hk as (l & Hl & Ho). exists l, v. split; [done|]. by apply option_kv_assigns.
  - intros k (l & v & Hl & Ha). apply option_kv_assigns in Ha.
    assert (In (k, v) (omap option_kv (read_lines content))) as Hi by (apply elem_of_list_In, elem_of_list_omap; by exists l).
    exact (bool_decide_eq_true_1 _ (H2 _ Hi)).
  - intros k v Ha. destruct (Hin k v Ha) as [Hi Hs]. pose proof (bool_decide_eq_true_1 _ (H2 _ Hi)) as Hk. specialize (H3 _ Hi). simpl in *.
    apply orb_true_iff in H3 as [H3%bool_decide_eq_true|H3%negb_true_iff]; [by left|]. right. by apply check_value_spec.
Qed.
(** The template that comes with the program, docs/templates/config-template,
    with most of its comments left out. *)
Definition master_template : str := lit "# The following options must always be present.
LocalDir=
RemoteDir=
StorageLimit=
SyncInterval=20
PriorityHalfLife=120
UseTrash=yes
TrashCleanupPeriod=30
InflatePriority=yes
AccountForSize=yes
".
Example C83_master : good_template (read_lines master_template) ∧ no_blanks (read_lines master_template).
Proof.
  split; [apply template_ok_spec; vm_compute; reflexivity|]. intros k Hk. apply cfg_read_assigns in Hk. left.
  assert (∀ kv, kv ∈ map_to_list (cfg_read ∅ master_template) → kv.2 = [] → kv.1 ∈ required_keys) as H.
  { apply (Forall_forall (λ kv : str * str, kv.2 = [] → kv.1 ∈ required_keys)). apply (bool_decide_unpack _). vm_compute. exact I. }
  by apply (H (k, [])); [apply elem_of_map_to_list|].
Qed.
(** Prompted without a template: answers that are not acceptable are asked for again. *)
Example C83_example :
  let inputs := [lit "music"; lit " /home/me/music "; lit "/mnt/music"; lit "much"; lit "10GB"] in
  generate_config false master_template inputs = GWritten (lit "# The following options must always be present.
LocalDir=/home/me/music
RemoteDir=/mnt/music
StorageLimit=10GB
SyncInterval=20
PriorityHalfLife=120
UseTrash=yes
TrashCleanupPeriod=30
InflatePriority=yes
AccountForSize=yes
") ∧ (∀ x, x ∈ inputs → one_line x)
  ∧ [lit " /home/me/music "; lit "/mnt/music"; lit "10GB"] `sublist_of` inputs
  ∧ value_syntax (lit "LocalDir") (strip (lit " /home/me/music ")) ∧ value_syntax (lit "RemoteDir") (strip (lit "/mnt/music"))
  ∧ value_syntax (lit "StorageLimit") (strip (lit "10GB")).
Proof.
  split; [vm_compute; reflexivity|]. split; [apply Forall_forall; repeat constructor; apply (bool_decide_unpack _); vm_compute; exact I|].
  split; [by repeat constructor|]. split; [|split]; (apply check_value_spec; [apply (bool_decide_unpack _); vm_compute; exact I|vm_compute; reflexivity..]).
Qed.

(** The manual says of --template that the user is prompted for mandatory
    information that is missing.  A template that leaves out the line of a
    mandatory option is refused, whatever the user would have typed. *)
Theorem C83_missing_refuted : ∃ template,
  (∀ k v, file_assigns (read_lines template) k v → k ∈ all_keys ∧ value_syntax k v)
  ∧ ∀ inputs, generate_config true template inputs = GParseErr.
Proof.
  exists (lit "RemoteDir=/mnt/music
StorageLimit=10GB
"). split; [|by intros inputs; vm_compute].
  intros k v H. apply cfg_read_assigns in H as H'.
  assert (∀ kv, kv ∈ map_to_list (cfg_read ∅ (lit "RemoteDir=/mnt/music
StorageLimit=10GB
")) → kv.1 ∈ all_keys ∧ strip kv.2 = kv.2 ∧ check_value kv.1 kv.2 = false) as Hx.
  { apply Forall_forall. apply (bool_decide_unpack _). vm_compute. exact I. }
  destruct (Hx (k, v)) as (Hk & Hs & Hc); [by apply elem_of_map_to_list|]. split; [done|]. by apply check_value_spec.
Qed.
Print Assumptions C83_missing_refuted.
(** A template that leaves an option with a default blank is accepted, but the
    configuration file written from it is not: no later command can read the
    profile. *)
Theorem C83_blank_refuted : ∃ template inputs content,
  good_template (read_lines template)
  ∧ generate_config true template inputs = GWritten content ∧ read_config content = None.
Proof.
  exists (lit "LocalDir=
RemoteDir=/mnt/music
StorageLimit=10GB
SyncInterval=
"), [lit "/home/me/music"], (lit "LocalDir=/home/me/music
RemoteDir=/mnt/music
StorageLimit=10GB
SyncInterval=
"). split; [apply template_ok_spec; vm_compute; reflexivity|]. split; vm_compute; reflexivity.
Qed.
Print Assumptions C83_blank_refuted.

(** * C82: the command "list" *)

(** A line of the table: the four texts, padded with blanks. *)
Definition row_text (cells : str * str * str * str) (line : str) : Prop :=
  let '(a, b, c, d) := cells in let bar := [ch_v] in
  ∃ i j k l, line = bar ++ lit " " ++ (a ++ replicate i 32%N) ++ (lit " " ++ bar ++ lit " ") ++ (b ++ replicate j 32%N)
    ++ (lit " " ++ bar ++ lit " ") ++ (c ++ replicate k 32%N) ++ (lit " " ++ bar ++ lit " ") ++ (d ++ replicate l 32%N) ++ lit " " ++ bar.
(** What a configuration file says about a profile. *)
Definition describes (content : str) (l r s : str) : Prop :=
  file_assigns (read_lines content) (lit "LocalDir") l ∧ file_assigns (read_lines content) (lit "RemoteDir") r
  ∧ file_assigns (read_lines content) (lit "StorageLimit") s.

Lemma list_main_rows profiles rows :
  Forall2 (λ (p : str * option str) (x : str * str * str * str), ∃ content, p.2 = Some content ∧ p.1 = x.1.1.1 ∧ describes content x.1.1.2 x.1.2 x.2) profiles rows →
  ∃ files, read_all profiles = Some files ∧ list_rows files = Some (map (λ x : str * str * str * str, [x.1.1.1; x.1.1.2; x.1.2; x.2]) rows).
Proof.
  induction 1 as [|[n c] [[[n' l] r] s] ps rows (content & Hc & Hn & Hl & Hr & Hs) _ (files & E1 & E2)]; [by exists []|].
  cbn [fst snd] in *. subst. cbn [read_all]. rewrite E1. eexists. split; [done|]. cbn [list_rows]. rewrite E2. unfold list_row, cfg_val.
  apply cfg_read_assigns in Hl, Hr, Hs. by rewrite Hl, Hr, Hs.
Qed.

Theorem C82_list_partial profiles :
  profiles ≠ [] →
  (∀ name c, (name, c) ∈ profiles → name ≠ [] ∧ ∃ content l r s, c = Some content ∧ describes content l r s) →
  ∃ lines width, list_main profiles = LTable lines
    ∧ length lines = length profiles + 4
    ∧ (∀ i name content l r s, profiles !! i = Some (name, Some content) → describes content l r s →
         ∃ line, lines !! (3 + i) = Some line ∧ row_text (name, l, r, s) line)
    ∧ (∀ line v, line ∈ lines → shows line v → length v = width).
Proof.
  intros Hne Hp.
  assert (∃ rows, Forall2 (λ (p : str * option str) (x : str * str * str * str), ∃ content, p.2 = Some content ∧ p.1 = x.1.1.1 ∧ describes content x.1.1.2 x.1.2 x.2) profiles rows
    ∧ ∀ x, x ∈ rows → x.1.1.1 ≠ []) as (rows & Hrows & Hnames).
  { clear Hne. induction profiles as [|[n c] ps IH]; [by exists []; split; [done|intros x ?%elem_of_nil]|].
    destruct IH as (rows & H & Hn); [intros n' c' Hin; apply Hp; by right|].
    destruct (Hp n c) as (Hn' & content & l & r & s & -> & Hd); [by left|]. exists ((n, l, r, s) :: rows). split; [constructor; [by exists content|done]|].
    intros x [->|Hx]%elem_of_cons; [done|by apply Hn]. }
  destruct (list_main_rows _ _ Hrows) as (files & E1 & E2).
  set (data := map (λ x : str * str * str * str, [x.1.1.1; x.1.1.2; x.1.2; x.2]) rows) in *.
  destruct (C62_table_aligned (list_header :: data)) as (lines & n & Et & Hlen & Hw); [done|..].
  { intros r [->|Hr]%elem_of_cons; [done|]. apply elem_of_list_fmap in Hr as (x & -> & _). done. }
  exists lines, n. split; [|split; [|split; [|exact Hw]]].
  - unfold list_main. destruct profiles as [|p ps]; [done|]. rewrite E1, E2, Et. done.
  - rewrite Hlen. simpl. unfold data. rewrite map_length. rewrite (Forall2_length _ _ _ Hrows). lia.
  - intros i name content l r s Hi Hd. destruct (Forall2_lookup_l _ _ _ _ _ Hrows Hi) as ([[[n' l'] r'] s'] & Hx & content' & [= <-] & Hn' & Hd').
    simpl in Hn'. subst n'. simpl in Hd'.
    assert (l' = l ∧ r' = r ∧ s' = s) as (-> & -> & ->).
    { destruct Hd as (? & ? & ?), Hd' as (? & ? & ?). split; [|split]; by eapply file_assigns_fun. }
    unfold table_lines in Et. destruct (forallb _ _); [|done]. injection Et as <-. set (lens := column_lengths _).
    exists (format_row lens [name; l; r; s]). split.
    + simpl. rewrite lookup_app_l by (unfold data; rewrite !map_length; eapply lookup_lt_Some; exact Hx).
      unfold data. rewrite map_map, list_lookup_fmap, Hx. done.
    + assert (name ≠ []) as Hnn by by apply (Hnames (name, l, r, s)); eapply elem_of_list_lookup_2.
      assert (∃ a b c d, lens = [a; b; c; d]) as (a & b & c & d & ->) by (unfold lens, column_lengths; simpl; by eexists _, _, _, _).
      unfold format_row. simpl any_text. rewrite bool_decide_eq_false_2 by done. cbn [negb orb zip_with join_with].
      unfold row_text. eexists _, _, _, _. rewrite <-!app_assoc. reflexivity.
Qed.
Print Assumptions C82_list_partial.
Definition music : str := lit "LocalDir=/home/me/music
RemoteDir=/mnt/music
StorageLimit=10GB
".
Definition photos : str := lit "# photos
StorageLimit = 500MiB
LocalDir=~/photos
RemoteDir=/mnt/p
UseTrash=no
".
Lemma described content l r s :
  let raw := cfg_read ∅ content in
  bool_decide (raw !! lit "LocalDir" = Some l ∧ raw !! lit "RemoteDir" = Some r ∧ raw !! lit "StorageLimit" = Some s) = true → describes content l r s.
Proof. intros raw H%bool_decide_eq_true. destruct H as (H1 & H2 & H3). split; [|split]; by apply cfg_read_assigns. Qed.
Example C82_example :
  let profiles := [(lit "music", Some music); (lit "photos", Some photos)] in
  (∀ name c, (name, c) ∈ profiles → name ≠ [] ∧ ∃ content l r s, c = Some content ∧ describes content l r s)
  ∧ ∃ lines, list_main profiles = LTable lines
    ∧ lines !! 4 = Some ([ch_v] ++ lit " photos  " ++ [ch_v] ++ lit " ~/photos        " ++ [ch_v] ++ lit " /mnt/p           " ++ [ch_v] ++ lit " 500MiB " ++ [ch_v]).
Proof.
  split; [|eexists; split; vm_compute; reflexivity].
  intros name c. rewrite !elem_of_cons, elem_of_nil. intros [[= -> ->]|[[= -> ->]|[]]]; (split; [done|]).
  - eexists _, (lit "/home/me/music"), (lit "/mnt/music"), (lit "10GB"). split; [done|]. apply described. vm_compute. reflexivity.
  - eexists _, (lit "~/photos"), (lit "/mnt/p"), (lit "500MiB"). split; [done|]. apply described. vm_compute. reflexivity.
Qed.
(** While "init" waits at its prompt for another profile (or when it was killed
    there), the new profile has a directory but no configuration file: then
    nothing is listed, not even the profiles that are complete. *)
Theorem C82_other_refuted profiles name :
  (name, None) ∈ profiles → list_main profiles = LParseErr.
Proof.
  intros Hin. assert (read_all profiles = None) as E.
  { induction profiles as [|[n c] r IH]; [by apply elem_of_nil in Hin|]. simpl. destruct c as [content|]; [|done].
    apply elem_of_cons in Hin as [?|Hin]; [done|]. by rewrite (IH Hin). }
  unfold list_main. rewrite E. destruct profiles; [by apply elem_of_nil in Hin|done].
Qed.
Print Assumptions C82_other_refuted.
Example C82_other_example : list_main [(lit "music", Some music); (lit "photos", None)] = LParseErr.
Proof. vm_compute. reflexivity. Qed.
(** Nor when one of the mandatory options has been commented out in one file:
    then the command ends with a TypeError. *)
Theorem C82_option_refuted : ∃ content, read_config music ≠ None ∧
  list_main [(lit "music", Some music); (lit "photos", Some content)] = LTypeErr.
Proof.
  exists (lit "# LocalDir=~/photos
RemoteDir=/mnt/p
StorageLimit=500MiB
"). split; [by vm_compute|]. vm_compute. reflexivity.
Qed.
Print Assumptions C82_option_refuted.
