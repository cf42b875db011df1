(** Property theorems C04, C05, C06, C07, C09, C10 and C67. *)
From Verif Require Import ConfigProofs Timestamp.
From stdpp Require Import options.

(** ** C04 Storage limit is what the user wrote.
    Full statement:
      forall v, stripped v -> check_value "StorageLimit" v = false ->
        exists n, storage_limit v = inl n /\ limit_denotes v n.
    The code violates it. *)
Theorem C04_storage_limit_refuted :
  ∃ v, stripped v ∧ check_value (lit "StorageLimit") v = false
    ∧ limit_denotes v (10 * 1000 ^ 2)%N ∧ storage_limit v = inr UnboundLocalError.
Proof.
  exists (lit "10mb"). split; [vm_compute; reflexivity|]. split; [vm_compute; reflexivity|].
  split; [|vm_compute; reflexivity].
  exists (lit "10"), [], 109%N, (lit "b"), 1000%N, 2%N.
  split; [reflexivity|]. split; [done|]. split; [repeat constructor|]. split; [constructor|].
  split; [by constructor|]. split; [by constructor|reflexivity].
Qed.
Print Assumptions C04_storage_limit_refuted.

(** What holds: exactly the accepted texts whose prefix is k, K, M or G and
    whose unit is absent, "B" or "iB" are read, and they are read correctly;
    every other accepted text raises an exception.  Missing for the full
    statement: the other letter cases. *)
Theorem C04_storage_limit_partial (v : str) :
  stripped v → check_value (lit "StorageLimit") v = false →
  (canonical_limit v ∧ ∃ n, storage_limit v = inl n ∧ limit_denotes v n)
  ∨ (¬ canonical_limit v ∧ storage_limit v = inr UnboundLocalError).
Proof.
  intros Hs Hc. apply storage_limit_total; [done|]. intros E.
  apply check_value_spec in Hc; [|by apply (bool_decide_unpack _)|done].
  destruct Hc as (_ & _ & Hl & _). specialize (Hl eq_refl).
  apply limit_syntax_spec in Hl; [|done]. by rewrite E in Hl.
Qed.
Print Assumptions C04_storage_limit_partial.

Example C04_example :
  (storage_limit (lit "10 GiB"), storage_limit (lit "10GB"), storage_limit (lit "5k"))
  = (inl (10 * 1024 ^ 3)%N, inl (10 * 1000 ^ 3)%N, inl 5120%N).
Proof. vm_compute. reflexivity. Qed.

(** ** C05 Boolean options mean what they say.
    Full statement:
      forall k v, k ∈ bool_keys -> check_value k v = false -> v <> "" ->
        bool_truth (convert_bool v) = true <-> lower v = "yes" \/ lower v = "true". *)
Theorem C05_bool_options_refuted :
  ∃ v, check_value (lit "UseTrash") v = false ∧ lower v = lit "yes"
    ∧ bool_truth (convert_bool v) = false.
Proof. exists (lit "Yes"). vm_compute. done. Qed.
Print Assumptions C05_bool_options_refuted.

(** What holds: accepted texts in lower case are interpreted correctly, and no
    accepted text is ever read as the opposite of a "no".  Missing: "yes" and
    "true" with capitals. *)
Theorem C05_bool_options_partial (k v : str) :
  k ∈ bool_keys → check_value k v = false → v ≠ [] →
  (lower v = v → convert_bool v = Some (bool_decide (lower v = lit "yes" ∨ lower v = lit "true")))
  ∧ (lower v = lit "no" ∨ lower v = lit "false" → bool_truth (convert_bool v) = false).
Proof.
  intros Hk Hc Hv. apply bool_key_check in Hc; [|done]. split.
  - intros Hl. by apply convert_bool_lower.
  - intros Hno. unfold convert_bool. rewrite bool_decide_false; [by case_bool_decide|].
    unfold TRUE_VALS. rewrite !elem_of_cons, elem_of_nil. intros [->|[->|[]]].
    + destruct Hno as [H|H]; vm_compute in H; discriminate H.
    + destruct Hno as [H|H]; vm_compute in H; discriminate H.
Qed.
Print Assumptions C05_bool_options_partial.

Example C05_example :
  lit "UseTrash" ∈ bool_keys ∧ check_value (lit "UseTrash") (lit "true") = false
  ∧ convert_bool (lit "true") = Some true ∧ convert_bool (lit "no") = Some false.
Proof. split; [by apply (bool_decide_unpack _)|]. vm_compute. done. Qed.

(** ** C06 Config write/read round trip. *)
Theorem C06_config_roundtrip (raw : raw_vals) (template k : str) :
  (∀ k v, raw !! k = Some v → stripped v ∧ one_line v) →
  (* options with a value that the template mentions *)
  (∀ v, raw !! k = Some v → file_mentions (read_lines template) k →
     cfg_read ∅ (cfg_write raw template) !! k = Some v)
  (* options without a value keep what the template says *)
  ∧ (raw !! k = None →
     cfg_read ∅ (cfg_write raw template) !! k = cfg_read ∅ template !! k).
Proof.
  intros Hraw. split.
  - intros v Hk Hm. by apply cfg_roundtrip.
  - intros Hk. by apply cfg_roundtrip_other.
Qed.
Print Assumptions C06_config_roundtrip.

(** Comments and other lines are kept, in place. *)
Theorem C06_other_lines_kept (raw : raw_vals) (template : str) (i : nat) (line : str) :
  (∀ k v, raw !! k = Some v → stripped v ∧ one_line v) →
  read_lines template !! i = Some line →
  (∀ k v, assigns line k v → raw !! k = None) →
  read_lines (cfg_write raw template) !! i = Some line
  ∧ length (read_lines (cfg_write raw template)) = length (read_lines template).
Proof.
  intros Hraw Hl Hno. split.
  - rewrite cfg_write_lines by done. rewrite Hl. simpl. by rewrite write_line_other.
  - rewrite read_lines_write by done. by rewrite map_length.
Qed.
Print Assumptions C06_other_lines_kept.

Definition ex_template : str := lit "# comment = x
LocalDir = /a
 Other=1".
Definition ex_raw : raw_vals := <[lit "LocalDir" := lit "/b = c"]> ∅.
Example C06_example :
  cfg_write ex_raw ex_template = lit "# comment = x
LocalDir=/b = c
 Other=1"
  ∧ file_mentions (read_lines ex_template) (lit "LocalDir")
  ∧ (∀ k v, ex_raw !! k = Some v → stripped v ∧ one_line v).
Proof.
  split; [vm_compute; reflexivity|]. split.
  - exists (lit "LocalDir = /a" ++ [10%N]), (lit "/a"). split.
    + apply elem_of_list_In. vm_compute. auto.
    + apply option_kv_assigns. vm_compute. reflexivity.
  - intros k v. unfold ex_raw. intros [[<- <-]|[_ H]]%lookup_insert_Some; [|done].
    split; [vm_compute; reflexivity|]. split; by apply (bool_decide_unpack _).
Qed.

(** ** C07 Re-reading the config follows the file.
    Full statement: for every [raw] left by earlier reads,
      cfg_val (cfg_read raw content) k is the value that the file assigns to k,
      or the default of k when the file does not mention it. *)
Theorem C07_reread_refuted :
  ∃ content1 content2,
    let k := lit "UseTrash" in
    ¬ file_mentions (read_lines content2) k
    ∧ defaults !! k = Some (lit "yes")
    ∧ cfg_val (cfg_read (cfg_read ∅ content1) content2) k = Some (lit "no").
Proof.
  exists (lit "UseTrash=no
"), (lit "#UseTrash=no
"). split; [|split; vm_compute; reflexivity].
  intros (l & v & Hl & Ha). apply option_kv_assigns in Ha.
  apply elem_of_list_In in Hl. vm_compute in Hl. destruct Hl as [<-|[]].
  vm_compute in Ha. discriminate Ha.
Qed.
Print Assumptions C07_reread_refuted.

(** What holds: a first read follows the file; a later read follows the file
    for the options that it mentions.  Missing: options that a later version of
    the file no longer mentions. *)
Theorem C07_reread_partial (raw : raw_vals) (content k : str) :
  (∀ v, file_assigns (read_lines content) k v → cfg_val (cfg_read raw content) k = Some v)
  ∧ (¬ file_mentions (read_lines content) k → raw !! k = None →
     cfg_val (cfg_read raw content) k = defaults !! k).
Proof.
  unfold cfg_val, cfg_read.
  destruct (fold_read_lookup (read_lines content) raw k) as [(v & Ha & Hv)|[Hno Hv]].
  - rewrite Hv. split.
    + intros v' Hv'. f_equal. by eapply file_assigns_fun.
    + intros Hno. exfalso. apply Hno. destruct Ha as (pre & l & post & E & Ha & _).
      exists l, v. rewrite E. split; [set_solver|done].
  - split.
    + intros v (pre & l & post & E & Ha & _). exfalso. apply Hno. exists l, v. rewrite E. split; [set_solver|done].
    + intros _ Hr. by rewrite Hv, Hr.
Qed.
Print Assumptions C07_reread_partial.

Example C07_example : file_assigns (read_lines ex_template) (lit "LocalDir") (lit "/a").
Proof.
  exists [lit "# comment = x" ++ [10%N]], (lit "LocalDir = /a" ++ [10%N]), [lit " Other=1"].
  split; [vm_compute; reflexivity|]. split; [apply option_kv_assigns; vm_compute; reflexivity|].
  intros l v Hl Ha. apply elem_of_list_singleton in Hl as ->.
  apply option_kv_assigns in Ha. vm_compute in Ha. discriminate Ha.
Qed.

(** ** C09 Config validation is exact. *)
Theorem C09_validation_exact (raw : raw_vals) :
  (∀ k v, raw !! k = Some v → stripped v) →
  (check_all true raw = true ↔
    (∃ k, k ∈ required_keys ∧ raw !! k = None)
    ∨ (∃ k v, raw !! k = Some v ∧ k ∉ all_keys)
    ∨ (∃ k v, raw !! k = Some v ∧ k ∈ all_keys ∧ ¬ value_syntax k v)).
Proof. apply check_all_spec. Qed.
Print Assumptions C09_validation_exact.

(** The hypothesis always holds for what [read] stores. *)
Theorem C09_read_is_stripped (content k v : str) :
  cfg_read ∅ content !! k = Some v → stripped v.
Proof. apply cfg_read_stripped. intros ? ? ?. by rewrite lookup_empty in H. Qed.
Print Assumptions C09_read_is_stripped.

Example C09_example :
  let good := cfg_read ∅ (lit "LocalDir=/l
RemoteDir=~/r
StorageLimit=10 GB
SyncInterval=5
") in
  check_all true good = false
  ∧ check_all true (<[lit "SyncInterval" := lit "5m"]> good) = true
  ∧ check_all true (delete (lit "LocalDir") good) = true
  ∧ check_all true (<[lit "localdir" := lit "/x"]> good) = true.
Proof. vm_compute. done. Qed.

(** ** C67 A profile that 'init' accepts can be used.
    [generate] checks the template with [check_empty=False]; every later
    command checks the written file with [check_empty=True]. *)
Theorem C67_template_blank_refuted :
  ∃ template : str,
    let raw := cfg_read ∅ template in
    check_all false raw = false                           (* init accepts it *)
    ∧ (∀ k, k ∈ required_keys → ∃ v, raw !! k = Some v ∧ v ≠ [])  (* nothing to prompt for *)
    ∧ check_all true (cfg_read ∅ (cfg_write raw template)) = true. (* every later command fails *)
Proof.
  exists (lit "LocalDir=/l
RemoteDir=/r
StorageLimit=1GB
SyncInterval=
"). split; [vm_compute; reflexivity|]. split; [|vm_compute; reflexivity].
  intros k Hk. unfold required_keys in Hk. rewrite !elem_of_cons, elem_of_nil in Hk.
  destruct Hk as [->|[->|[->|[]]]].
  - exists (lit "/l"). vm_compute. done.
  - exists (lit "/r"). vm_compute. done.
  - exists (lit "1GB"). vm_compute. done.
Qed.
Print Assumptions C67_template_blank_refuted.

(** What holds: a template without blank values that passes the check of 'init'
    yields a config file that passes every later check.  Missing: templates
    with a blank value. *)
Theorem C67_template_partial (template : str) :
  let raw := cfg_read ∅ template in
  check_all false raw = false → (∀ k v, raw !! k = Some v → v ≠ [] ∧ one_line v) →
  check_all true (cfg_read ∅ (cfg_write raw template)) = false.
Proof.
  intros raw Hc Hne.
  assert (raw_ok raw) as Hok.
  { intros k v Hk. split; [by eapply C09_read_is_stripped|]. by eapply Hne. }
  assert (cfg_read ∅ (cfg_write raw template) = raw) as ->.
  { apply map_eq. intros k. destruct (raw !! k) as [v|] eqn:E.
    - apply cfg_roundtrip; [done|done|].
      unfold raw, cfg_read in E.
      destruct (fold_read_lookup (read_lines template) ∅ k) as [(v' & (pre & l & post & El & Ha & _) & Hv)|[_ Hv]].
      + exists l, v'. rewrite El. split; [set_solver|done].
      + rewrite E in Hv. done.
    - rewrite cfg_roundtrip_other by done. done. }
  unfold check_all in *. rewrite !orb_false_iff, !negb_false_iff, !bool_decide_eq_true in *.
  destruct Hc as [[H1 H2] H3]. split; [done|].
  rewrite <-H3. apply filter_ext_in. intros [k v] Hkv. simpl.
  apply elem_of_list_In, elem_of_map_to_list in Hkv. destruct (Hne _ _ Hkv) as [Hv _].
  by rewrite (bool_decide_false _ Hv).
Qed.
Print Assumptions C67_template_partial.

Example C67_example :
  let t := lit "LocalDir=/l
RemoteDir=/r
StorageLimit=1GB
" in
  check_all false (cfg_read ∅ t) = false
  ∧ map_Forall (λ _ v, v ≠ [] ∧ 10%N ∉ v ∧ 13%N ∉ v) (cfg_read ∅ t).
Proof.
  split; [vm_compute; reflexivity|]. apply (bool_decide_unpack _). vm_compute. reflexivity.
Qed.

(** ** C10 Timestamps survive the info file. *)
Theorem C10_timestamp_roundtrip (us : N) :
  (us < 253402300800 * 1000000)%N →          (* before year 10000 *)
  convert_epoch (convert_timestamp us) = Some us.
Proof. apply timestamp_roundtrip. Qed.
Print Assumptions C10_timestamp_roundtrip.

(** The text is the Gregorian date: the first day is 1970-01-01 and each next
    day is the calendar's next day. *)
Theorem C10_calendar (n : N) :
  ord2ymd epoch_ord = (1970, 1, 1)%N ∧ ((1 <= n)%N → ord2ymd (n + 1) = next_day (ord2ymd n)).
Proof. split; [vm_compute; reflexivity|apply ord2ymd_next]. Qed.
Print Assumptions C10_calendar.

Example C10_example :
  convert_timestamp 1487516103000001 = lit "2017-02-19T14:55:03.000001".
Proof. vm_compute. reflexivity. Qed.
