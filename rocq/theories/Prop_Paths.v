(** Property theorems C01, C02, C03, C18. *)
From Verif Require Import PosixPath Utils PathsDiff.
From stdpp Require Import options.

(** ** C01 Unsafe-symlink decision.
    [P]: components of the sync directory; the link is [name] in the directory
    [rel] below it; [dest] is the link text.  Reported safe ([Some false])
    exactly when the text is relative and walking along it from the link's
    directory ends in [P] or below. *)
Theorem C01_unsafe_symlink_exact (P rel : list str) (name dest : str) :
  P ≠ [] → valid_comps P → valid_comps rel → valid_name name →
  (is_unsafe_symlink (Some dest) (abs_path (P ++ rel ++ [name])) (abs_path P) = Some false
   ↔ isabs dest = false ∧ P `prefix_of` walk (P ++ rel) (split_on c_slash dest))
  ∧ (is_unsafe_symlink (Some dest) (abs_path (P ++ rel ++ [name])) (abs_path P) = Some true
   ↔ ¬ (isabs dest = false ∧ P `prefix_of` walk (P ++ rel) (split_on c_slash dest))).
Proof.
  intros HPn HP Hrel Hname. rewrite is_unsafe_symlink_correct by done.
  destruct (isabs dest); simpl.
  - split; (split; [intros Heq|intros Hx]); try done.
    + by destruct Hx.
    + by intros [? _].
  - case_bool_decide as Hp; simpl; split; (split; [intros Heq|intros Hx]); try done.
    + destruct Hx. by split.
    + by destruct Hx.
    + by intros [_ ?].
Qed.
Print Assumptions C01_unsafe_symlink_exact.

(** A link that stays inside, one that climbs out, one to a sibling whose name
    starts with the directory's name, and an absolute one. *)
Example C01_example :
  let P := [lit "home"; lit "sync"] in
  let at_ := abs_path (P ++ [lit "sub"; lit "link"]) in
  (is_unsafe_symlink (Some (lit "../x/./y")) at_ (abs_path P),
   is_unsafe_symlink (Some (lit "../../x")) at_ (abs_path P),
   is_unsafe_symlink (Some (lit "../../sync2/x")) at_ (abs_path P),
   is_unsafe_symlink (Some (lit "/home/sync/x")) at_ (abs_path P))
  = (Some false, Some true, Some true, Some true).
Proof. vm_compute. reflexivity. Qed.

(** ** C02 Conflict names. *)
Theorem C02_conflict_name_shape (now : datetime) (path : str) :
  (* it is the path with a tag before the extension ... *)
  (∃ name ext, splitext path = (name, ext) ∧ path = name ++ ext ∧
     timestamp_path now path (lit "conflict")
     = name ++ lit "_conflict-" ++ strftime_compact now ++ ext)
  (* ... with the same extension, in the same directory, and a different path *)
  ∧ snd (splitext (timestamp_path now path (lit "conflict"))) = snd (splitext path)
  ∧ dirname (timestamp_path now path (lit "conflict")) = dirname path
  ∧ timestamp_path now path (lit "conflict") ≠ path.
Proof.
  destruct (splitext path) as [n e] eqn:E.
  pose proof (timestamp_path_conflict now path n e E) as Ht.
  destruct (tag_ok now) as (T1 & T2 & T3).
  split; [|split; [|split]].
  - exists n, e. split; [done|]. split; [by apply splitext_app|]. by rewrite Ht, <-app_assoc.
  - rewrite Ht. destruct (splitext_insert path n e _ E T1 T2 T3) as [-> _]. done.
  - unfold dirname. by rewrite timestamp_path_dir.
  - intros Heq. pose proof (timestamp_path_longer now path) as Hl. rewrite Heq in Hl. lia.
Qed.
Print Assumptions C02_conflict_name_shape.

Theorem C02_conflict_name_injective (now now' : datetime) (p p' : str) :
  p ≠ p' → timestamp_path now p (lit "conflict") ≠ timestamp_path now' p' (lit "conflict").
Proof. intros Hne Heq. by apply Hne, (timestamp_path_inj now now'). Qed.
Print Assumptions C02_conflict_name_injective.

(** Names made at different times differ too.  [strftime] pads to fixed widths. *)
Definition in_range (d : datetime) : Prop :=
  (1000 ≤ dt_year d < 10000 ∧ dt_month d < 100 ∧ dt_day d < 100 ∧ dt_hour d < 100 ∧ dt_min d < 100 ∧ dt_sec d < 100)%N.
Lemma digit_inj a b : digit a = digit b → (a / 10 = b / 10)%N → a = b.
Proof.
  unfold digit. intros H1 H2. assert (a mod 10 = b mod 10)%N as H by lia.
  rewrite (N.div_mod a 10), (N.div_mod b 10) by done. by rewrite H, H2.
Qed.
Lemma pad2_inj a b : (a < 100)%N → (b < 100)%N → pad2 a = pad2 b → a = b.
Proof.
  unfold pad2. intros Ha Hb [= H1 H2]. apply digit_inj; [done|]. apply digit_inj; [done|].
  rewrite !N.div_div by done. by rewrite !N.div_small.
Qed.
Lemma pad4_inj a b : (a < 10000)%N → (b < 10000)%N → pad4 a = pad4 b → a = b.
Proof.
  unfold pad4. intros Ha Hb [= H1 H2 H3 H4]. apply digit_inj; [done|]. apply digit_inj; [done|].
  rewrite !N.div_div by done. apply digit_inj; [done|]. rewrite !N.div_div by done. apply digit_inj; [done|].
  rewrite !N.div_div by done. by rewrite !N.div_small.
Qed.
Theorem C02_conflict_name_time (now now' : datetime) (p p' : str) :
  in_range now → in_range now' →
  timestamp_path now p (lit "conflict") = timestamp_path now' p' (lit "conflict") → p = p' ∧ now = now'.
Proof.
  intros H H' Heq. pose proof (timestamp_path_inj now now' p p' Heq) as <-. split; [done|].
  destruct (splitext p) as [n e] eqn:E. rewrite !(timestamp_path_conflict _ _ _ _ E) in Heq.
  apply app_inv_head in Heq. rewrite <-!app_assoc in Heq. apply app_inv_head, app_inv_tail in Heq.
  unfold strftime_compact in Heq. destruct now as [a b c d f g], now' as [a' b' c' d' f' g']. cbn [dt_year dt_month dt_day dt_hour dt_min dt_sec in_range] in H, H', Heq. unfold in_range in H, H'. cbn [dt_year dt_month dt_day dt_hour dt_min dt_sec] in H, H'.
  destruct H as ([_ ?] & ? & ? & ? & ? & ?), H' as ([_ ?] & ? & ? & ? & ? & ?).
  apply app_inj_1 in Heq as [G1 Heq]; [|done]. apply app_inj_1 in Heq as [G2 Heq]; [|done].
  apply app_inj_1 in Heq as [G3 Heq]; [|done]. apply (f_equal (drop 1)) in Heq. cbn [app drop] in Heq.
  apply app_inj_1 in Heq as [G4 Heq]; [|done]. apply app_inj_1 in Heq as [G5 G6]; [|done].
  f_equal; (by apply pad4_inj) || by apply pad2_inj.
Qed.
Print Assumptions C02_conflict_name_time.

Definition ex_now := {| dt_year := 2017; dt_month := 2; dt_day := 19; dt_hour := 14; dt_min := 55; dt_sec := 3 |}.
Example C02_example :
  (timestamp_path ex_now (lit "/home/guido/notes.txt") (lit "conflict"),
   timestamp_path ex_now (lit "a.d/.bashrc") (lit "conflict"))
  = (lit "/home/guido/notes_conflict-20170219-145503.txt",
     lit "a.d/.bashrc_conflict-20170219-145503").
Proof. vm_compute. reflexivity. Qed.

(** ** C03 Path ancestry.
    Paths are given by their components; [iter] is any iteration order of the
    Python set. *)
Theorem C03_ancestry (iter : list str → list str) (paths : list (list str)) :
  (∀ x, iter x ≡ₚ x) →
  Forall (λ l, l ≠ [] ∧ valid_comps l) paths →
  ∃ out, get_path_ancestry iter (map rel_path paths) = Some out
    ∧ NoDup out
    ∧ (∀ q, q ∈ out ↔ ∃ l a, l ∈ paths ∧ a ≠ [] ∧ a `prefix_of` l ∧ q = rel_path a)
    ∧ (∀ i j a b, out !! i = Some (rel_path a) → out !! j = Some (rel_path b) →
         valid_comps a → valid_comps b → a `prefix_of` b → a ≠ b → j < i).
Proof.
  intros Hi Hv. destruct (get_path_ancestry_spec iter paths Hi Hv) as (out & H1 & H2 & H3 & H4).
  exists out. split; [done|]. split; [done|]. split; [|done].
  intros q. rewrite H3. unfold nonempty_prefix. split; intros (l & a & H); exists l, a; tauto.
Qed.
Print Assumptions C03_ancestry.

Example C03_example :
  get_path_ancestry id [lit "a/b/c"; lit "a/d"; lit "e"]
  = Some [lit "a/b/c"; lit "a/b"; lit "a/d"; lit "a"; lit "e"].
Proof. vm_compute. reflexivity. Qed.

(** ** C18 Path-set diff bookkeeping. *)
Theorem C18_initial_set_fixed starting ops p :
  [] ∉ starting → (p ∈ init_paths (pd_run starting ops) ↔ p ∈ starting).
Proof. apply pd_init_paths. Qed.
Print Assumptions C18_initial_set_fixed.

Theorem C18_resultant_set starting ops p :
  [] ∉ starting → Forall op_ok ops →
  (p ∈ res_paths (pd_run starting ops) ↔
    (∃ i, i ∈ starting ∧ current_name ops i = Some p) ∨ added ops p).
Proof. apply pd_res_paths. Qed.
Print Assumptions C18_resultant_set.

(** Seen as operations on the resultant set alone: removal subtracts, addition
    adds. *)
Theorem C18_resultant_step starting ops ps p :
  [] ∉ starting →
  (p ∈ res_paths (pd_run starting (ops ++ [PdRm ps])) ↔ p ∈ res_paths (pd_run starting ops) ∧ p ∉ ps)
  ∧ ([] ∉ ps → (p ∈ res_paths (pd_run starting (ops ++ [PdAdd ps]))
                ↔ p ∈ res_paths (pd_run starting ops) ∨ p ∈ ps)).
Proof.
  intros Hs. unfold pd_run. rewrite !fold_left_app. simpl. split; [apply pd_res_rm|apply pd_res_add].
Qed.
Print Assumptions C18_resultant_step.

Theorem C18_modified_pairs starting ops a b :
  [] ∉ starting → Forall op_ok ops →
  ((a, b) ∈ mod_paths (pd_run starting ops) ↔
    a ∈ starting ∧ current_name ops a = Some b ∧ a ≠ b).
Proof. apply pd_mod_paths. Qed.
Print Assumptions C18_modified_pairs.

Example C18_example :
  let ops := [PdRename [(lit "a", lit "x")]; PdRm [lit "b"]; PdAdd [lit "c"]] in
  (init_paths (pd_run [lit "a"; lit "b"] ops), res_paths (pd_run [lit "a"; lit "b"] ops),
   mod_paths (pd_run [lit "a"; lit "b"] ops))
  = ([lit "a"; lit "b"], [lit "x"; lit "c"], [(lit "a", lit "x")]).
Proof. vm_compute. reflexivity. Qed.

(** The union of two diffs has the initial paths, the resultant paths and the
    modifications of both. *)
Theorem C18_union a b p q :
  (p ∈ init_paths (pd_or a b) ↔ p ∈ init_paths a ∨ p ∈ init_paths b)
  ∧ (p ∈ res_paths (pd_or a b) ↔ p ∈ res_paths a ∨ p ∈ res_paths b)
  ∧ ((p, q) ∈ mod_paths (pd_or a b) ↔ (p, q) ∈ mod_paths a ∨ (p, q) ∈ mod_paths b).
Proof. unfold init_paths, res_paths, mod_paths, pd_or. by rewrite !omap_app, !elem_of_app. Qed.
Print Assumptions C18_union.
Example C18_union_ex :
  let a := pd_run [lit "a"] [PdRename [(lit "a", lit "x")]] in
  let b := pd_run [lit "b"] [PdAdd [lit "c"]] in
  (init_paths (pd_or a b), res_paths (pd_or a b), mod_paths (pd_or a b))
  = ([lit "a"; lit "b"], [lit "x"; lit "b"; lit "c"], [(lit "a", lit "x")]).
Proof. vm_compute. reflexivity. Qed.
