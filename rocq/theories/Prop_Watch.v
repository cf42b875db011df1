(** C97: an access counts for the file that was opened. *)
From Verif Require Export Watch.
From Verif Require Import Prop_HomeDir.
From stdpp Require Import options.

(** ** Specification *)
(** Something at the path [oa_path] of the local or of the remote directory is
    opened. *)
Record opened := Opened { oa_local : bool; oa_path : list str; oa_dir : bool; oa_time : Z }.
(** The event for it. *)
Definition event_for (L R : list str) (o : opened) : event :=
  Event (abs_path ((if oa_local o then L else R) ++ oa_path o)) (oa_dir o) (oa_time o).
(** What should be counted: the opened files that are in the database. *)
Definition counts (known : str → bool) (o : opened) : bool := negb (oa_dir o) && known (rel_path (oa_path o)).
Definition to_count (known : str → bool) (os : list opened) : list (str * Z) :=
  map (λ o, (rel_path (oa_path o), oa_time o)) (List.filter (counts known) os).

(** ** Proofs *)
Lemma rel_of_below (D p : list str) : valid_comps D → valid_comps p → p ≠ [] → relpath_of (abs_path (D ++ p)) (abs_path D) = rel_path p.
Proof.
  intros HD Hp Hn. assert (valid_comps (D ++ p)) as HDp by by apply Forall_app.
  unfold relpath_of. rewrite !normpath_valid, !slash_comps_abs by done.
  assert (common_prefix D (D ++ p) = D) as ->.
  { clear. induction D as [|x D IH]; [done|]. cbn [common_prefix app]. rewrite bool_decide_true by done. by rewrite IH. }
  rewrite Nat.sub_diag, drop_app. cbn [replicate app]. by destruct p.
Qed.
Lemma watched (D q : list str) : valid_comps D → valid_comps q →
  commonpath (abs_path q) (abs_path D) = Some (abs_path (common_prefix q D)) ∧ (abs_path (common_prefix q D) = abs_path D ↔ D `prefix_of` q).
Proof.
  intros HD Hq. split; [by apply commonpath_abs|]. rewrite <-common_prefix_eq. split; [|by intros ->].
  apply abs_path_inj; [by apply common_prefix_valid|done].
Qed.
Lemma rel_of_event L R o : valid_comps L → valid_comps R → ¬ L `prefix_of` R → ¬ R `prefix_of` L →
  valid_comps (oa_path o) → oa_path o ≠ [] →
  rel_of (watch_paths (abs_path L) (abs_path R)) (ev_name (event_for L R o)) = Some (Some (rel_path (oa_path o))).
Proof.
  intros HL HR H1 H2 Hp Hn. unfold watch_paths, event_for. cbn [rel_of ev_name].
  assert (∀ D, D = L ∨ D = R → valid_comps (D ++ oa_path o)) as HD by (intros D [-> | ->]; by apply Forall_app).
  destruct (oa_local o).
  - destruct (watched L (L ++ oa_path o)) as [-> Hw]; [done|apply HD; by left|].
    rewrite bool_decide_true by (apply Hw; by exists (oa_path o)). by rewrite rel_of_below.
  - destruct (watched L (R ++ oa_path o)) as [-> Hw]; [done|apply HD; by right|].
    rewrite bool_decide_false.
    + destruct (watched R (R ++ oa_path o)) as [-> Hw']; [done|apply HD; by right|].
      rewrite bool_decide_true by (apply Hw'; by exists (oa_path o)). by rewrite rel_of_below.
    + rewrite Hw. intros Hx. destruct (prefix_weak_total L R (R ++ oa_path o)) as [?|?]; [done|by exists (oa_path o)|done..].
Qed.

(** For directories that are written in the normal form and not one in the
    other, exactly the opened files that are in the database are counted, each
    under its path in the directory, in the order of the events.
    Missing: directories whose names begin with two slashes
    (C97_other_refuted, C97_ends_refuted). *)
Theorem C97_counted_partial L R known rel os :
  valid_comps L → valid_comps R → ¬ L `prefix_of` R → ¬ R `prefix_of` L →
  (∀ o, o ∈ os → valid_comps (oa_path o) ∧ oa_path o ≠ []) →
  snd <$> accessed (watch_paths (abs_path L) (abs_path R)) known rel (map (event_for L R) os) = Some (to_count known os).
Proof.
  intros HL HR H1 H2. revert rel. induction os as [|o os IH]; intros rel Hos; [done|].
  assert (∀ o, o ∈ os → valid_comps (oa_path o) ∧ oa_path o ≠ []) as Hos' by (intros o' ?; apply Hos; by right).
  destruct (Hos o) as [Hp Hn]; [by left|]. specialize (IH (Some (rel_path (oa_path o))) Hos').
  cbn [map accessed]. rewrite rel_of_event by done. cbn [ev_dir ev_time event_for]. unfold to_count in *. cbn [List.filter].
  unfold counts at 1. destruct (oa_dir o); cbn [negb andb]; [exact IH|].
  destruct (accessed _ _ _ _) as [[rel'' l]|]; [|done]. cbn in IH. injection IH as ->. cbn.
  by destruct (known (rel_path (oa_path o))).
Qed.
Print Assumptions C97_counted_partial.
Definition wa_known (x : str) : bool := bool_decide (x ∈ [lit "d/f"; lit "g"]).
Definition wa_opened : list opened :=
  [Opened true [lit "d"; lit "f"] false 1; Opened true [lit "d"] true 2; Opened false [lit "g"] false 3; Opened true [lit "new"] false 4; Opened false [lit ".zielen"; lit "x"] false 5].
Example C97_ex :
  let L := [lit "home"; lit "u"; lit "l"] in let R := [lit "mnt"; lit "r"] in
  valid_comps L ∧ valid_comps R ∧ ¬ L `prefix_of` R ∧ ¬ R `prefix_of` L ∧ (∀ o, o ∈ wa_opened → valid_comps (oa_path o) ∧ oa_path o ≠ [])
  ∧ to_count wa_known wa_opened = [(lit "d/f", 1%Z); (lit "g", 3%Z)].
Proof.
  split; [apply (bool_decide_unpack _); vm_compute; exact Logic.I|]. split; [apply (bool_decide_unpack _); vm_compute; exact Logic.I|].
  split; [apply (bool_decide_unpack _); vm_compute; exact Logic.I|]. split; [apply (bool_decide_unpack _); vm_compute; exact Logic.I|].
  split; [|vm_compute; reflexivity]. apply Forall_forall. apply (bool_decide_unpack _); vm_compute; exact Logic.I.
Qed.

(** Not true when the value of LocalDir begins with two slashes, which is
    accepted: a file that is opened in the local directory is counted as another
    one, ... *)
Theorem C97_other_refuted :
  ∃ v known home users evs, check_value (lit "LocalDir") v = false
    ∧ let L := dir_of_value home users v in let R := dir_of_value home users (lit "/r") in
      (∀ e, e ∈ evs → ev_name e = pjoin R (lit "f") ∨ ev_name e = pjoin L (lit "g"))
      ∧ known (lit "g") = true
      ∧ (snd <$> accessed (watch_paths L R) known None evs) = Some [(lit "f", 1%Z); (lit "f", 2%Z)]
      ∧ Event (pjoin L (lit "g")) false 2 ∈ evs.
Proof.
  exists (lit "//l"), (λ _, true), (lit "/home/u"), (λ _, None), [Event (lit "/r/f") false 1; Event (lit "//l/g") false 2].
  split; [vm_compute; reflexivity|]. split.
  - intros e [-> | [-> | []%elem_of_nil]%elem_of_cons]%elem_of_cons; [left|right]; vm_compute; reflexivity.
  - split; [done|]. split; [vm_compute; reflexivity|]. right. left.
Qed.
Print Assumptions C97_other_refuted.
(** ... or ends the daemon. *)
Theorem C97_ends_refuted :
  ∃ v known home users e, check_value (lit "LocalDir") v = false
    ∧ let L := dir_of_value home users v in let R := dir_of_value home users (lit "/r") in
      ev_name e = pjoin L (lit "g") ∧ accessed (watch_paths L R) known None [e] = None.
Proof.
  exists (lit "//l"), (λ _, true), (lit "/home/u"), (λ _, None), (Event (lit "//l/g") false 1).
  split; [vm_compute; reflexivity|]. split; vm_compute; reflexivity.
Qed.
Print Assumptions C97_ends_refuted.
