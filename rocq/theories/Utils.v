(** /repo/zielen/utils.py: [timestamp_path] and [get_path_ancestry]. *)
From Verif Require Export PosixPath PySort.
From stdpp Require Import options.

(** ** timestamp_path *)

(** The fields of [datetime.datetime.now()] that [strftime] prints. *)
Record datetime := {
  dt_year : N; dt_month : N; dt_day : N; dt_hour : N; dt_min : N; dt_sec : N }.

(** One decimal digit of [n]. *)
Definition digit (n : N) : char := (48 + n mod 10)%N.
Definition pad2 (n : N) : str := [digit (n / 10)%N; digit n].
Definition pad4 (n : N) : str := [digit (n / 1000)%N; digit (n / 100)%N; digit (n / 10)%N; digit n].

(** [strftime("%Y%m%d-%H%M%S")].  Simplification: years 1000 to 9999, so that
    every field has its fixed width. *)
Definition strftime_compact (d : datetime) : str :=
  pad4 (dt_year d) ++ pad2 (dt_month d) ++ pad2 (dt_day d) ++ [c_dash]
  ++ pad2 (dt_hour d) ++ pad2 (dt_min d) ++ pad2 (dt_sec d).

(** utils.py 50-68, [timestamp_path(path, keyword)]; [now] is the clock. *)
Definition timestamp_path (now : datetime) (path keyword : str) : str :=
  let keyword := match keyword with [] => keyword ++ keyword | _ => keyword ++ [c_dash] end in
  let '(name, extension) := splitext path in
  name ++ lit "_" ++ keyword ++ strftime_compact now ++ extension.

(** ** get_path_ancestry *)

(** utils.py 82-88: the loop over the deque.  The queue is listed from left to
    right; [pop] takes the rightmost element, [appendleft] adds a leftmost one.
    [None] means that [fuel] iterations did not suffice. *)
Fixpoint ancestry_loop (fuel : nat) (queue : list str) (out : list str) : option (list str) :=
  match fuel with
  | O => match queue with [] => Some out | _ => None end
  | S f =>
      match rev queue with
      | [] => Some out
      | path :: rest_rev =>
          let out := if bool_decide (path ∈ out) then out else path :: out in
          let rest := rev rest_rev in
          match dirname path with
          | [] => ancestry_loop f rest out
          | parent => ancestry_loop f (parent :: rest) out
          end
      end
  end.

Definition depth_desc (x y : str) : bool :=
  Nat.leb (count_char c_slash y) (count_char c_slash x).

(** utils.py 71-94.  [iter] is the (arbitrary) iteration order of the set. *)
Definition get_path_ancestry (iter : list str → list str) (paths : list str) : option (list str) :=
  match ancestry_loop (S (sum_list_with (λ p, S (length p)) paths)) paths [] with
  | Some out => Some (isort depth_desc (iter out))
  | None => None
  end.

(** * Proofs *)

Lemma digit_is_digit n : is_digit (digit n) = true.
Proof.
  unfold digit. pose proof (N.mod_lt n 10 ltac:(lia)) as Hm. revert Hm.
  generalize (n mod 10)%N. intros m Hm. unfold is_digit. rewrite andb_true_iff, !N.leb_le. lia.
Qed.
Lemma digit_ne_slash n : c_slash ≠ digit n.
Proof. intros E. pose proof (digit_is_digit n) as H. rewrite <-E in H. done. Qed.
Lemma digit_ne_dot n : c_dot ≠ digit n.
Proof. intros E. pose proof (digit_is_digit n) as H. rewrite <-E in H. done. Qed.

Lemma strftime_length d : length (strftime_compact d) = 15.
Proof. done. Qed.
Lemma strftime_chars d c : c = c_slash ∨ c = c_dot → c ∉ strftime_compact d.
Proof.
  intros [-> | ->]; unfold strftime_compact, pad2, pad4; simpl;
    repeat (apply not_elem_of_cons; split);
    first [apply digit_ne_slash|apply digit_ne_dot|apply not_elem_of_nil|done].
Qed.

Lemma take_while_app_gen f x c y : Forall (λ a, f a = true) x → f c = false →
  take_while f (x ++ c :: y) = x.
Proof. induction 1 as [|a x Ha _ IH]; simpl; intros Hc; [by rewrite Hc|]. rewrite Ha, IH; done. Qed.
Lemma lstrip_by_app_stop f x c y : Forall (λ a, f a = true) x → f c = false →
  lstrip_by f (x ++ c :: y) = c :: y.
Proof. induction 1 as [|a x Ha _ IH]; simpl; intros Hc; [by rewrite Hc|]. rewrite Ha, IH; done. Qed.

Lemma nodot_forall x : c_dot ∉ x → Forall (λ a, not_dot a = true) x.
Proof.
  intros H. apply Forall_forall. intros a Ha. unfold not_dot.
  destruct (N.eqb_spec a c_dot) as [->|_]; done.
Qed.
Lemma existsb_is_dot x : existsb is_dot x = bool_decide (c_dot ∈ x).
Proof.
  apply eq_bool_prop_intro. rewrite bool_decide_spec. rewrite Is_true_true, existsb_exists.
  setoid_rewrite <-elem_of_list_In. unfold is_dot. split.
  - intros (a & Ha & E). apply N.eqb_eq in E as ->. done.
  - intros H. exists c_dot. by rewrite N.eqb_refl.
Qed.

(** The last dot of a string. *)
Lemma last_dot_split x : c_dot ∈ x → ∃ a b, x = a ++ c_dot :: b ∧ c_dot ∉ b.
Proof.
  induction x as [|c x IH] using rev_ind; [by intros ?%elem_of_nil|].
  intros H. destruct (decide (c = c_dot)) as [->|Hc].
  - exists x, []. split; [done|apply not_elem_of_nil].
  - apply elem_of_app in H as [H|H].
    + destruct (IH H) as (a & b & -> & Hb). exists a, (b ++ [c]). split.
      * by rewrite <-app_assoc.
      * rewrite not_elem_of_app. split; [done|]. apply not_elem_of_cons. split; [congruence|apply not_elem_of_nil].
    + apply elem_of_list_singleton in H. congruence.
Qed.

Lemma rev_noelem {A} (c : A) x : c ∉ x → c ∉ rev x.
Proof. apply not_elem_of_rev. Qed.

(** What [splitext] returns, by the shape of the base name. *)
Lemma splitext_dot p a b : basename p = a ++ c_dot :: b → c_dot ∉ b →
  splitext p = if forallb is_dot a then (p, []) else (head_raw p ++ a, c_dot :: b).
Proof.
  intros E Hb. unfold splitext. rewrite E, existsb_is_dot, bool_decide_true.
  2:{ apply elem_of_app. right. left. }
  rewrite rev_app_distr. simpl rev. rewrite <-app_assoc. simpl.
  pose proof (nodot_forall _ (rev_noelem _ _ Hb)) as Hf.
  rewrite (lstrip_by_app_stop not_dot (rev b) c_dot (rev a)) by done.
  rewrite (take_while_app_gen not_dot (rev b) c_dot (rev a)) by done.
  simpl. by rewrite !rev_involutive.
Qed.
Lemma splitext_nodot p : c_dot ∉ basename p → splitext p = (p, []).
Proof. intros H. unfold splitext. by rewrite existsb_is_dot, bool_decide_false. Qed.

Lemma splitext_app p n e : splitext p = (n, e) → p = n ++ e.
Proof.
  destruct (decide (c_dot ∈ basename p)) as [H|H].
  - destruct (last_dot_split _ H) as (a & b & E & Hb). rewrite (splitext_dot _ _ _ E Hb).
    destruct (forallb is_dot a).
    + intros [= <- <-]. by rewrite app_nil_r.
    + intros [= <- <-]. rewrite <-app_assoc. rewrite <-E. by rewrite head_raw_basename.
  - rewrite splitext_nodot by done. intros [= <- <-]. by rewrite app_nil_r.
Qed.

Lemma head_raw_base_eq h b : (h = [] ∨ ∃ q, h = q ++ [c_slash]) → c_slash ∉ b →
  head_raw (h ++ b) = h ∧ basename (h ++ b) = b.
Proof.
  intros [->|[q ->]] Hb.
  - simpl. split; [by apply head_raw_none|by apply basename_none].
  - rewrite <-app_assoc. simpl. split; [by apply head_raw_app|by apply basename_app].
Qed.

(** Inserting slash- and dot-free text before the extension is undone by
    [splitext]. *)
Lemma splitext_insert p n e t :
  splitext p = (n, e) → t ≠ [] → c_slash ∉ t → c_dot ∉ t →
  splitext (n ++ t ++ e) = (n ++ t, e) ∧ head_raw (n ++ t ++ e) = head_raw p.
Proof.
  intros Hs Hne Hsl Hdt.
  pose proof (head_raw_shape p) as Hsh. pose proof (basename_noslash p) as Hbs.
  pose proof (head_raw_basename p) as Hp.
  destruct (decide (c_dot ∈ basename p)) as [H|H].
  - destruct (last_dot_split _ H) as (a & b & E & Hb). rewrite (splitext_dot _ _ _ E Hb) in Hs.
    assert (c_slash ∉ a ∧ c_slash ∉ c_dot :: b) as [Ha Hb'].
    { rewrite E in Hbs. by apply not_elem_of_app in Hbs. }
    destruct (forallb is_dot a) eqn:Ed; injection Hs as <- <-.
    + rewrite !app_nil_r.
      assert (p ++ t = head_raw p ++ (a ++ c_dot :: b ++ t)) as Heq.
      { rewrite <-Hp at 1. rewrite E. rewrite <-!app_assoc. simpl. done. }
      destruct (head_raw_base_eq (head_raw p) (a ++ c_dot :: b ++ t) Hsh) as [H1 H2].
      { rewrite not_elem_of_app. split; [done|]. rewrite app_comm_cons, not_elem_of_app. done. }
      rewrite Heq. split; [|done].
      rewrite (splitext_dot _ a (b ++ t)); [|done|by rewrite not_elem_of_app].
      by rewrite Ed.
    + assert ((head_raw p ++ a) ++ t ++ c_dot :: b = head_raw p ++ ((a ++ t) ++ c_dot :: b)) as Heq.
      { by rewrite <-!app_assoc. }
      destruct (head_raw_base_eq (head_raw p) ((a ++ t) ++ c_dot :: b) Hsh) as [H1 H2].
      { rewrite !not_elem_of_app. done. }
      rewrite Heq. split; [|done].
      rewrite (splitext_dot _ (a ++ t) b) by done. rewrite H1.
      rewrite forallb_app, Ed. simpl. by rewrite app_assoc.
  - rewrite splitext_nodot in Hs by done. injection Hs as <- <-. rewrite !app_nil_r.
    assert (p ++ t = head_raw p ++ (basename p ++ t)) as Heq.
    { by rewrite app_assoc, Hp. }
    destruct (head_raw_base_eq (head_raw p) (basename p ++ t) Hsh) as [H1 H2].
    { rewrite not_elem_of_app. done. }
    rewrite Heq. split; [|done]. apply splitext_nodot. rewrite H2, not_elem_of_app. done.
Qed.

Lemma timestamp_path_conflict now p n e : splitext p = (n, e) →
  timestamp_path now p (lit "conflict") = n ++ (lit "_conflict-" ++ strftime_compact now) ++ e.
Proof. intros H. unfold timestamp_path. rewrite H. by rewrite <-!app_assoc. Qed.

Lemma tag_ok now : lit "_conflict-" ++ strftime_compact now ≠ []
  ∧ c_slash ∉ lit "_conflict-" ++ strftime_compact now
  ∧ c_dot ∉ lit "_conflict-" ++ strftime_compact now.
Proof.
  split; [done|]. rewrite !not_elem_of_app.
  assert (c_slash ∉ lit "_conflict-" ∧ c_dot ∉ lit "_conflict-") as [? ?].
  { split; by apply (bool_decide_unpack _). }
  auto using strftime_chars.
Qed.

Lemma timestamp_path_dir now p : head_raw (timestamp_path now p (lit "conflict")) = head_raw p.
Proof.
  destruct (splitext p) as [n e] eqn:E. rewrite (timestamp_path_conflict _ _ _ _ E).
  destruct (tag_ok now) as (?&?&?). by eapply splitext_insert.
Qed.
Lemma timestamp_path_inj now now' p p' :
  timestamp_path now p (lit "conflict") = timestamp_path now' p' (lit "conflict") → p = p'.
Proof.
  destruct (splitext p) as [n e] eqn:E. destruct (splitext p') as [n' e'] eqn:E'.
  rewrite (timestamp_path_conflict _ _ _ _ E), (timestamp_path_conflict _ _ _ _ E').
  intros H. destruct (tag_ok now) as (T1&T2&T3). destruct (tag_ok now') as (T1'&T2'&T3').
  destruct (splitext_insert p n e _ E T1 T2 T3) as [HA _].
  destruct (splitext_insert p' n' e' _ E' T1' T2' T3') as [HB _].
  rewrite H in HA. rewrite HA in HB. injection HB as HB ->.
  apply app_inj_2 in HB as [-> _]; [|done].
  by rewrite (splitext_app _ _ _ E), (splitext_app _ _ _ E').
Qed.
Lemma timestamp_path_longer now p : length p < length (timestamp_path now p (lit "conflict")).
Proof.
  destruct (splitext p) as [n e] eqn:E. rewrite (timestamp_path_conflict _ _ _ _ E).
  rewrite (splitext_app _ _ _ E) at 1. rewrite !app_length. simpl. lia.
Qed.

(** *** Ancestry *)

(** Component view of the loop. *)
Definition nonempty_prefix (a l : list str) : Prop := a ≠ [] ∧ a `prefix_of` l.

Lemma rel_path_ne l : l ≠ [] → valid_comps l → rel_path l ≠ [].
Proof.
  intros Hn Hv. apply join_on_ne; [done|]. eapply Forall_impl; [exact Hv|apply valid_ne].
Qed.
Lemma rel_path_length_snoc l x : valid_name x → length (rel_path l) < length (rel_path (l ++ [x])).
Proof.
  intros Hx. pose proof (valid_ne _ Hx) as Hn. unfold rel_path. destruct l as [|y l].
  - simpl. destruct x; [done|simpl; lia].
  - rewrite join_on_app by done. rewrite !app_length. simpl. lia.
Qed.

Lemma prefix_snoc_inv {A} (a l : list A) x : a `prefix_of` l ++ [x] → a = l ++ [x] ∨ a `prefix_of` l.
Proof.
  intros [k Hk]. destruct k as [|y k _] using rev_ind.
  - left. by rewrite app_nil_r in Hk.
  - right. rewrite app_assoc in Hk. apply app_inj_tail in Hk as [-> _]. by eexists.
Qed.

Lemma valid_prefix a l : valid_comps l → a `prefix_of` l → valid_comps a.
Proof. intros Hv [k ->]. by apply Forall_app in Hv as [? _]. Qed.

Lemma ancestry_loop_spec fuel : ∀ (ls : list (list str)) out,
  Forall (λ l, l ≠ [] ∧ valid_comps l) ls →
  sum_list_with (λ p, S (length p)) (map rel_path ls) < fuel →
  ∃ out', ancestry_loop fuel (map rel_path ls) out = Some out'
    ∧ (NoDup out → NoDup out')
    ∧ ∀ q, q ∈ out' ↔ q ∈ out ∨ ∃ l a, l ∈ ls ∧ nonempty_prefix a l ∧ q = rel_path a.
Proof.
  induction fuel as [|f IH]; intros ls out Hv Hf; [lia|].
  destruct ls as [|l ls _] using rev_ind.
  - exists out. split; [done|]. split; [done|]. intros q. split; [by left|].
    intros [H|(l & a & H & _)]; [done|by apply elem_of_nil in H].
  - apply Forall_app in Hv as [Hls Hl]. inversion_clear Hl as [|? ? Hl' _].
    destruct Hl' as [Hln Hlv].
    destruct l as [|x l _] using rev_ind; [done|].
    apply Forall_app in Hlv as [Hlv Hx]. inversion_clear Hx as [|? ? Hx' _].
    simpl. rewrite map_app, rev_app_distr. simpl. rewrite rev_involutive.
    rewrite dirname_rel by done.
    rewrite map_app, sum_list_with_app in Hf. cbn [map sum_list_with] in Hf.
    set (out1 := if bool_decide (rel_path (l ++ [x]) ∈ out) then out else rel_path (l ++ [x]) :: out).
    assert (NoDup out → NoDup out1) as Hnd.
    { unfold out1. case_bool_decide; [done|]. by constructor. }
    assert (∀ q, q ∈ out1 ↔ q = rel_path (l ++ [x]) ∨ q ∈ out) as Ho.
    { intros q. unfold out1. case_bool_decide as E; rewrite ?elem_of_cons; naive_solver. }
    pose proof (rel_path_length_snoc l x Hx').
    destruct l as [|y l].
    + change (rel_path []) with (@nil char). cbv iota.
      destruct (IH ls out1 Hls) as (out' & -> & Hnd' & Hq); [lia|].
      exists out'. split; [done|]. split; [auto|]. intros q. rewrite Hq, Ho. split.
      * intros [[->|?]|(l' & a & ? & ? & ->)]; [|by left|].
        -- right. exists [x], [x]. split; [apply elem_of_app; right; by apply elem_of_list_singleton|].
           done.
        -- right. exists l', a. split; [apply elem_of_app; by left|done].
      * intros [?|(l' & a & Hl' & Ha & ->)]; [by left; right|].
        apply elem_of_app in Hl' as [Hl'|Hl'%elem_of_list_singleton].
        -- right. by exists l', a.
        -- subst l'. left; left. destruct Ha as [Ha1 Ha2].
           apply (prefix_snoc_inv a [] x) in Ha2 as [->|Ha2]; [done|].
           by apply prefix_nil_inv in Ha2.
    + assert (rel_path (y :: l) ≠ []) as Hne by by apply rel_path_ne.
      destruct (IH ((y :: l) :: ls) out1) as (out' & Hr & Hnd' & Hq).
      { constructor; done. }
      { cbn [map sum_list_with]. lia. }
      exists out'. split; [|split; [by auto|]].
      * simpl in Hr. rewrite <-Hr.
        destruct (rel_path (y :: l)) eqn:E; [done|]. done.
      * intros q. rewrite Hq, Ho. setoid_rewrite elem_of_cons. split.
        -- intros [[->|?]|(l' & a & [->|Hl'] & Ha & ->)].
           ++ right. exists ((y :: l) ++ [x]), ((y :: l) ++ [x]).
              split; [apply elem_of_app; right; by apply elem_of_list_singleton|]. done.
           ++ by left.
           ++ right. exists ((y :: l) ++ [x]), a.
              split; [apply elem_of_app; right; by apply elem_of_list_singleton|].
              split; [|done]. destruct Ha as [? ?]. split; [done|]. by apply prefix_app_r.
           ++ right. exists l', a. split; [apply elem_of_app; by left|done].
        -- intros [?|(l' & a & Hl' & Ha & ->)]; [by left; right|].
           apply elem_of_app in Hl' as [Hl'|Hl'%elem_of_list_singleton].
           ++ right. exists l', a. auto.
           ++ subst l'. destruct Ha as [Ha1 Ha2].
              apply prefix_snoc_inv in Ha2 as [->|Ha2]; [by left; left|].
              right. exists (y :: l), a. split; [by left|]. done.
Qed.

Lemma depth_desc_trans a b c : depth_desc a b = true → depth_desc b c = true → depth_desc a c = true.
Proof. unfold depth_desc. rewrite !Nat.leb_le. lia. Qed.
Lemma depth_desc_total a b : depth_desc a b = true ∨ depth_desc b a = true.
Proof. unfold depth_desc. rewrite !Nat.leb_le. lia. Qed.

Lemma get_path_ancestry_spec iter (ls : list (list str)) :
  (∀ x, iter x ≡ₚ x) → Forall (λ l, l ≠ [] ∧ valid_comps l) ls →
  ∃ out, get_path_ancestry iter (map rel_path ls) = Some out ∧ NoDup out
    ∧ (∀ q, q ∈ out ↔ ∃ l a, l ∈ ls ∧ nonempty_prefix a l ∧ q = rel_path a)
    ∧ (∀ i j a b, out !! i = Some (rel_path a) → out !! j = Some (rel_path b) →
         valid_comps a → valid_comps b → a `prefix_of` b → a ≠ b → j < i).
Proof.
  intros Hit Hv. unfold get_path_ancestry.
  destruct (ancestry_loop_spec (S (sum_list_with (λ p, S (length p)) (map rel_path ls))) ls [] Hv)
    as (out & -> & Hnd & Hq); [lia|].
  eexists. split; [done|]. split; [|split].
  - rewrite isort_perm, Hit. apply Hnd. constructor.
  - intros q. rewrite isort_perm, Hit, Hq. split; [|by right].
    intros [H|H]; [by apply elem_of_nil in H|done].
  - intros i j a b Hi Hj Hav Hbv Hp Hne.
    assert (length a < length b) as Hlen.
    { pose proof (prefix_length _ _ Hp). destruct (decide (length a = length b)) as [E|]; [|lia].
      exfalso. apply Hne. destruct Hp as [k ->]. rewrite app_length in E.
      destruct k; [by rewrite app_nil_r|simpl in E; lia]. }
    destruct (decide (i < j)) as [Hlt|].
    2:{ destruct (decide (i = j)) as [->|]; [|lia]. rewrite Hi in Hj. injection Hj as Hj.
        exfalso. apply Hne. by apply rel_path_inj. }
    pose proof (isort_sorted depth_desc (iter out) depth_desc_trans depth_desc_total) as Hs.
    pose proof (sorted_lookup _ _ _ _ _ _ Hs Hi Hj Hlt) as Hd.
    unfold depth_desc in Hd. rewrite Nat.leb_le in Hd.
    rewrite !count_slash_rel in Hd by done.
    assert (length a > 0); [|lia]. destruct a; [|simpl; lia].
    exfalso. (* the empty path is never listed *)
    assert (rel_path [] ∈ isort depth_desc (iter out)) as Hin by by eapply elem_of_list_lookup_2.
    rewrite isort_perm, Hit, Hq in Hin. destruct Hin as [Hin|(l & a & Hl & [Ha1 Ha2] & E)].
    + by apply elem_of_nil in Hin.
    + rewrite Forall_forall in Hv. destruct (Hv l Hl) as [_ Hlv].
      symmetry in E. revert E. apply rel_path_ne; [done|by eapply valid_prefix].
Qed.
