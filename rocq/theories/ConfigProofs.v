(** Proofs about the configuration file model. *)
From Verif Require Export Config.
From stdpp Require Import options.

(** ** Stripping *)
Notation blankP := (λ c : char, is_space c = true).
Definition edges_ok (y : str) : Prop :=
  (∀ c r, y = c :: r → is_space c = false) ∧ (∀ c r, y = r ++ [c] → is_space c = false).

Lemma rev_eq_cons {A} (l : list A) c r : rev l = c :: r ↔ l = rev r ++ [c].
Proof.
  split; intros H.
  - by rewrite <-(rev_involutive l), H.
  - by rewrite H, rev_app_distr, rev_involutive.
Qed.
Lemma Forall_rev_sp x : Forall blankP x → Forall blankP (rev x).
Proof. intros H. apply Forall_rev. done. Qed.

Lemma strip_unique a y b : Forall blankP a → Forall blankP b → edges_ok y → strip (a ++ y ++ b) = y.
Proof.
  intros Ha Hb [Hl Hr]. unfold strip, strip_by, rstrip_by. rewrite lstrip_by_app by done.
  destruct y as [|c y].
  - simpl. by rewrite (lstrip_by_all _ b).
  - rewrite (lstrip_by_idem is_space ((c :: y) ++ b)).
    2:{ intros c' r [= <- _]. by eapply Hl. }
    rewrite rev_app_distr, lstrip_by_app by by apply Forall_rev_sp.
    rewrite lstrip_by_idem; [apply rev_involutive|].
    intros c' r E. apply rev_eq_cons in E. by eapply Hr.
Qed.
Lemma strip_decomp x : ∃ a b, x = a ++ strip x ++ b ∧ Forall blankP a ∧ Forall blankP b ∧ edges_ok (strip x).
Proof.
  unfold strip, strip_by, rstrip_by.
  destruct (lstrip_by_spec is_space x) as (a & Hx & Ha & Hl).
  set (y := lstrip_by is_space x) in *.
  destruct (lstrip_by_spec is_space (rev y)) as (b & Hy & Hb & Hr).
  set (z := lstrip_by is_space (rev y)) in *.
  assert (y = rev z ++ rev b) as Hy'.
  { rewrite <-(rev_involutive y), Hy. by rewrite rev_app_distr. }
  exists a, (rev b). split; [by rewrite Hx, Hy'|]. split; [done|]. split; [by apply Forall_rev_sp|].
  split.
  - intros c r E. apply (Hl c (r ++ rev b)). rewrite Hy', E. done.
  - intros c r E. apply (Hr c (rev r)). rewrite <-(rev_involutive z), E, rev_app_distr. done.
Qed.
Lemma stripped_edges x : stripped x ↔ edges_ok x.
Proof.
  split.
  - intros H. destruct (strip_decomp x) as (a & b & _ & _ & _ & He). by rewrite H in He.
  - intros H. unfold stripped. rewrite <-(app_nil_r x) at 1. apply (strip_unique [] x []); [constructor|constructor|done].
Qed.
Lemma strip_idem x : stripped (strip x).
Proof. apply stripped_edges. by destruct (strip_decomp x) as (a & b & _ & _ & _ & He). Qed.
Lemma elem_strip c x : c ∈ strip x → c ∈ x.
Proof.
  destruct (strip_decomp x) as (a & b & E & _). intros H. rewrite E. set_solver.
Qed.

(** ** Lines *)
Lemma lines_of_concat x : concat (lines_of x) = x.
Proof.
  induction x as [|c x IH]; [done|]. cbn [lines_of]. destruct (N.eqb_spec c 10) as [->|Hn].
  - simpl. by rewrite IH.
  - destruct (lines_of x) as [|l ls]; simpl in *; by rewrite <-IH.
Qed.
Definition full_line (l : str) : Prop := ∃ b, l = b ++ [c_nl] ∧ c_nl ∉ b.
Definition last_line (l : str) : Prop := full_line l ∨ l ≠ [] ∧ c_nl ∉ l.
Fixpoint lines_ok (ls : list str) : Prop :=
  match ls with
  | [] => True
  | [l] => last_line l
  | l :: ls' => full_line l ∧ lines_ok ls'
  end.
Lemma lines_of_ok x : lines_ok (lines_of x).
Proof.
  induction x as [|c x IH]; [done|]. cbn [lines_of]. destruct (N.eqb_spec c 10) as [->|Hn].
  - assert (full_line [10%N]) as Hf by (exists []; split; [done|apply not_elem_of_nil]).
    destruct (lines_of x); simpl; [by left|done].
  - destruct (lines_of x) as [|l [|l' ls]]; simpl in *.
    + right. split; [done|]. apply not_elem_of_cons. split; [done|apply not_elem_of_nil].
    + destruct IH as [(b & -> & Hb)|[H1 H2]].
      * left. exists (c :: b). split; [done|]. apply not_elem_of_cons. done.
      * right. split; [done|]. apply not_elem_of_cons. done.
    + destruct IH as [(b & -> & Hb) ?]. split; [|done]. exists (c :: b). split; [done|].
      apply not_elem_of_cons. done.
Qed.
Lemma lines_of_full b r : c_nl ∉ b → lines_of (b ++ [c_nl] ++ r) = (b ++ [c_nl]) :: lines_of r.
Proof.
  induction b as [|c b IH]; intros H; [done|].
  apply not_elem_of_cons in H as [H1 H2]. cbn [app lines_of].
  destruct (N.eqb_spec c 10) as [->|_]; [done|]. simpl in IH. by rewrite IH.
Qed.
Lemma lines_of_none b : b ≠ [] → c_nl ∉ b → lines_of b = [b].
Proof.
  induction b as [|c b IH]; intros Hne H; [done|].
  apply not_elem_of_cons in H as [H1 H2]. cbn [lines_of].
  destruct (N.eqb_spec c 10) as [->|_]; [done|].
  destruct b as [|d b]; [done|]. by rewrite IH.
Qed.
Lemma lines_ok_inverse ls : lines_ok ls → lines_of (concat ls) = ls.
Proof.
  induction ls as [|l ls IH]; [done|]. destruct ls as [|l' ls].
  - simpl. rewrite app_nil_r. intros [(b & -> & Hb)|[Hne Hl]].
    + rewrite <-(app_nil_r [c_nl]) at 1. by rewrite lines_of_full.
    + by apply lines_of_none.
  - intros [(b & -> & Hb) Hls]. change (concat ((b ++ [c_nl]) :: l' :: ls)) with ((b ++ [c_nl]) ++ concat (l' :: ls)).
    rewrite <-app_assoc, lines_of_full by done. by rewrite IH.
Qed.

Lemma univ_nl_nocr x : 13%N ∉ univ_nl x.
Proof.
  assert (∀ n x, length x ≤ n → 13%N ∉ univ_nl x) as H; [|by eapply H].
  clear x. intros n. induction n as [|n IH]; intros x Hx.
  - destruct x; [apply not_elem_of_nil|simpl in *; lia].
  - destruct x as [|c x]; [apply not_elem_of_nil|]. cbn [univ_nl]. simpl in Hx.
    destruct (N.eqb_spec c 13) as [->|Hn].
    + destruct x as [|d x].
      * apply not_elem_of_cons. split; [done|apply not_elem_of_nil].
      * simpl in Hx. destruct (N.eqb_spec d 10) as [->|Hd].
        -- apply not_elem_of_cons. split; [done|]. apply IH. lia.
        -- apply not_elem_of_cons. split; [done|]. apply IH. simpl. lia.
    + apply not_elem_of_cons. split; [done|]. apply IH. lia.
Qed.
Lemma univ_nl_id x : 13%N ∉ x → univ_nl x = x.
Proof.
  induction x as [|c x IH]; intros H; [done|]. apply not_elem_of_cons in H as [H1 H2].
  cbn [univ_nl]. destruct (N.eqb_spec c 13) as [->|_]; [done|]. by rewrite IH.
Qed.

(** ** Option lines *)
Lemma partition_spec c x : c ∈ x →
  ∃ a b, x = a ++ c :: b ∧ c ∉ a ∧ partition_on c x = (a, b).
Proof.
  induction x as [|d x IH]; [by intros ?%elem_of_nil|]. intros H. cbn [partition_on].
  destruct (N.eqb_spec d c) as [->|Hn].
  - exists [], x. split; [done|]. split; [apply not_elem_of_nil|done].
  - apply elem_of_cons in H as [->|H]; [done|]. destruct (IH H) as (a & b & -> & Ha & ->).
    exists (d :: a), b. split; [done|]. split; [|done]. apply not_elem_of_cons. done.
Qed.
Lemma partition_app c a b : c ∉ a → partition_on c (a ++ c :: b) = (a, b).
Proof.
  induction a as [|d a IH]; intros H; cbn [app partition_on].
  - by rewrite N.eqb_refl.
  - apply not_elem_of_cons in H as [H1 H2]. destruct (N.eqb_spec d c) as [->|_]; [done|]. by rewrite IH.
Qed.
Lemma contains_char_spec c x : contains_char c x = true ↔ c ∈ x.
Proof.
  unfold contains_char. rewrite existsb_exists. setoid_rewrite <-elem_of_list_In. split.
  - intros (d & Hd & E). apply N.eqb_eq in E as ->. done.
  - intros H. exists c. by rewrite N.eqb_refl.
Qed.
Lemma is_comment_spec l : is_comment l = true ↔ comment_line l.
Proof.
  unfold is_comment, comment_line. destruct (lstrip_by_spec is_space l) as (a & E & Ha & Hl).
  destruct (lstrip_by is_space l) as [|c r] eqn:El.
  - split; [done|]. intros (s & r & -> & Hs).
    rewrite lstrip_by_app in El by done. done.
  - split.
    + intros Hc. apply N.eqb_eq in Hc as ->. by exists a, r.
    + intros (s & r' & -> & Hs). rewrite lstrip_by_app in El by done. simpl in El.
      injection El as <- _. done.
Qed.

(** The key and value of a line, if it is an option line. *)
Definition option_kv (line : str) : option (str * str) :=
  if is_option_line line then
    let '(key, value) := partition_on c_eq line in Some (strip key, strip value)
  else None.
Lemma option_kv_assigns l k v : option_kv l = Some (k, v) ↔ assigns l k v.
Proof.
  unfold option_kv, is_option_line, assigns. rewrite <-is_comment_spec. split.
  - destruct (is_comment l); [done|]. simpl. destruct (contains_char c_eq l) eqn:E; [|done].
    apply contains_char_spec in E. destruct (partition_spec _ _ E) as (a & b & -> & Ha & ->).
    intros [= <- <-]. split; [done|]. by exists a, b.
  - intros [Hc (a & b & -> & Ha & <- & <-)]. destruct (is_comment _); [done|]. simpl.
    assert (contains_char c_eq (a ++ c_eq :: b) = true) as ->.
    { apply contains_char_spec. set_solver. }
    by rewrite partition_app.
Qed.
Lemma read_line_kv raw l :
  read_line raw l = match option_kv l with Some (k, v) => <[k := v]> raw | None => raw end.
Proof. unfold read_line, option_kv. destruct (is_option_line l); [|done]. by destruct (partition_on _ _). Qed.

Lemma option_kv_write raw l :
  (∀ k v, raw !! k = Some v → stripped v) →
  option_kv (write_line raw l)
  = match option_kv l with Some (k, v) => Some (k, default v (raw !! k)) | None => None end.
Proof.
  intros Hraw. destruct (option_kv l) as [[k v]|] eqn:E.
  - pose proof E as Ea. apply option_kv_assigns in Ea as [Hnc (a & b & -> & Ha & Hk & Hv)].
    unfold write_line. unfold option_kv in E.
    destruct (is_option_line (a ++ c_eq :: b)) eqn:Eo; [|done].
    rewrite partition_app in * by done. rewrite Hk.
    destruct (raw !! k) as [v'|] eqn:Er.
    + simpl. apply option_kv_assigns. split.
      * intros (s & r & Es & Hs). apply Hnc.
        (* the first non-blank character is that of the key *)
        destruct (strip_decomp a) as (a1 & a2 & Ea & Ha1 & Ha2 & He). rewrite Hk in *.
        destruct k as [|ck k'].
        -- exfalso. destruct s as [|cs s]; simpl in Es; [done|]. injection Es as <- _.
           inversion_clear Hs as [|? ? Hcs _]. done.
        -- destruct s as [|cs s]; simpl in Es.
           ++ injection Es as -> Es. exists a1. rewrite Ea. simpl. rewrite <-app_assoc. simpl. eauto.
           ++ injection Es as <- _. inversion_clear Hs as [|? ? Hcs _].
              destruct He as [He _]. specialize (He _ _ eq_refl). congruence.
      * exists k, (v' ++ [c_nl]). split; [done|]. split; [|split].
        -- rewrite <-Hk. by intros ?%elem_strip.
        -- rewrite <-Hk. apply strip_idem.
        -- apply (strip_unique [] v' [c_nl]); [constructor|repeat constructor|].
           apply stripped_edges. by eapply Hraw.
    + simpl. unfold option_kv. rewrite Eo, partition_app by done. by rewrite Hk, Hv.
  - unfold write_line. unfold option_kv in E.
    destruct (is_option_line l) eqn:Eo; [by destruct (partition_on _ _)|].
    unfold option_kv. by rewrite Eo.
Qed.

(** The last assignment wins. *)
Lemma fold_read_lookup ls r k :
  (∃ v, file_assigns ls k v ∧ fold_left read_line ls r !! k = Some v)
  ∨ (¬ file_mentions ls k ∧ fold_left read_line ls r !! k = r !! k).
Proof.
  induction ls as [|l ls IH] using rev_ind.
  - right. split; [|done]. intros (? & ? & H & _). by apply elem_of_nil in H.
  - rewrite fold_left_app. simpl. rewrite read_line_kv.
    destruct (option_kv l) as [[k' v']|] eqn:E.
    + pose proof E as Ea. apply option_kv_assigns in Ea.
      destruct (decide (k' = k)) as [->|Hne].
      * left. exists v'. split; [|apply lookup_insert].
        exists ls, l, []. split; [done|]. split; [done|]. intros ? ? H. by apply elem_of_nil in H.
      * rewrite lookup_insert_ne by done.
        assert (∀ v, ¬ assigns l k v) as Hno.
        { intros v Hv. apply option_kv_assigns in Hv. congruence. }
        destruct IH as [(v & (pre & line & post & -> & H1 & H2) & Hf)|[H1 H2]].
        -- left. exists v. split; [|done]. exists pre, line, (post ++ [l]).
           split; [by rewrite <-app_assoc|]. split; [done|].
           intros l' v2 [H|H]%elem_of_app; [by apply H2|]. apply elem_of_list_singleton in H as ->. apply Hno.
        -- right. split; [|done]. intros (line & v & [H|H]%elem_of_app & Hv).
           ++ apply H1. by exists line, v.
           ++ apply elem_of_list_singleton in H as ->. by apply Hno in Hv.
    + assert (∀ v, ¬ assigns l k v) as Hno.
      { intros v Hv. apply option_kv_assigns in Hv. congruence. }
      destruct IH as [(v & (pre & line & post & -> & H1 & H2) & Hf)|[H1 H2]].
      * left. exists v. split; [|done]. exists pre, line, (post ++ [l]).
        split; [by rewrite <-app_assoc|]. split; [done|].
        intros l' v2 [H|H]%elem_of_app; [by apply H2|]. apply elem_of_list_singleton in H as ->. apply Hno.
      * right. split; [|done]. intros (line & v & [H|H]%elem_of_app & Hv).
        -- apply H1. by exists line, v.
        -- apply elem_of_list_singleton in H as ->. by apply Hno in Hv.
Qed.
Lemma file_assigns_fun ls k v v' : file_assigns ls k v → file_assigns ls k v' → v = v'.
Proof.
  intros (pre & l & post & E & H1 & H2) (pre' & l' & post' & E' & H1' & H2'). rewrite E in E'.
  destruct (decide (length pre = length pre')) as [Hl|Hl].
  - apply app_inj_1 in E' as [_ [= <- _]]; [|done].
    apply option_kv_assigns in H1, H1'. congruence.
  - exfalso. destruct (decide (length pre < length pre')) as [Hlt|Hge].
    + (* l' lies in post *)
      assert (l' ∈ post) as Hin; [|by apply (H2 l' v')].
      assert ((pre ++ l :: post) !! length pre' = Some l') as Hlk.
      { rewrite E'. rewrite lookup_app_r by lia. by rewrite Nat.sub_diag. }
      rewrite lookup_app_r in Hlk by lia.
      destruct (length pre' - length pre) as [|n] eqn:En; [lia|]. simpl in Hlk.
      by eapply elem_of_list_lookup_2.
    + assert (l ∈ post') as Hin; [|by apply (H2' l v)].
      assert ((pre' ++ l' :: post') !! length pre = Some l) as Hlk.
      { rewrite <-E'. rewrite lookup_app_r by lia. by rewrite Nat.sub_diag. }
      rewrite lookup_app_r in Hlk by lia.
      destruct (length pre - length pre') as [|n] eqn:En; [lia|]. simpl in Hlk.
      by eapply elem_of_list_lookup_2.
Qed.

(** ** Writing *)
Definition raw_ok (raw : raw_vals) : Prop :=
  ∀ k v, raw !! k = Some v → stripped v ∧ one_line v.

Lemma write_line_shape raw l : raw_ok raw → 13%N ∉ l → last_line l →
  13%N ∉ write_line raw l ∧ (write_line raw l = l ∨ full_line (write_line raw l)).
Proof.
  intros Hraw Hcr Hl. unfold write_line.
  destruct (is_option_line l) eqn:Eo; [|auto].
  unfold is_option_line in Eo. apply andb_true_iff in Eo as [_ Ec].
  apply contains_char_spec in Ec. destruct (partition_spec _ _ Ec) as (a & b & -> & Ha & ->).
  destruct (raw !! strip a) as [v|] eqn:Er; [|auto].
  destruct (Hraw _ _ Er) as [_ [Hv1 Hv2]].
  assert (10%N ∉ a) as Hna.
  { destruct Hl as [(b' & E & Hb)|[_ H]]; [|set_solver].
    intros Hin. apply Hb. destruct b as [|cb b _] using rev_ind.
    - assert (c_eq = c_nl) as He; [|done]. apply app_inj_tail in E as [_ E]. done.
    - rewrite app_comm_cons, app_assoc in E. apply app_inj_tail in E as [<- _]. set_solver. }
  assert (13%N ∉ a) as Hca by set_solver.
  split.
  - rewrite !elem_of_app. intros [H%elem_strip|[H|[H|H]]]; [done| |done|].
    + by apply elem_of_list_singleton in H.
    + by apply elem_of_list_singleton in H.
  - right. exists (strip a ++ [c_eq] ++ v). split; [by rewrite <-!app_assoc|].
    rewrite !elem_of_app. intros [H%elem_strip|[H|H]]; [done| |done].
    by apply elem_of_list_singleton in H.
Qed.

Lemma full_last l : full_line l → last_line l.
Proof. by left. Qed.
Lemma lines_ok_cons l l' ls : lines_ok (l :: l' :: ls) ↔ full_line l ∧ lines_ok (l' :: ls).
Proof. done. Qed.
Lemma lines_ok_last l ls : lines_ok (l :: ls) → last_line l.
Proof. destruct ls; [done|]. intros [H _]. by left. Qed.

Lemma map_write_ok raw ls : raw_ok raw → lines_ok ls → Forall (λ l, 13%N ∉ l) ls →
  lines_ok (map (write_line raw) ls) ∧ 13%N ∉ concat (map (write_line raw) ls).
Proof.
  intros Hraw. induction ls as [|l ls IH]; intros Hok Hcr.
  - split; [done|apply not_elem_of_nil].
  - inversion_clear Hcr as [|? ? Hl Hls].
    destruct (write_line_shape raw l Hraw Hl (lines_ok_last _ _ Hok)) as [H1 H2].
    destruct ls as [|l' ls].
    + simpl in *. rewrite app_nil_r. split; [|done].
      destruct H2 as [->|H2]; [done|by left].
    + destruct Hok as [Hf Hok]. destruct (IH Hok Hls) as [IH1 IH2]. split.
      * cbn [map]. apply lines_ok_cons. split; [|done]. destruct H2 as [->|H2]; done.
      * cbn [map concat]. rewrite elem_of_app. intros [?|?]; done.
Qed.

Lemma elem_concat_lines {A} (c : A) (ls : list (list A)) l : l ∈ ls → c ∈ l → c ∈ concat ls.
Proof. induction 1; simpl; rewrite elem_of_app; auto. Qed.
Lemma read_lines_nocr t : Forall (λ l, 13%N ∉ l) (read_lines t).
Proof.
  apply Forall_forall. intros l Hl Hin. apply (univ_nl_nocr t).
  rewrite <-(lines_of_concat (univ_nl t)). by eapply elem_concat_lines.
Qed.

Lemma read_lines_write raw t : raw_ok raw →
  read_lines (cfg_write raw t) = map (write_line raw) (read_lines t).
Proof.
  intros Hraw. unfold cfg_write.
  destruct (map_write_ok raw (read_lines t) Hraw) as [H1 H2]; [apply lines_of_ok|apply read_lines_nocr|].
  unfold read_lines at 1. rewrite univ_nl_id by done. by apply lines_ok_inverse.
Qed.

Lemma fold_write_lookup raw ls k v r :
  (∀ k v, raw !! k = Some v → stripped v) → raw !! k = Some v →
  file_mentions ls k → fold_left read_line (map (write_line raw) ls) r !! k = Some v.
Proof.
  intros Hraw Hk. revert r. induction ls as [|l ls IH] using rev_ind; intros r Hm.
  - destruct Hm as (? & ? & H & _). by apply elem_of_nil in H.
  - rewrite map_app, fold_left_app. simpl. rewrite read_line_kv, option_kv_write by done.
    destruct (option_kv l) as [[k' v']|] eqn:E.
    + destruct (decide (k' = k)) as [->|Hne].
      * rewrite Hk. simpl. apply lookup_insert.
      * rewrite lookup_insert_ne by done. apply IH. destruct Hm as (line & w & [H|H]%elem_of_app & Hw).
        -- by exists line, w.
        -- apply elem_of_list_singleton in H as ->. apply option_kv_assigns in Hw. congruence.
    + apply IH. destruct Hm as (line & w & [H|H]%elem_of_app & Hw).
      * by exists line, w.
      * apply elem_of_list_singleton in H as ->. apply option_kv_assigns in Hw. congruence.
Qed.
Lemma fold_write_lookup_none raw ls k r :
  (∀ k v, raw !! k = Some v → stripped v) → raw !! k = None →
  fold_left read_line (map (write_line raw) ls) r !! k = fold_left read_line ls r !! k.
Proof.
  intros Hraw Hk. induction ls as [|l ls IH] using rev_ind; [done|].
  rewrite map_app, !fold_left_app. simpl. rewrite !read_line_kv, option_kv_write by done.
  destruct (option_kv l) as [[k' v']|] eqn:E; [|done].
  destruct (decide (k' = k)) as [->|Hne].
  - rewrite Hk. simpl. by rewrite !lookup_insert.
  - by rewrite !lookup_insert_ne by done.
Qed.

Lemma cfg_roundtrip raw t k v : raw_ok raw → raw !! k = Some v → file_mentions (read_lines t) k →
  cfg_read ∅ (cfg_write raw t) !! k = Some v.
Proof.
  intros Hraw Hk Hm. unfold cfg_read. rewrite read_lines_write by done.
  apply fold_write_lookup; [|done|done]. intros k' v' H. by apply Hraw in H as [? _].
Qed.
Lemma cfg_roundtrip_other raw t k : raw_ok raw → raw !! k = None →
  cfg_read ∅ (cfg_write raw t) !! k = cfg_read ∅ t !! k.
Proof.
  intros Hraw Hk. unfold cfg_read. rewrite read_lines_write by done.
  apply fold_write_lookup_none; [|done]. intros k' v' H. by apply Hraw in H as [? _].
Qed.
Lemma cfg_write_lines raw t i : raw_ok raw →
  read_lines (cfg_write raw t) !! i = write_line raw <$> read_lines t !! i.
Proof. intros Hraw. rewrite read_lines_write by done. apply list_lookup_fmap. Qed.
Lemma write_line_other raw l : (∀ k v, assigns l k v → raw !! k = None) → write_line raw l = l.
Proof.
  intros H. unfold write_line. destruct (option_kv l) as [[k v]|] eqn:E.
  - pose proof E as Ea. apply option_kv_assigns in Ea. specialize (H _ _ Ea).
    unfold option_kv in E. destruct (is_option_line l); [|done].
    destruct (partition_on _ _). simplify_eq. by rewrite H.
  - unfold option_kv in E. destruct (is_option_line l); [|done]. by destruct (partition_on _ _).
Qed.

(** ** Regular expressions *)
Lemma span_spec f x : ∃ a b, span f x = (a, b) ∧ x = a ++ b ∧ Forall (λ c, f c = true) a
  ∧ (∀ c r, b = c :: r → f c = false).
Proof.
  induction x as [|c x (a & b & E & Hx & Ha & Hb)]; simpl.
  - exists [], []. done.
  - destruct (f c) eqn:Ef.
    + rewrite E. exists (c :: a), b. rewrite Hx. auto.
    + exists [], (c :: x). split; [done|]. split; [done|]. split; [constructor|].
      intros ? ? [= <- <-]. done.
Qed.
Lemma span_app f a b : Forall (λ c, f c = true) a → (∀ c r, b = c :: r → f c = false) →
  span f (a ++ b) = (a, b).
Proof.
  intros Ha Hb. induction Ha as [|c a Hc _ IH]; simpl.
  - destruct b as [|c b]; [done|]. simpl. by rewrite (Hb c b).
  - rewrite Hc, IH. done.
Qed.
Lemma stripped_no_nl_end x : stripped (x ++ [c_nl]) → False.
Proof. intros H. apply stripped_edges in H as [_ H]. specialize (H _ _ eq_refl). done. Qed.

Lemma re_int_spec v : stripped v → re_int v = true ↔ int_syntax v.
Proof.
  intros Hs. unfold re_int, int_syntax. destruct (span_spec is_digit v) as (a & b & -> & -> & Ha & Hb).
  rewrite andb_true_iff, negb_true_iff, bool_decide_eq_false. unfold at_end.
  rewrite bool_decide_eq_true. split.
  - intros [Hne [->| ->]].
    + rewrite app_nil_r in *. done.
    + by apply stripped_no_nl_end in Hs.
  - intros [Hne Hall]. apply Forall_app in Hall as [_ Hb'].
    destruct b as [|c b].
    + rewrite app_nil_r in Hne. auto.
    + inversion_clear Hb' as [|? ? Hc _]. rewrite (Hb c b) in Hc by done. done.
Qed.
Lemma digit_not_dash c : is_digit c = true → c ≠ c_dash.
Proof. by intros H ->. Qed.
Lemma stripped_tail c x : stripped (c :: x) → is_space c = false → (∀ d r, x = d :: r → is_space d = false) → stripped x.
Proof.
  intros H Hc Hx. apply stripped_edges in H as [H1 H2]. apply stripped_edges. split; [done|].
  intros d r ->. apply (H2 d (c :: r)). done.
Qed.
Lemma re_sint_spec v : stripped v →
  re_sint v = true ↔ int_syntax v ∨ ∃ r, v = c_dash :: r ∧ int_syntax r.
Proof.
  intros Hs. unfold re_sint. destruct v as [|c v].
  - split; [done|]. intros [[? _]|(r & ? & _)]; done.
  - destruct (N.eqb_spec c c_dash) as [->|Hn].
    + split.
      * intros Hr. right. exists v. split; [done|]. apply re_int_spec; [|done].
        eapply stripped_tail; [done|done|]. intros d r ->.
        unfold re_int in Hr. simpl in Hr. destruct (is_digit d) eqn:Ed; [|done].
        unfold is_digit in Ed. unfold is_space. apply andb_true_iff in Ed as [E1 E2].
        apply N.leb_le in E1, E2.
        repeat (rewrite orb_false_iff || rewrite andb_false_iff || rewrite N.leb_gt || rewrite N.eqb_neq). lia.
      * intros [[_ H]|(r & [= ->] & H)].
        -- inversion_clear H as [|? ? Hc _]. done.
        -- apply re_int_spec; [|done]. eapply stripped_tail; [done|done|].
           intros d r' ->. destruct H as [_ H]. inversion_clear H as [|? ? Hd _].
           unfold is_digit in Hd. unfold is_space. apply andb_true_iff in Hd as [E1 E2].
           apply N.leb_le in E1, E2.
           repeat (rewrite orb_false_iff || rewrite andb_false_iff || rewrite N.leb_gt || rewrite N.eqb_neq). lia.
    + rewrite re_int_spec by done. split; [by left|]. intros [?|(r & [= ? ?] & _)]; done.
Qed.
Lemma re_abs_spec v : re_abs v = true ↔ abs_syntax v.
Proof.
  unfold re_abs, abs_syntax. rewrite orb_true_iff, !startswith_spec. split.
  - intros [[k ->]|[k ->]]; exists k; [by left|by right].
  - intros (r & [-> | ->]); [left|right]; by exists r.
Qed.

(** Membership of a character in one of the case classes. *)
Lemma ci_prefix p : (ci_K p || ci_M p || ci_G p) = true ↔ p ∈ [75; 107; 8490; 77; 109; 71; 103]%N.
Proof.
  unfold ci_K, ci_M, ci_G. rewrite !orb_true_iff, !N.eqb_eq, !elem_of_cons, elem_of_nil. tauto.
Qed.
Lemma ci_B_spec b : ci_B b = true ↔ b ∈ [66; 98]%N.
Proof. unfold ci_B. rewrite !orb_true_iff, !N.eqb_eq, !elem_of_cons, elem_of_nil. tauto. Qed.
Lemma ci_I_spec b : ci_I b = true ↔ b ∈ [73; 105; 304; 305]%N.
Proof. unfold ci_I. rewrite !orb_true_iff, !N.eqb_eq, !elem_of_cons, elem_of_nil. tauto. Qed.

Definition unit_syntax (u : str) : Prop :=
  u = [] ∨ (∃ b, b ∈ [66; 98]%N ∧ u = [b])
  ∨ ∃ i b, i ∈ [73; 105; 304; 305]%N ∧ b ∈ [66; 98]%N ∧ u = [i; b].

Lemma B_not_nl b : b ∈ [66; 98]%N → b ≠ c_nl.
Proof. intros H ->. by apply (bool_decide_pack _) in H. Qed.

Lemma re_unit_spec u un : (∀ r, u ≠ r ++ [c_nl]) →
  re_unit u = Some un ↔ u = un ∧ unit_syntax u.
Proof.
  intros Hnl. unfold re_unit, at_end.
  assert (∀ x r, u = x ++ r → r = [] ∨ r = [c_nl] → r = []) as Hend.
  { intros x r -> [?| ->]; [done|]. by destruct (Hnl x). }
  destruct u as [|b [|b' [|b'' r]]].
  - split; [intros [= <-]; split; [done|by left]|]. intros [<- _]. done.
  - destruct (ci_B b) eqn:Eb; simpl.
    + apply ci_B_spec in Eb. split; [intros [= <-]; split; [done|right; left; eauto]|by intros [<- _]].
    + rewrite bool_decide_false by (intros [?|?]; [done|simplify_eq; by destruct (Hnl [])]).
      split; [done|]. intros [<- [?|[(b0 & Hb & [= ->])|(i & b0 & _ & _ & ?)]]]; try done.
      apply ci_B_spec in Hb. congruence.
  - rewrite (bool_decide_false ([b'] = [] ∨ [b'] = [c_nl])), andb_false_r.
    2:{ intros [?|?]; [done|]. simplify_eq. by destruct (Hnl [b]). }
    rewrite (bool_decide_true ([] = [] ∨ _)) by auto. rewrite andb_true_r.
    rewrite (bool_decide_false ([b; b'] = [] ∨ _)) by naive_solver.
    destruct (ci_I b && ci_B b') eqn:E.
    + apply andb_true_iff in E as [E1 E2]. apply ci_I_spec in E1. apply ci_B_spec in E2.
      split; [intros [= <-]; split; [done|right; right; eauto]|by intros [<- _]].
    + split; [done|]. intros [<- [?|[(b0 & _ & ?)|(i & b0 & Hi & Hb & [= -> ->])]]]; try done.
      apply ci_I_spec in Hi. apply ci_B_spec in Hb. by rewrite Hi, Hb in E.
  - rewrite (bool_decide_false (_ :: _ :: r = [] ∨ _)), andb_false_r by naive_solver.
    rewrite (bool_decide_false (b'' :: r = [] ∨ _)), andb_false_r.
    2:{ intros H. apply (Hend [b; b']) in H; done. }
    rewrite (bool_decide_false (_ :: _ :: _ :: r = [] ∨ _)) by naive_solver.
    split; [done|]. intros [_ [?|[(b0 & _ & ?)|(i & b0 & _ & _ & ?)]]]; done.
Qed.

Lemma digit_not_space c : is_digit c = true → is_space c = false.
Proof.
  unfold is_digit, is_space. rewrite andb_true_iff, !N.leb_le. intros [? ?].
  repeat (rewrite orb_false_iff || rewrite andb_false_iff || rewrite N.leb_gt || rewrite N.eqb_neq). lia.
Qed.
Lemma space_not_digit c : is_space c = true → is_digit c = false.
Proof. intros H. destruct (is_digit c) eqn:E; [|done]. apply digit_not_space in E. congruence. Qed.
Lemma prefix_not_special p : p ∈ [75; 107; 8490; 77; 109; 71; 103]%N → is_space p = false ∧ is_digit p = false.
Proof.
  rewrite !elem_of_cons, elem_of_nil. intros [->|[->|[->|[->|[->|[->|[->|[]]]]]]]]; done.
Qed.

Lemma re_limit_spec v num p u : stripped v →
  re_limit v = Some (num, p, u) ↔
  ∃ blanks, v = num ++ blanks ++ p :: u ∧ num ≠ [] ∧ Forall (λ c, is_digit c = true) num
    ∧ Forall blankP blanks ∧ p ∈ [75; 107; 8490; 77; 109; 71; 103]%N ∧ unit_syntax u.
Proof.
  intros Hs. unfold re_limit. split.
  - destruct (span_spec is_digit v) as (ds & r & -> & -> & Hd & Hr).
    destruct ds as [|d ds]; [done|].
    destruct (lstrip_by_spec is_space r) as (s & Er & Hsp & Hl).
    destruct (lstrip_by is_space r) as [|p' u'] eqn:El; [done|].
    destruct (ci_K p' || ci_M p' || ci_G p') eqn:Ep; [|done]. apply ci_prefix in Ep.
    destruct (re_unit u') as [un|] eqn:Eu; [|done]. intros [= <- <- <-].
    apply re_unit_spec in Eu as [<- Hu].
    + exists s. rewrite Er. done.
    + intros r' ->. rewrite Er in Hs. eapply (stripped_no_nl_end ((d :: ds) ++ s ++ p' :: r')).
      rewrite <-!app_assoc. simpl. done.
  - intros (s & -> & Hne & Hd & Hsp & Hp & Hu).
    destruct (prefix_not_special _ Hp) as [Hps Hpd].
    rewrite span_app; [|done|].
    2:{ intros c r E. destruct s as [|c' s]; simpl in E; injection E as <- <-; [done|].
        inversion_clear Hsp as [|? ? H _]. by apply space_not_digit. }
    destruct num as [|d num]; [done|].
    rewrite lstrip_by_app by done. simpl. rewrite Hps.
    apply ci_prefix in Hp. rewrite Hp.
    assert (re_unit u = Some u) as ->; [|done].
    apply re_unit_spec; [|done]. intros r ->.
    eapply (stripped_no_nl_end ((d :: num) ++ s ++ p :: r)).
    rewrite <-!app_assoc. simpl. done.
Qed.

Lemma limit_syntax_spec v : stripped v →
  (match re_limit v with Some _ => false | None => true end) = false ↔ limit_syntax v.
Proof.
  intros Hs. split.
  - destruct (re_limit v) as [[[num p] u]|] eqn:E; [|done]. intros _.
    apply re_limit_spec in E as (s & -> & ? & ? & ? & ? & ?); [|done]. by exists num, s, p, u.
  - intros (num & s & p & u & Hv & ? & ? & ? & ? & ?).
    assert (re_limit v = Some (num, p, u)) as ->; [|done].
    apply re_limit_spec; [done|]. by exists s.
Qed.

(** ** check_value and check_all *)
Lemma bool_key_check k v : k ∈ bool_keys →
  check_value k v = false ↔ bool_syntax v.
Proof.
  intros Hk. unfold check_value.
  assert (k ∉ required_keys ∧ k ≠ lit "LocalDir" ∧ k ≠ lit "RemoteDir" ∧ k ≠ lit "StorageLimit"
          ∧ k ≠ lit "SyncInterval" ∧ k ≠ lit "PriorityHalfLife" ∧ k ≠ lit "TrashCleanupPeriod") as (H1&H2&H3&H4&H5&H6&H7).
  { unfold bool_keys in Hk. rewrite !elem_of_cons, elem_of_nil in Hk.
    destruct Hk as [->|[->|[->|[]]]]; repeat split; by apply (bool_decide_unpack _). }
  rewrite (bool_decide_true (k ∈ bool_keys)) by done.
  rewrite !(bool_decide_false (k ∈ _)), !(bool_decide_false (k = _)) by done.
  unfold bool_syntax. cbn [andb].
  destruct (decide (v = [])) as [->|Hv].
  - split; [by left|done].
  - rewrite (bool_decide_false (v = [])) by done. cbn [andb negb].
    case_bool_decide as E; simpl.
    + split; [|done]. intros _. unfold TRUE_VALS, FALSE_VALS in E. simpl in E.
      rewrite !elem_of_cons, elem_of_nil in E. tauto.
    + split; [done|]. intros H. exfalso. apply E. unfold TRUE_VALS, FALSE_VALS. simpl.
      rewrite !elem_of_cons, elem_of_nil. tauto.
Qed.

Lemma int_syntax_ne v : int_syntax v → v ≠ [].
Proof. by intros [? _]. Qed.
Lemma abs_syntax_ne v : abs_syntax v → v ≠ [].
Proof. by intros (r & [->| ->]). Qed.
Lemma limit_syntax_ne v : limit_syntax v → v ≠ [].
Proof. intros (ds & s & p & u & -> & H & _). by destruct ds. Qed.

Ltac nokey :=
  intros; repeat match goal with H : _ ∨ _ |- _ => destruct H end;
  match goal with H : @eq (list N) _ _ |- _ => exfalso; vm_compute in H; discriminate H end.

Lemma check_value_spec k v : k ∈ all_keys → stripped v → check_value k v = false ↔ value_syntax k v.
Proof.
  intros Hk Hs. unfold value_syntax.
  destruct (decide (k ∈ bool_keys)) as [Hb|Hb].
  - rewrite bool_key_check by done. unfold bool_keys in Hb.
    rewrite !elem_of_cons, elem_of_nil in Hb.
    split.
    + intros H. split; [done|].
      destruct Hb as [->|[->|[->|[]]]]; (repeat split); nokey.
    + intros [H _]. apply H. unfold bool_keys. rewrite !elem_of_cons, elem_of_nil. done.
  - unfold all_keys, required_keys, optional_keys in Hk. simpl in Hk.
    rewrite !elem_of_cons, elem_of_nil in Hk.
    unfold check_value. rewrite (bool_decide_false (k ∈ bool_keys)) by done. cbn [andb].
    destruct Hk as [->|[->|[->|[->|[->|[->|[->|[->|[->|[]]]]]]]]]];
      try (exfalso; apply Hb; by apply (bool_decide_unpack _)).
    + (* LocalDir *)
      rewrite (bool_decide_true (_ ∈ required_keys)) by by apply (bool_decide_unpack _).
      rewrite (bool_decide_true (lit "LocalDir" = _)) by done. cbn [andb].
      case_bool_decide as Ev.
      * split; [done|]. intros (_ & H & _). subst. exfalso. by apply (abs_syntax_ne []); auto.
      * rewrite negb_false_iff, re_abs_spec. split; [|intros (_ & H & _); auto].
        intros H. split; [intros ?; done|]. split; [done|]. split; [nokey|]. split; nokey.
    + rewrite (bool_decide_true (_ ∈ required_keys)) by by apply (bool_decide_unpack _).
      rewrite (bool_decide_false (lit "RemoteDir" = lit "LocalDir")) by done.
      rewrite (bool_decide_true (lit "RemoteDir" = _)) by done. cbn [andb].
      case_bool_decide as Ev.
      * split; [done|]. intros (_ & H & _). subst. exfalso. by apply (abs_syntax_ne []); auto.
      * rewrite negb_false_iff, re_abs_spec. split; [|intros (_ & H & _); auto].
        intros H. split; [intros ?; done|]. split; [done|]. split; [nokey|]. split; nokey.
    + rewrite (bool_decide_true (_ ∈ required_keys)) by by apply (bool_decide_unpack _).
      rewrite (bool_decide_false (lit "StorageLimit" = lit "LocalDir")) by done.
      rewrite (bool_decide_false (lit "StorageLimit" = lit "RemoteDir")) by done.
      rewrite (bool_decide_true (lit "StorageLimit" = _)) by done. cbn [andb].
      case_bool_decide as Ev.
      * split; [done|]. intros (_ & _ & H & _). subst. exfalso. by apply (limit_syntax_ne []); auto.
      * rewrite limit_syntax_spec by done. split; [|intros (_ & _ & H & _); auto].
        intros H. split; [intros ?; done|]. split; [nokey|]. split; [done|]. split; nokey.
    + rewrite (bool_decide_false (_ ∈ required_keys)) by by apply (bool_decide_unpack _).
      cbn [andb]. cbv iota.
      rewrite !(bool_decide_false (lit "SyncInterval" = _)) by done.
      rewrite (bool_decide_true (lit "SyncInterval" = _)) by done.
      rewrite negb_false_iff, re_int_spec by done. split; [|intros (_ & _ & _ & H & _); auto].
      intros H. split; [intros ?; done|]. split; [nokey|]. split; [nokey|]. split; [done|nokey].
    + rewrite (bool_decide_false (_ ∈ required_keys)) by by apply (bool_decide_unpack _).
      cbn [andb]. cbv iota.
      rewrite !(bool_decide_false (lit "PriorityHalfLife" = _)) by done.
      rewrite (bool_decide_true (lit "PriorityHalfLife" = _)) by done.
      rewrite negb_false_iff, re_int_spec by done. split; [|intros (_ & _ & _ & H & _); auto].
      intros H. split; [intros ?; done|]. split; [nokey|]. split; [nokey|]. split; [done|nokey].
    + rewrite (bool_decide_false (_ ∈ required_keys)) by by apply (bool_decide_unpack _).
      cbn [andb]. cbv iota.
      rewrite !(bool_decide_false (lit "TrashCleanupPeriod" = _)) by done.
      rewrite (bool_decide_true (lit "TrashCleanupPeriod" = _)) by done.
      rewrite negb_false_iff, re_sint_spec by done. split; [|intros (_ & _ & _ & _ & H); auto].
      intros H. split; [intros ?; done|]. split; [nokey|]. split; [nokey|]. split; [nokey|done].
Qed.

Lemma filter_nil {A} (f : A → bool) l : List.filter f l = [] ↔ ∀ x, x ∈ l → f x = false.
Proof.
  induction l as [|a l IH]; simpl.
  - split; [by intros _ x ?%elem_of_nil|done].
  - setoid_rewrite elem_of_cons. destruct (f a) eqn:E.
    + split; [done|]. intros H. rewrite H in E by auto. done.
    + rewrite IH. naive_solver.
Qed.

Lemma check_all_spec raw : (∀ k v, raw !! k = Some v → stripped v) →
  check_all true raw = true ↔
    (∃ k, k ∈ required_keys ∧ raw !! k = None)
    ∨ (∃ k v, raw !! k = Some v ∧ k ∉ all_keys)
    ∨ (∃ k v, raw !! k = Some v ∧ k ∈ all_keys ∧ ¬ value_syntax k v).
Proof.
  intros Hs. unfold check_all. rewrite !orb_true_iff, !negb_true_iff, !bool_decide_eq_false.
  assert (∀ A (f : A → bool) l, List.filter f l ≠ [] ↔ ∃ x, x ∈ l ∧ f x = true) as Hne.
  { intros A f l. split.
    - destruct (List.filter f l) as [|x r] eqn:E; [done|]. intros _. exists x.
      assert (In x (List.filter f l)) as Hin by (rewrite E; by left).
      apply filter_In in Hin as [? ?]. by rewrite elem_of_list_In.
    - intros (x & Hx & Hf) E. rewrite filter_nil in E. rewrite E in Hf; done. }
  rewrite !Hne. simpl. split.
  - intros [[(k & Hk & Hr)|(k & Hk & Hr)]|([k v] & Hk & Hr)].
    + left. exists k. by apply bool_decide_eq_true in Hr.
    + right; left. apply elem_of_list_fmap in Hk as ([k' v] & -> & Hk).
      apply elem_of_map_to_list in Hk. exists k', v. split; [done|].
      by apply negb_true_iff, bool_decide_eq_false in Hr.
    + apply elem_of_map_to_list in Hk. simpl in Hr.
      destruct (decide (k ∈ all_keys)) as [Ha|Ha].
      * right; right. exists k, v. split; [done|]. split; [done|].
        rewrite <-check_value_spec by eauto. by rewrite Hr.
      * right; left. by exists k, v.
  - intros [(k & Hk & Hr)|[(k & v & Hk & Hr)|(k & v & Hk & Ha & Hr)]].
    + left; left. exists k. by rewrite bool_decide_eq_true.
    + left; right. exists k. split; [|by apply negb_true_iff, bool_decide_eq_false].
      apply elem_of_list_fmap. exists (k, v). split; [done|]. by apply elem_of_map_to_list.
    + right. exists (k, v). split; [by apply elem_of_map_to_list|]. simpl.
      destruct (check_value k v) eqn:E; [done|]. apply check_value_spec in E; eauto.
Qed.

(** Everything that [read] stores is stripped. *)
Lemma cfg_read_stripped raw content :
  (∀ k v, raw !! k = Some v → stripped v) →
  ∀ k v, cfg_read raw content !! k = Some v → stripped v.
Proof.
  unfold cfg_read. intros Hraw. revert raw Hraw.
  induction (read_lines content) as [|l ls IH]; intros raw Hraw; simpl; [done|].
  apply IH. intros k v. rewrite read_line_kv. destruct (option_kv l) as [[k' v']|] eqn:E; [|apply Hraw].
  apply option_kv_assigns in E as [_ (a & b & _ & _ & _ & <-)].
  intros [[-> <-]|[_ H]]%lookup_insert_Some; [apply strip_idem|by eapply Hraw].
Qed.

(** ** Getters *)
Definition canonical_limit (v : str) : Prop :=
  ∃ ds sp p u, v = ds ++ sp ++ p :: u ∧ ds ≠ [] ∧ Forall (λ c, is_digit c = true) ds
    ∧ Forall (λ c, is_space c = true) sp ∧ p ∈ [107; 75; 77; 71]%N
    ∧ u ∈ [[]; lit "B"; lit "iB"].

Lemma storage_limit_canonical v : stripped v → canonical_limit v →
  ∃ n, storage_limit v = inl n ∧ limit_denotes v n.
Proof.
  intros Hs (ds & s & p & u & Hv & Hne & Hd & Hsp & Hp & Hu).
  assert (unit_syntax u) as Hus.
  { rewrite !elem_of_cons, elem_of_nil in Hu. destruct Hu as [->|[->|[->|[]]]].
    - by left.
    - right; left. exists 66%N. split; [by apply (bool_decide_unpack _)|done].
    - right; right. exists 105%N, 66%N. split; [by apply (bool_decide_unpack _)|].
      split; [by apply (bool_decide_unpack _)|done]. }
  assert (re_limit v = Some (ds, p, u)) as E.
  { apply re_limit_spec; [done|]. exists s. do 4 (split; [done|]). split; [|done].
    rewrite !elem_of_cons, elem_of_nil in *. naive_solver. }
  unfold storage_limit. rewrite E.
  assert (∃ base, limit_unit u base ∧
    (if bool_decide (u = lit "iB") || bool_decide (u = []) then Some 1024%N
        else if bool_decide (u = lit "B") then Some 1000%N else None) = Some base) as (base & Hb1 & ->).
  { rewrite !elem_of_cons, elem_of_nil in Hu. destruct Hu as [->|[->|[->|[]]]].
    - exists 1024%N. split; [constructor|done].
    - exists 1000%N. split; [by constructor|done].
    - exists 1024%N. split; [by constructor|done]. }
  assert (∃ e, limit_prefix p e ∧
    (if (p =? 107)%N || (p =? 75)%N then Some 1%N
        else if (p =? 77)%N then Some 2%N
        else if (p =? 71)%N then Some 3%N else None) = Some e) as (e & He1 & ->).
  { rewrite !elem_of_cons, elem_of_nil in Hp. destruct Hp as [->|[->|[->|[->|[]]]]].
    - exists 1%N. split; [by constructor|done].
    - exists 1%N. split; [by constructor|done].
    - exists 2%N. split; [by constructor|done].
    - exists 3%N. split; [by constructor|done]. }
  eexists. split; [done|]. exists ds, s, p, u, base, e. done.
Qed.

Lemma storage_limit_total v : stripped v → re_limit v ≠ None →
  (canonical_limit v ∧ ∃ n, storage_limit v = inl n ∧ limit_denotes v n)
  ∨ (¬ canonical_limit v ∧ storage_limit v = inr UnboundLocalError).
Proof.
  intros Hs Hr. destruct (re_limit v) as [[[ds p] u]|] eqn:E; [|done].
  destruct (decide (p ∈ [107; 75; 77; 71]%N ∧ u ∈ [[]; lit "B"; lit "iB"])) as [[Hp Hu]|Hno].
  - assert (canonical_limit v).
    { apply re_limit_spec in E as (s & -> & ? & ? & ? & ? & ?); [|done]. by exists ds, s, p, u. }
    left. split; [done|]. by apply storage_limit_canonical.
  - right. split.
    + intros (ds' & s' & p' & u' & Hv & Hne & Hd & Hsp & Hp & Hu). apply Hno.
      assert (re_limit v = Some (ds', p', u')) as E'; [|rewrite E in E'; naive_solver].
      apply re_limit_spec; [done|]. exists s'. do 4 (split; [done|]). split.
      * rewrite !elem_of_cons, elem_of_nil in *. naive_solver.
      * rewrite !elem_of_cons, elem_of_nil in Hu. destruct Hu as [->|[->|[->|[]]]].
        -- by left.
        -- right; left. exists 66%N. split; [by apply (bool_decide_unpack _)|done].
        -- right; right. exists 105%N, 66%N. split; [by apply (bool_decide_unpack _)|].
           split; [by apply (bool_decide_unpack _)|done].
    + unfold storage_limit. rewrite E. rewrite !elem_of_cons, !elem_of_nil in Hno.
      repeat case_bool_decide; simpl; try done;
      repeat match goal with |- context [(p =? ?n)%N] => destruct (N.eqb_spec p n) end; simpl; try done;
      exfalso; apply Hno; subst; tauto.
Qed.

(** Two readings of a text as a limit agree. *)
Lemma parse_N_0 : parse_N [] = 0%N. Proof. done. Qed.

Lemma convert_bool_lower v : bool_syntax v → lower v = v → v ≠ [] →
  convert_bool v = Some (bool_decide (lower v = lit "yes" ∨ lower v = lit "true")).
Proof.
  intros [?|[E|[E|[E|E]]]] Hl Hne; [done|..]; rewrite Hl in *; subst; done.
Qed.

(** [int] inverts decimal notation. *)
Lemma py_int_show d : py_int (show_N d) = d.
Proof.
  unfold py_int. assert (strip (show_N d) = show_N d) as ->; [|apply parse_show_N].
  apply stripped_edges. pose proof (show_N_digits d) as H. rewrite Forall_forall in H.
  assert (∀ c, c ∈ show_N d → is_space c = false) as Hs.
  { intros c Hc%H. unfold is_digit in Hc. apply andb_true_iff in Hc as [H1%N.leb_le H2%N.leb_le].
    assert (c ∈ (λ i, 48 + N.of_nat i)%N <$> seq 0 10) as Hin.
    { apply elem_of_list_fmap. exists (N.to_nat (c - 48)). split; [lia|]. apply elem_of_seq. lia. }
    clear -Hin. repeat (apply elem_of_cons in Hin as [->|Hin]; [done|]). by apply elem_of_nil in Hin. }
  split; intros c r E; apply Hs; [rewrite E; left|]. rewrite E. set_solver.
Qed.
