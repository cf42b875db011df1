(** C62: the table that [list] prints. *)
From Verif Require Import Table.
From stdpp Require Import options.

(** What a terminal shows of a line: everything but the codes that set
    attributes, [ESC [ parameters m]. *)
Definition code (s : str) (rest : str) : Prop :=
  ∃ ps, ps ≠ [] ∧ Forall (λ c, (48 ≤ c ≤ 57)%N ∨ c = 59%N) ps ∧ s = [27%N; 91%N] ++ ps ++ [109%N] ++ rest.
Inductive shows : str → str → Prop :=
| shows_nil : shows [] []
| shows_code s r v : code s r → shows r v → shows s v
| shows_char c s v : (∀ r, ¬ code (c :: s) r) → shows s v → shows (c :: s) (c :: v).

Lemma is_param_spec c : is_param c = true ↔ (48 ≤ c ≤ 57)%N ∨ c = 59%N.
Proof. unfold is_param. rewrite orb_true_iff, !bool_decide_eq_true. done. Qed.
Lemma ansi_body_spec s b r : ansi_body s b = Some r ↔
  ∃ ps, (b = true ∨ ps ≠ []) ∧ Forall (λ c, (48 ≤ c ≤ 57)%N ∨ c = 59%N) ps ∧ s = ps ++ [109%N] ++ r.
Proof.
  revert b. induction s as [|c s IH]; intros b; simpl.
  { split; [done|]. by intros ([|??] & _ & _ & ?). }
  destruct (is_param c) eqn:Hc.
  - rewrite IH. apply is_param_spec in Hc. split.
    + intros (ps & _ & Hf & ->). exists (c :: ps). split; [by right|]. split; [by constructor|done].
    + intros (ps & Hb & Hf & E). destruct ps as [|p ps]; simpl in E; injection E as -> ->.
      * exfalso. lia.
      * inversion Hf. exists ps. auto.
  - assert (¬ ((48 ≤ c ≤ 57)%N ∨ c = 59%N)) as Hn by (rewrite <-is_param_spec; congruence).
    split.
    + destruct (bool_decide _ && b) eqn:E; [|done]. apply andb_true_iff in E as [->%bool_decide_eq_true ->].
      intros [= ->]. exists []. auto.
    + intros (ps & Hb & Hf & E). destruct ps as [|p ps]; simpl in E; injection E as -> ->.
      * destruct Hb as [->|?]; done.
      * inversion Hf. done.
Qed.
Lemma ansi_match_spec s r : ansi_match s = Some r ↔ code s r.
Proof.
  unfold ansi_match, code. destruct s as [|e [|b s]]; [split; [done|by intros (?&?&?&?)]..|].
  destruct (bool_decide (e = 27%N) && bool_decide (b = 91%N)) eqn:E.
  - apply andb_true_iff in E as [->%bool_decide_eq_true ->%bool_decide_eq_true]. rewrite ansi_body_spec.
    split; intros (ps & H1 & H2 & H3); exists ps; [destruct H1; [done|]|]; split_and!; auto; simpl in *; congruence.
  - split; [done|]. intros (ps & _ & _ & E'). simpl in E'. injection E' as -> -> _. done.
Qed.
Lemma code_shorter s r : code s r → length r < length s.
Proof. intros (ps & _ & _ & ->). rewrite !app_length. simpl. lia. Qed.
Lemma ansi_sub_shows n s : length s ≤ n → shows s (ansi_sub n s).
Proof.
  revert s. induction n as [|n IH]; intros s Hn; [destruct s; [constructor|simpl in Hn; lia]|].
  destruct s as [|c s]; [constructor|]. cbn [ansi_sub]. destruct (ansi_match (c :: s)) as [r|] eqn:E.
  - apply ansi_match_spec in E. pose proof (code_shorter _ _ E). eapply shows_code; [done|]. apply IH. simpl in *. lia.
  - constructor; [|apply IH; simpl in *; lia]. intros r Hr. apply ansi_match_spec in Hr. congruence.
Qed.
Lemma code_det s r r' : code s r → code s r' → r = r'.
Proof. rewrite <-!ansi_match_spec. congruence. Qed.
Lemma shows_det s v v' : shows s v → shows s v' → v = v'.
Proof.
  intros H. revert v'. induction H as [|s r v Hc H IH|c s v Hc H IH]; intros v' H'.
  - inversion H' as [|??? Hc|]; [done|]. by destruct Hc as (?&?&?&?).
  - inversion H' as [|??? Hc'|??? Hc']; subst.
    + by destruct Hc as (?&?&?&?).
    + apply IH. by rewrite (code_det _ _ _ Hc Hc').
    + by destruct (Hc' _ Hc).
  - inversion H' as [|??? Hc'|??? Hc']; subst; [by destruct (Hc _ Hc')|]. f_equal. by apply IH.
Qed.
Lemma visible_shows s v : shows s v ↔ v = visible s.
Proof.
  assert (shows s (visible s)) as H by by apply ansi_sub_shows.
  split; [|by intros ->]. intros H'. by eapply shows_det.
Qed.

(** A character that cannot be part of a code splits a text. *)
Definition plain (c : N) : bool := negb (is_param c) && negb (bool_decide (c = 109%N)) && negb (bool_decide (c = 27%N)) && negb (bool_decide (c = 91%N)).
Lemma code_app s t r : code s r → code (s ++ t) (r ++ t).
Proof. intros (ps & ? & ? & ->). exists ps. split_and!; [done..|]. by rewrite <-!app_assoc. Qed.
Lemma code_plain s c t r : plain c = true → code (s ++ c :: t) r → ∃ r', r = r' ++ c :: t ∧ code s r'.
Proof.
  intros Hc. rewrite <-!ansi_match_spec. unfold plain in Hc. rewrite !andb_true_iff, !negb_true_iff, !bool_decide_eq_false in Hc.
  destruct Hc as [[[H1 H2] H3] H4]. unfold ansi_match.
  destruct s as [|e [|b s]]; simpl.
  - destruct t as [|b t]; [done|]. rewrite (bool_decide_false (c = _)) by done. done.
  - rewrite (bool_decide_false (c = 91%N)) by done. by rewrite andb_false_r.
  - destruct (_ && _) eqn:E; [|done]. setoid_rewrite <-ansi_match_spec. simpl. rewrite E. clear E.
    generalize false. induction s as [|x s IH]; intros k; simpl.
    + by rewrite H1, bool_decide_false.
    + destruct (is_param x); [apply IH|]. destruct (bool_decide (x = 109%N) && k); [|done]. intros [= <-]. eauto.
Qed.
Lemma shows_split s c t v1 v2 : plain c = true → shows s v1 → shows t v2 → shows (s ++ c :: t) (v1 ++ c :: v2).
Proof.
  intros Hc H1 H2. induction H1 as [|s r v Hs H IH|x s v Hs H IH].
  - simpl. constructor; [|done]. intros r Hr. apply (code_plain [] c t r Hc) in Hr as (? & _ & Hr). by destruct Hr as (?&?&?&?).
  - eapply shows_code; [|exact IH]. by apply code_app.
  - simpl. constructor; [|done]. intros r Hr. apply (code_plain (x :: s) c t r Hc) in Hr as (? & _ & Hr). by eapply Hs.
Qed.
Lemma visible_split s c t : plain c = true → visible (s ++ c :: t) = visible s ++ c :: visible t.
Proof. intros Hc. symmetry. apply visible_shows, shows_split; [done|by apply visible_shows..]. Qed.
Lemma visible_plain s : Forall (λ c, plain c = true) s → visible s = s.
Proof. induction 1 as [|c s Hc H IH]; [done|]. change (c :: s) with ([] ++ c :: s) at 1. rewrite visible_split, IH; done. Qed.
Lemma visible_app_plain s t : Forall (λ c, plain c = true) t → visible (s ++ t) = visible s ++ t.
Proof.
  intros H. destruct H as [|c t Hc Ht]; [by rewrite !app_nil_r|]. rewrite visible_split by done. by rewrite (visible_plain t).
Qed.
Lemma visible_code s r : code s r → visible s = visible r.
Proof. intros H. symmetry. apply visible_shows. eapply shows_code; [done|]. by apply visible_shows. Qed.

(** Widths *)
Definition width (s : str) : nat := length (visible s).
Lemma width_join (sep : str) l : Forall (λ c, plain c = true) sep → sep ≠ [] →
  width (join_with sep l) = sum_list (map width l) + (length l - 1) * length sep.
Proof.
  intros Hs Hne. induction l as [|x l IH]; [done|]. destruct l as [|y l]; [simpl; lia|].
  change (join_with sep (x :: y :: l)) with (x ++ sep ++ join_with sep (y :: l)).
  assert (width (x ++ sep ++ join_with sep (y :: l)) = width x + length sep + width (join_with sep (y :: l))) as ->.
  { generalize (join_with sep (y :: l)) as j. intros j. unfold width. destruct Hs as [|c sep Hc Hs]; [done|].
    simpl app. rewrite visible_split by done. rewrite app_length. simpl.
    assert (length (visible (sep ++ j)) = length sep + length (visible j)) as E; [|lia].
    destruct (decide (sep = [])) as [->|Hn]; [done|].
    destruct (exists_last Hn) as (s' & c' & ->). apply Forall_app in Hs as [Hs' [Hc' _]%Forall_cons].
    rewrite <-app_assoc. simpl app. rewrite visible_split by done. rewrite (visible_plain s') by done.
    rewrite !app_length. simpl. lia. }
  rewrite IH. simpl. lia.
Qed.
Lemma width_wrap a b s : plain a = true → plain b = true → width ([a] ++ s ++ [b]) = width s + 2.
Proof.
  intros Ha Hb. unfold width. change ([a] ++ s ++ [b]) with ([] ++ a :: (s ++ [b])).
  rewrite visible_split by done. rewrite visible_split by done. rewrite !app_length. simpl. rewrite app_length. simpl. lia.
Qed.
Lemma plain_replicate n c : plain c = true → Forall (λ c, plain c = true) (replicate n c).
Proof. intros Hc. by apply Forall_replicate. Qed.
Lemma width_separator a b c lens : plain a = true → plain b = true → plain c = true → lens ≠ [] →
  width ([a] ++ join_with [c] (separator lens) ++ [b]) = sum_list lens + 3 * length lens + 1.
Proof.
  intros Ha Hb Hc Hn. rewrite width_wrap, width_join by (done || by repeat constructor).
  unfold separator. rewrite map_length, map_map.
  assert (∀ l, sum_list (map (λ n, width (replicate (n + 2) ch_h)) l) = sum_list l + 2 * length l) as E.
  { induction l as [|n l IH]; [done|]. simpl. rewrite IH. unfold width.
    rewrite visible_plain by by apply plain_replicate. rewrite replicate_length. lia. }
  rewrite E. destruct lens; [done|]. simpl. lia.
Qed.
Lemma width_padded t n : width t ≤ n → width (t ++ replicate (n - length (visible t)) 32%N) = n.
Proof.
  intros H. unfold width in *. rewrite visible_app_plain by by apply plain_replicate.
  rewrite app_length, replicate_length. lia.
Qed.
Lemma width_row lens row : length row = length lens → lens ≠ [] → Forall2 (λ t n, width t ≤ n) row lens →
  width (format_row lens row) = sum_list lens + 3 * length lens + 1.
Proof.
  intros Hl Hn Hf. unfold format_row. destruct (any_text row); [|by apply width_separator].
  set (l := zip_with _ row lens).
  assert (map width l = lens) as E.
  { unfold l. clear Hl Hn l. induction Hf as [|t n row lens Ht Hf IH]; [done|]. simpl. f_equal; [|done]. by apply width_padded. }
  assert (length l = length lens) as El by (rewrite <-(map_length width l); by rewrite E).
  assert (width (join_with (lit " " ++ [ch_v] ++ lit " ") l) = sum_list lens + (length lens - 1) * 3) as Hj.
  { rewrite width_join, E, El; [done|by repeat constructor|done]. }
  change ([ch_v] ++ lit " " ++ join_with (lit " " ++ [ch_v] ++ lit " ") l ++ lit " " ++ [ch_v])
    with ([ch_v] ++ ([32%N] ++ join_with (lit " " ++ [ch_v] ++ lit " ") l ++ [32%N] ++ [ch_v])).
  replace ([32%N] ++ join_with (lit " " ++ [ch_v] ++ lit " ") l ++ [32%N] ++ [ch_v])
    with (([32%N] ++ join_with (lit " " ++ [ch_v] ++ lit " ") l ++ [32%N]) ++ [ch_v]) by by rewrite <-!app_assoc.
  rewrite !width_wrap by done. rewrite Hj. destruct lens; [done|]. simpl. lia.
Qed.
Lemma width_header a b s : plain a = true → plain b = true →
  width (header_on ++ ([a] ++ s ++ [b]) ++ header_off) = width ([a] ++ s ++ [b]).
Proof.
  intros Ha Hb. unfold width.
  rewrite (visible_code (header_on ++ ([a] ++ s ++ [b]) ++ header_off) (([a] ++ s ++ [b]) ++ header_off)).
  2: { exists [49%N]. split; [done|]. split; [|done]. constructor; [lia|constructor]. }
  replace (([a] ++ s ++ [b]) ++ header_off) with (([a] ++ s) ++ b :: header_off) by by rewrite <-!app_assoc.
  replace ([a] ++ s ++ [b]) with (([a] ++ s) ++ b :: []) by by rewrite <-!app_assoc.
  rewrite !visible_split by done. done.
Qed.
Lemma format_row_wrap lens row : ∃ a b s, plain a = true ∧ plain b = true ∧ format_row lens row = [a] ++ s ++ [b].
Proof.
  unfold format_row. destruct (any_text row); [|by eexists ch_lt, ch_rt, _].
  exists ch_v, ch_v, (lit " " ++ join_with (lit " " ++ [ch_v] ++ lit " ")
      (zip_with (λ (t : str) n, t ++ replicate (n - length (visible t)) 32%N) row lens) ++ lit " ").
  split; [done|]. split; [done|]. by rewrite <-!app_assoc.
Qed.
Lemma column_lengths_ge data row : row ∈ data → (∀ r, r ∈ data → length r = length (hd [] data)) →
  Forall2 (λ t n, width t ≤ n) row (column_lengths data).
Proof.
  intros Hr Hl. apply Forall2_same_length_lookup_2; [unfold column_lengths; by rewrite map_length, seq_length, Hl|].
  intros i t n Ht Hn. unfold column_lengths in Hn. apply list_lookup_fmap_Some in Hn as (j & Hj & ->).
  apply lookup_seq in Hj as [-> Hj]. apply max_list_elem_of_le, elem_of_list_fmap. exists row. split; [|done].
  simpl. rewrite (nth_lookup_Some row i [] t) by done. done.
Qed.

(** Every table with a heading is printed, one line for every row, and every
    line of it has the same visible width. *)
Theorem C62_table_aligned data :
  data ≠ [] → (∀ r, r ∈ data → length r = length (hd [] data)) →
  ∃ lines n, table_lines data = Some lines ∧ length lines = length data + 3
    ∧ ∀ line v, line ∈ lines → shows line v → length v = n.
Proof.
  intros Hne Hl. destruct data as [|first rows]; [done|]. set (data := first :: rows) in *. set (lens := column_lengths data).
  assert (table_lines data = Some ([top_separator lens; header_on ++ format_row lens first ++ header_off; inside_separator lens]
              ++ map (format_row lens) rows ++ [bottom_separator lens])) as E.
  { unfold table_lines, data. fold data. fold lens.
    assert (forallb (λ r : list str, bool_decide (length r = length first)) data = true) as ->; [|done].
    apply forallb_forall. intros r Hr%elem_of_list_In. by apply bool_decide_eq_true, Hl. }
  rewrite E. eexists _, (if decide (lens = []) then 2 else sum_list lens + 3 * length lens + 1). split; [done|].
  split; [simpl; rewrite app_length, map_length; simpl; lia|].
  intros line v Hin Hv. apply visible_shows in Hv. subst v. fold (width line).
  assert (∀ r, r ∈ data → width (format_row lens r) = if decide (lens = []) then 2 else sum_list lens + 3 * length lens + 1) as Hrow.
  { intros r Hr. pose proof (column_lengths_ge data r Hr Hl) as Hf. fold lens in Hf. destruct (decide (lens = [])) as [En|Hn].
    - rewrite En in *. inversion Hf. done.
    - apply width_row; [|done..]. by eapply Forall2_length. }
  assert (∀ a b c, plain a = true → plain b = true → plain c = true →
    width ([a] ++ join_with [c] (separator lens) ++ [b]) = if decide (lens = []) then 2 else sum_list lens + 3 * length lens + 1) as Hsep.
  { intros a b c Ha Hb Hc. destruct (decide (lens = [])) as [En|Hn]; [|by apply width_separator].
    rewrite En. change (separator []) with (@nil (list N)). simpl join_with. rewrite width_wrap by done. done. }
  rewrite !elem_of_app, !elem_of_cons, elem_of_nil, elem_of_list_fmap in Hin.
  destruct Hin as [[->|[->|[->|[]]]]|[(r & -> & Hr)|[->|Hin]]].
  - by apply Hsep.
  - destruct (format_row_wrap lens first) as (a & b & s & Ha & Hb & Ew). rewrite Ew, width_header by done.
    rewrite <-Ew. apply Hrow. by left.
  - by apply Hsep.
  - apply Hrow. by right.
  - by apply Hsep.
  - done.
Qed.
Print Assumptions C62_table_aligned.
(** Escape codes in the contents, an empty row, and a cell ending like a code. *)
Example C62_ex :
  table_lines [[lit "Profile"; lit "Limit"]; [[27%N] ++ lit "[31mred" ++ [27%N] ++ lit "[0m"; lit "5"]; [[]; []]; [[27%N] ++ lit "[1"; lit "10GB"]]
  = Some (map (λ l, l)
      [ [ch_tl] ++ replicate 9 ch_h ++ [ch_tt] ++ replicate 7 ch_h ++ [ch_tr];
        header_on ++ [ch_v] ++ lit " Profile " ++ [ch_v] ++ lit " Limit " ++ [ch_v] ++ header_off;
        [ch_lt] ++ replicate 9 ch_h ++ [ch_cross] ++ replicate 7 ch_h ++ [ch_rt];
        [ch_v] ++ lit " " ++ [27%N] ++ lit "[31mred" ++ [27%N] ++ lit "[0m     " ++ [ch_v] ++ lit " 5     " ++ [ch_v];
        [ch_lt] ++ replicate 9 ch_h ++ [ch_cross] ++ replicate 7 ch_h ++ [ch_rt];
        [ch_v] ++ lit " " ++ [27%N] ++ lit "[1     " ++ [ch_v] ++ lit " 10GB  " ++ [ch_v];
        [ch_bl] ++ replicate 9 ch_h ++ [ch_bt] ++ replicate 7 ch_h ++ [ch_br] ]).
Proof. vm_compute. reflexivity. Qed.

(** Only the header is emphasized: when no cell has an escape code, the header's
    line begins with the code for bold and ends with the one that switches it
    off, and there are no other codes. *)
Lemma join_with_no c sep l : c ∉ sep → (∀ x, x ∈ l → c ∉ x) → c ∉ join_with sep l.
Proof.
  intros Hs. induction l as [|x l IH]; intros Hl; [apply not_elem_of_nil|].
  destruct l as [|y l]; [apply Hl; left|].
  change (c ∉ x ++ sep ++ join_with sep (y :: l)). rewrite !not_elem_of_app.
  split; [apply Hl; left|]. split; [done|]. apply IH. intros z Hz. apply Hl. by right.
Qed.
Lemma separator_no lens x : x ∈ separator lens → 27%N ∉ x.
Proof. unfold separator. intros (n & -> & _)%elem_of_list_fmap Hi. apply elem_of_replicate in Hi as [? _]. done. Qed.
Lemma wrap_no a b s : a ≠ 27%N → b ≠ 27%N → 27%N ∉ s → 27%N ∉ [a] ++ s ++ [b].
Proof. intros Ha Hb Hs. rewrite !not_elem_of_app, !elem_of_list_singleton. auto. Qed.
Lemma format_row_no lens row : (∀ t : str, t ∈ row → 27%N ∉ t) → 27%N ∉ format_row lens row.
Proof.
  intros Hr. unfold format_row, inside_separator. destruct (any_text row).
  - rewrite (app_assoc (lit " ")), (app_assoc _ (lit " ")). apply wrap_no; [done|done|].
    rewrite !not_elem_of_app. assert (27%N ∉ lit " ") as Hb by (apply (bool_decide_unpack _); vm_compute; exact Logic.I).
    split; [|done]. split; [done|].
    apply join_with_no; [apply (bool_decide_unpack _); vm_compute; exact Logic.I|].
    intros x Hx. revert lens Hx. induction row as [|t row IH]; intros [|n lens] Hx; cbn [zip_with] in Hx;
      try by apply elem_of_nil in Hx.
    apply elem_of_cons in Hx as [->|Hx].
    + rewrite not_elem_of_app. split; [apply Hr; left|]. intros [? _]%elem_of_replicate. done.
    + apply (IH (λ t Ht, Hr t (elem_of_list_further _ _ _ Ht)) lens Hx).
  - apply wrap_no; [done|done|]. apply join_with_no; [apply (bool_decide_unpack _); vm_compute; exact Logic.I|].
    apply separator_no.
Qed.
Theorem C62_header data lines :
  (∀ r t, r ∈ data → t ∈ r → 27%N ∉ t) → table_lines data = Some lines →
  ∃ top s rest, lines = top :: ([27%N] ++ lit "[1m" ++ s ++ [27%N] ++ lit "[0m") :: rest
    ∧ 27%N ∉ s ∧ ∀ line, line ∈ top :: rest → 27%N ∉ line.
Proof.
  intros Hd Ht. unfold table_lines in Ht. destruct data as [|first rows]; [done|].
  destruct (forallb _ _); [|done]. injection Ht as <-. set (lens := column_lengths (first :: rows)).
  eexists _, (format_row lens first), _. split; [reflexivity|].
  split. { apply format_row_no. intros t. apply Hd. left. }
  assert (∀ a b c, a ≠ 27%N → b ≠ 27%N → c ≠ 27%N → 27%N ∉ [a] ++ join_with [c] (separator lens) ++ [b]) as Hsep.
  { intros a b c Ha Hb Hc. apply wrap_no; [done|done|]. apply join_with_no; [by rewrite elem_of_list_singleton; auto|apply separator_no]. }
  intros line Hin. rewrite !elem_of_cons, elem_of_app, elem_of_list_fmap, elem_of_list_singleton in Hin.
  destruct Hin as [-> | [-> | [(r & -> & Hr) | ->]]]; [by apply Hsep..| |by apply Hsep].
  apply format_row_no. intros t. apply Hd. by right.
Qed.
Print Assumptions C62_header.
Example C62_header_ex : table_lines [[lit "A"; lit "B"]; [lit "x"; lit "yz"]] ≠ None
  ∧ ∀ r t, r ∈ [[lit "A"; lit "B"]; [lit "x"; lit "yz"]] → t ∈ r → 27%N ∉ t.
Proof.
  split; [done|]. intros r t Hr Ht.
  assert (Forall (Forall (λ t, 27%N ∉ t)) [[lit "A"; lit "B"]; [lit "x"; lit "yz"]]) as H
    by (apply (bool_decide_unpack _); vm_compute; exact Logic.I).
  rewrite Forall_forall in H. specialize (H r Hr). rewrite Forall_forall in H. by apply H.
Qed.
