(** The model of [glob] against the specification of patterns. *)
From Verif Require Export Glob Pattern FstoolsProofs.
From Verif Require Import ConfigProofs.
From stdpp Require Import options.

(** ** Sets *)
Fixpoint chunks_of (cur : str) (l : list elt) : list str :=
  match l with
  | [] => [rev cur]
  | One c :: r => chunks_of (c :: cur) r
  | Range a b :: r => rev (a :: cur) :: chunks_of [b] r
  end.
Lemma no_dash c : in_brackets c → N.eqb c c_dash = false.
Proof. intros [H _]. apply N.eqb_neq. intros ->. apply H. vm_compute. set_solver. Qed.
Lemma no_close c : in_brackets c → N.eqb c c_close = false.
Proof. intros [H _]. apply N.eqb_neq. intros ->. apply H. vm_compute. set_solver. Qed.
Lemma cut_one cur w c r : in_brackets c → (w ≤ 1)%nat → cut_ranges cur w (c :: r) = cut_ranges (c :: cur) 0 r.
Proof. intros H Hw. destruct w as [|[|w]]; [|done|lia]. cbn [cut_ranges]. by rewrite no_dash. Qed.
Lemma cut_elts l : Forall wf_elt l → ∀ cur w, (w ≤ 1)%nat → cut_ranges cur w (concat (map show_elt l)) = chunks_of cur l.
Proof.
  induction 1 as [|x l Hx Hl IH]; intros cur w Hw; [done|]. destruct x as [c|a b].
  - cbn [map concat show_elt app chunks_of]. rewrite cut_one by done. apply IH. lia.
  - destruct Hx as (Ha & Hb & _). cbn [map concat show_elt chunks_of]. change ((a :: lit "-" ++ [b]) ++ ?y) with (a :: c_dash :: b :: y).
    rewrite cut_one by done. cbn [cut_ranges]. rewrite N.eqb_refl. f_equal. apply IH. lia.
Qed.
Lemma chunks_head l : ∀ cur, ∃ t r, chunks_of cur l = (rev cur ++ t) :: r.
Proof.
  induction l as [|[c|a b] l IH]; intros cur.
  - exists [], []. by rewrite app_nil_r.
  - destruct (IH (c :: cur)) as (t & r & E). exists (c :: t), r. cbn [chunks_of]. rewrite E. simpl. by rewrite <-app_assoc.
  - exists [a], (chunks_of [b] l). done.
Qed.
Lemma drop_chunks l : Forall wf_elt l → ∀ cur, drop_empty (chunks_of cur l) = chunks_of cur l.
Proof.
  induction 1 as [|x l Hx Hl IH]; intros cur; [done|]. destruct x as [c|a b]; cbn [chunks_of]; [by apply IH|].
  cbn [drop_empty]. rewrite IH. destruct (chunks_head l [b]) as (t & r & E). rewrite E. cbn [rev app]. rewrite last_snoc.
  destruct Hx as (_ & _ & Hab). destruct (b <? a)%N eqn:Hlt; [|done]. apply N.ltb_lt in Hlt. lia.
Qed.
Lemma existsb_eqb (c : char) l : existsb (N.eqb c) l = true ↔ c ∈ l.
Proof.
  rewrite existsb_exists. split.
  - intros (x & Hx & E). apply N.eqb_eq in E. subst. by apply elem_of_list_In.
  - intros H. exists c. split; [by apply elem_of_list_In|apply N.eqb_refl].
Qed.
Lemma in_chunks c l : Forall wf_elt l → ∀ cur, in_set c (chunks_of cur l) = true ↔ c ∈ cur ∨ Exists (elt_has c) l.
Proof.
  induction 1 as [|x l Hx Hl IH]; intros cur.
  - cbn [chunks_of in_set]. destruct (last _); rewrite !orb_true_iff, existsb_eqb, elem_of_list_In, <-in_rev, <-elem_of_list_In, Exists_nil; intuition done.
  - destruct x as [d|a b]; cbn [chunks_of].
    + rewrite IH, Exists_cons, elem_of_cons. simpl. tauto.
    + destruct (chunks_head l [b]) as (t & r & E). rewrite Exists_cons.
      assert (in_set c (rev (a :: cur) :: chunks_of [b] l) = existsb (N.eqb c) (rev (a :: cur)) || ((a <=? c)%N && (c <=? b)%N) || in_set c (chunks_of [b] l)) as ->.
      { cbn [in_set]. rewrite E. cbn [rev app]. by rewrite last_snoc. }
      rewrite !orb_true_iff, existsb_eqb, IH, andb_true_iff, !N.leb_le, elem_of_list_In, <-in_rev, <-elem_of_list_In, elem_of_cons, elem_of_list_singleton.
      destruct Hx as (_ & _ & Hab). simpl. split; [|tauto]. intros [[[->|?]|?]|[->|?]]; try tauto; right; left; lia.
Qed.
Lemma find_close_spec a r : c_close ∉ a → find_close (a ++ c_close :: r) = Some (a, r).
Proof.
  induction a as [|x a IH]; intros H; [done|]. cbn [app find_close].
  destruct (N.eqb_spec x c_close) as [->|_]; [exfalso; apply H; left|]. rewrite IH; [done|]. intros ?. apply H. by right.
Qed.
Lemma elts_no_close l : Forall wf_elt l → c_close ∉ concat (map show_elt l).
Proof.
  induction 1 as [|x l Hx Hl IH]; [by apply not_elem_of_nil|]. cbn [map concat]. rewrite elem_of_app. intros [H|?]; [|done].
  destruct x as [c|a b]; cbn [show_elt] in H.
  - apply elem_of_list_singleton in H as <-. by pose proof (no_close _ Hx).
  - destruct Hx as (Ha & Hb & _). apply no_close in Ha, Hb. apply elem_of_cons in H as [<-|H]; [done|].
    apply elem_of_app in H as [H|H]; [vm_compute in H; set_solver|]. apply elem_of_list_singleton in H as <-. done.
Qed.
Lemma bracket_spec neg close l r : wf_item (Brackets neg close l) →
  bracket ((if neg then lit "!" else []) ++ show_set close l ++ lit "]" ++ r) = Some (neg, show_set close l, r).
Proof.
  intros (Hl & Hne & Hh). unfold bracket. pose proof (elts_no_close l Hl) as Hc.
  assert (∀ s, s = show_set close l ++ lit "]" ++ r →
    (let '(first, s2) := match s with c :: r => if N.eqb c c_close then ([c], r) else ([], s) | [] => ([], s) end in
      match find_close s2 with Some (a, r) => Some (first ++ a, r) | None => None end) = Some (show_set close l, r)) as Hg.
  { intros s ->. unfold show_set in *. destruct close.
    - cbn [app]. change (lit "]" ++ ?x) with (c_close :: x). cbn [app]. rewrite N.eqb_refl. by rewrite find_close_spec.
    - cbn [app] in *. destruct (concat (map show_elt l)) as [|c s] eqn:E; [done|]. cbn [app].
      destruct (N.eqb_spec c c_close) as [->|_]; [exfalso; apply Hc; left|].
      change (c :: s ++ lit "]" ++ r) with ((c :: s) ++ c_close :: r). by rewrite find_close_spec. }
  specialize (Hg _ eq_refl). revert Hg. destruct neg.
  - change (lit "!" ++ ?x) with (c_bang :: x). cbv beta iota. rewrite N.eqb_refl. intros Hg.
    destruct (match show_set close l ++ _ with [] => _ | _ => _ end) as [first s2]. destruct (find_close s2) as [[a r']|]; [|done]. by injection Hg as -> ->.
  - cbn [app]. specialize (Hh eq_refl). intros Hg. destruct (show_set close l) as [|c s] eqn:E; [done|]. cbn [app] in *.
    destruct (N.eqb_spec c c_bang) as [->|_]; [done|].
    destruct (if N.eqb c c_close then _ else _) as [first s2]. destruct (find_close s2) as [[a r']|]; [|done]. by injection Hg as -> ->.
Qed.

(** ** Names *)
Definition tok_of (x : item) : tok :=
  match x with
  | Star => TStar
  | Any => TAny
  | Char c => TChar c
  | Brackets neg close l => TSet neg (chunks_of (if close then [c_close] else []) l)
  end.
Lemma set_chunks close l : Forall wf_elt l → drop_empty (cut_ranges [] 1 (show_set close l)) = chunks_of (if close then [c_close] else []) l.
Proof.
  intros Hl. unfold show_set. destruct close.
  - change (lit "]" ++ ?x) with (c_close :: x). cbn [cut_ranges]. rewrite cut_elts by (done || lia). by apply drop_chunks.
  - cbn [app]. rewrite cut_elts by (done || lia). by apply drop_chunks.
Qed.
Lemma ordinary_not c : ordinary c → magic_char c = false.
Proof.
  intros [H _]. unfold magic_char. destruct (N.eqb_spec c c_star) as [->|_]; [exfalso; apply H; vm_compute; set_solver|].
  destruct (N.eqb_spec c c_quest) as [->|_]; [exfalso; apply H; vm_compute; set_solver|].
  destruct (N.eqb_spec c c_open) as [->|_]; [exfalso; apply H; vm_compute; set_solver|done].
Qed.
Lemma translate_name l : Forall wf_item l → ∀ n, (length (show_name l) ≤ n)%nat → translate_aux n (show_name l) = map tok_of l.
Proof.
  induction 1 as [|x l Hx Hl IH]; intros n Hn; [by destruct n|]. unfold show_name in *. cbn [map concat] in *. rewrite app_length in Hn.
  destruct x as [| |c|neg close s]; cbn [show_item] in *.
  - change (length (lit "*")) with 1%nat in Hn. destruct n as [|n]; [lia|]. change (lit "*" ++ ?x) with (c_star :: x). cbn. by rewrite IH by lia.
  - change (length (lit "?")) with 1%nat in Hn. destruct n as [|n]; [lia|]. change (lit "?" ++ ?x) with (c_quest :: x). cbn. by rewrite IH by lia.
  - simpl in Hn. destruct n as [|n]; [lia|]. pose proof (ordinary_not c Hx) as Hm. apply orb_false_iff in Hm as [Hm H3]. apply orb_false_iff in Hm as [H1 H2].
    cbn [app translate_aux]. unfold is_open. rewrite H1, H2, H3. rewrite IH by lia. done.
  - rewrite !app_length in Hn. change (length (lit "[")) with 1%nat in Hn. destruct n as [|n]; [lia|].
    rewrite <-!app_assoc. change (lit "[" ++ ?x) with (c_open :: x). cbn [translate_aux]. change (N.eqb c_open c_star) with false. change (N.eqb c_open c_quest) with false.
    change (is_open c_open) with true. cbv iota. rewrite bracket_spec by done. destruct Hx as (Hx & _). rewrite set_chunks by done. cbn [map tok_of].
    rewrite IH; [done|]. lia.
Qed.
Lemma xorb_spec neg b (P : Prop) : (b = true ↔ P) → xorb neg b = true ↔ if neg then ¬ P else P.
Proof. destruct neg, b; simpl; naive_solver. Qed.
Lemma tok_spec x c : wf_item x → tok_ok (tok_of x) c = true ↔ match x with
  | Star => False | Any => True | Char d => c = d
  | Brackets neg close l => if neg then ¬ member c close l else member c close l end.
Proof.
  intros Hx. destruct x as [| |d|neg close l]; simpl; [done|done|by rewrite N.eqb_eq|].
  apply xorb_spec. destruct Hx as (Hl & _). rewrite in_chunks by done. unfold member. apply or_iff_compat_r.
  destruct close; [|set_solver]. rewrite elem_of_list_singleton. split; [by intros ->|]. intros [_ [= ->]]. done.
Qed.
Lemma star_match r x : tmatch (TStar :: r) x = true ↔ ∃ a b, x = a ++ b ∧ tmatch r b = true.
Proof.
  induction x as [|c x IH].
  - change (tmatch (TStar :: r) []) with (tmatch r [] || false). rewrite orb_false_r. split.
    + intros H. by exists [], [].
    + intros (a & b & E & H). symmetry in E. apply app_nil in E as [_ ->]. done.
  - change (tmatch (TStar :: r) (c :: x)) with (tmatch r (c :: x) || tmatch (TStar :: r) x). rewrite orb_true_iff, IH. split.
    + intros [H|(a & b & -> & H)]; [by exists [], (c :: x)|by exists (c :: a), b].
    + intros (a & b & E & H). destruct a as [|c' a]; [left; by rewrite E|right]. injection E as -> ->. eauto.
Qed.
Lemma one_match t r x : t ≠ TStar → tmatch (t :: r) x = true ↔ ∃ c y, x = c :: y ∧ tok_ok t c = true ∧ tmatch r y = true.
Proof.
  intros Ht. destruct t as [| |d|neg ch]; [done|..]; (destruct x as [|c y]; [split; [done|naive_solver]|]);
    match goal with |- tmatch (?t :: r) (c :: y) = true ↔ _ => change (tmatch (t :: r) (c :: y)) with (tok_ok t c && tmatch r y) end; rewrite andb_true_iff; naive_solver.
Qed.
Lemma tmatch_spec l x : Forall wf_item l → tmatch (map tok_of l) x = true ↔ fits_name l x.
Proof.
  intros Hl. revert x. induction Hl as [|i l Hi Hl IH]; intros x.
  - simpl. destruct x; split; try done; [constructor|inversion 1].
  - cbn [map]. destruct i as [| |d|neg close s].
    + cbn [tok_of]. rewrite star_match. split.
      * intros (a & b & -> & H). constructor. by apply IH.
      * inversion 1; subst. eexists _, _. split; [done|]. by apply IH.
    + rewrite one_match by done. split.
      * intros (c & y & -> & _ & H). constructor. by apply IH.
      * inversion 1; subst. eexists _, _. split; [done|]. split; [done|]. by apply IH.
    + rewrite one_match by done. split.
      * intros (c & y & -> & Ht & H). apply tok_spec in Ht; [|done]. subst. constructor. by apply IH.
      * inversion 1; subst. eexists _, _. split; [done|]. split; [by apply (tok_spec (Char d))|]. by apply IH.
    + rewrite one_match by done. split.
      * intros (c & y & -> & Ht & H). apply tok_spec in Ht; [|done]. constructor; [done|by apply IH].
      * inversion 1; subst. eexists _, _. split; [done|]. split; [by apply (tok_spec (Brackets neg close s))|]. by apply IH.
Qed.
Lemma fnmatch_spec l x : Forall wf_item l → fnmatch (show_name l) x = true ↔ fits_name l x.
Proof. intros Hl. unfold fnmatch, translate. rewrite translate_name by done. by apply tmatch_spec. Qed.

Lemma ishidden_spec x : ishidden x = true ↔ hidden x.
Proof. unfold ishidden, hidden. destruct x as [|c x]; [done|]. cbn [startswith head]. change (head (lit ".")) with (Some c_dot).
  destruct (N.eqb_spec c_dot c) as [->|H]; split; try done. by intros [= ->]. Qed.

(** ** Components *)
Lemma magic_item i : wf_item i → has_magic (show_item i) = match i with Char _ => false | _ => true end.
Proof.
  destruct i as [| |c|neg close l]; intros H; [done|done| |done]. cbn [show_item]. unfold has_magic. cbn [existsb]. by rewrite ordinary_not.
Qed.
Lemma magic_name l : Forall wf_item l → has_magic (show_name l) = false ↔ ∃ x, l = map Char x ∧ show_name l = x.
Proof.
  induction 1 as [|i l Hi Hl IH]; [split; [by exists []|done]|]. unfold show_name in *. cbn [map concat]. unfold has_magic in *. rewrite existsb_app, orb_false_iff, IH.
  pose proof (magic_item i Hi) as Hm. unfold has_magic in Hm. split.
  - intros [H1 (x & -> & Hx)]. rewrite H1 in Hm. destruct i as [| |c|]; try done. exists (c :: x). cbn [show_item map app]. by rewrite Hx.
  - intros (x & E & Hx). destruct x as [|c x]; [done|]. cbn [map] in E. injection E as -> ->. split; [by rewrite Hm|]. exists x. split; [done|].
    cbn [show_item map app] in Hx. by injection Hx.
Qed.
Lemma fits_literal x y : fits_name (map Char x) y ↔ y = x.
Proof.
  revert y. induction x as [|c x IH]; intros y; cbn [map].
  - split; [by inversion 1|intros ->; constructor].
  - split; [inversion 1; subst; f_equal; by apply IH|intros ->; constructor; by apply IH].
Qed.
Lemma name_literal l y : Forall wf_item l → has_magic (show_name l) = false → name_fits l y ↔ y = show_name l.
Proof.
  intros Hl Hm. apply magic_name in Hm as (x & -> & ->); [|done]. unfold name_fits. rewrite fits_literal. split; [by intros [? _]|].
  intros ->. split; [done|]. unfold hidden. destruct x as [|c x]; [done|]. cbn [head map]. change (head (lit ".")) with (Some c_dot). by intros [= ->].
Qed.
Lemma item_ne i : wf_item i → show_item i ≠ [].
Proof. by destruct i. Qed.
(** What [_glob1] tests for a name with magic. *)
Lemma name_magic l y : Forall wf_item l → has_magic (show_name l) = true →
  (ishidden (show_name l) || negb (ishidden y)) && fnmatch (show_name l) y = true ↔ name_fits l y.
Proof.
  intros Hl Hm. rewrite andb_true_iff, fnmatch_spec by done. unfold name_fits.
  assert (∀ P Q R : Prop, (R → (P ↔ Q)) → P ∧ R ↔ R ∧ Q) as Hc by tauto. apply Hc. intros Hf.
  rewrite orb_true_iff, negb_true_iff, <-not_true_iff_false, !ishidden_spec.
  destruct l as [|i l]; [done|]. apply Forall_cons in Hl as [Hi Hl]. unfold show_name, hidden. cbn [map concat].
  destruct i as [| |c|neg close s]; cbn [show_item].
  - split; [intros [H|H]; [done|tauto]|]. intros H. right. tauto.
  - split; [intros [H|H]; [done|tauto]|]. intros H. right. tauto.
  - cbn [app head]. change (head (lit ".")) with (Some c_dot). split; [intros [[= ->]|H]; tauto|]. intros H.
    inversion Hf; subst. cbn [head] in *. destruct (decide (c = c_dot)) as [->|Hn]; [by left|right]. by intros [= ->].
  - split; [intros [H|H]; [done|tauto]|]. intros H. right. tauto.
Qed.
Lemma comp_ne c : wf_comp c → show_comp c ≠ [].
Proof. destruct c as [|l]; [done|]. intros [_ H] E. apply H. cbn [show_comp] in E. rewrite E. left. Qed.
Lemma name_not_dstar l : wf_comp (Name l) → show_name l ≠ double_star.
Proof. intros [_ H] E. apply H. rewrite E. vm_compute. set_solver. Qed.
Lemma item_noslash i : wf_item i → c_slash ∉ show_item i.
Proof.
  assert (∀ c, in_brackets c → c ≠ c_slash) as Hb.
  { intros c [H _] ->. apply H. vm_compute. set_solver. }
  destruct i as [| |c|neg close l]; cbn [show_item].
  - intros _. vm_compute. set_solver.
  - intros _. vm_compute. set_solver.
  - intros [H _] E. apply elem_of_list_singleton in E as <-. apply H. vm_compute. set_solver.
  - intros (Hl & _) H. rewrite !elem_of_app in H. unfold show_set in H. rewrite elem_of_app in H.
    destruct H as [H|[H|[[H|H]|H]]]; [vm_compute in H; set_solver|destruct neg; vm_compute in H; set_solver|destruct close; vm_compute in H; set_solver| |vm_compute in H; set_solver].
    induction Hl as [|x l Hx Hl IH]; [by apply elem_of_nil in H|]. cbn [map concat] in H. apply elem_of_app in H as [H|H]; [|done].
    destruct x as [c|a b]; cbn [show_elt] in H.
    + apply elem_of_list_singleton in H as <-. by apply (Hb c_slash).
    + destruct Hx as (Ha & Hb' & _). apply Hb in Ha, Hb'. apply elem_of_cons in H as [<-|H]; [done|].
      apply elem_of_app in H as [H|H]; [vm_compute in H; set_solver|]. by apply elem_of_list_singleton in H as <-.
Qed.
Lemma name_noslash l : Forall wf_item l → c_slash ∉ show_name l.
Proof.
  induction 1 as [|i l Hi Hl IH]; [by apply not_elem_of_nil|]. unfold show_name in *. cbn [map concat]. rewrite elem_of_app. intros [H|H]; [|done]. by eapply item_noslash.
Qed.
Lemma comp_noslash c : wf_comp c → c_slash ∉ show_comp c.
Proof. destruct c as [|l]; [intros _; vm_compute; set_solver|]. intros [Hl _]. by apply name_noslash. Qed.
Lemma name_valid l : wf_comp (Name l) → valid_name (show_name l).
Proof.
  intros [Hl H]. split_and!; [..|by apply name_noslash| |]; intros E; apply H; rewrite E; vm_compute; set_solver.
Qed.

Lemma undot_valid p : valid_comps p → undot p = p.
Proof.
  induction 1 as [|x p Hx Hp IH]; [done|]. unfold undot in *. cbn [List.filter]. rewrite bool_decide_eq_false_2; [|by apply Hx]. cbn [negb]. by rewrite IH.
Qed.
Lemma last_valid p : valid_comps p → last p ≠ Some dot.
Proof. intros H E. apply last_Some_elem_of in E. unfold valid_comps in H. rewrite Forall_forall in H. destruct (H _ E) as (_ & _ & ? & _). done. Qed.

Section tree.
  Context (m : fs) (Hwf : wf_fs m) (S : path) (HS : dir_at m S) (HM : existsb has_magic S = false).
  Local Notation leads := (leads m S).

  Lemma leads_dstar1 r p : leads r [DStar] p ↔ isdir m (S ++ r) = true ∧ ∃ a, p = r ++ a ∧ Forall (λ x, ¬ hidden x) a.
  Proof.
    split.
    - intros H. inversion H as [| |d a cs p' Hi Ha Hl]; subst. split; [done|]. exists a. inversion Hl; subst. done.
    - intros (Hi & a & -> & Ha). apply (ld_dstar m S r a []); [done|done|constructor].
  Qed.
  Lemma leads_name1 r l p : leads r [Name l] p ↔ ∃ x, p = r ++ [x] ∧ name_fits l x.
  Proof.
    split.
    - intros H. inversion H as [|d l' x cs p' Hf Hl|]; subst. exists x. inversion Hl; subst. done.
    - intros (x & -> & Hf). apply (ld_name m S r l x []); [done|constructor].
  Qed.
  Lemma leads_app d a b p : leads d (a ++ b) p ↔ ∃ q, leads d a q ∧ leads q b p.
  Proof.
    revert d. induction a as [|c a IH]; intros d; cbn [app].
    - split; [intros H; exists d; by split; [constructor|]|]. intros (q & H & ?). by inversion H; subst.
    - split.
      + inversion 1; subst.
        * apply IH in H5 as (q & ? & ?). exists q. split; [by econstructor|done].
        * apply IH in H6 as (q & ? & ?). exists q. split; [by econstructor|done].
      + intros (q & H & ?). inversion H; subst.
        * econstructor; [done|]. apply IH. eauto.
        * econstructor; [done|done|]. apply IH. eauto.
  Qed.
  Lemma leads_literal cs : Forall wf_comp cs → existsb has_magic (map show_comp cs) = false → ∀ d p, leads d cs p ↔ p = d ++ map show_comp cs.
  Proof.
    induction 1 as [|c cs Hc Hcs IH]; intros Hm d p; cbn [map].
    - rewrite app_nil_r. split; [by inversion 1|intros ->; constructor].
    - cbn [map existsb] in Hm. apply orb_false_iff in Hm as [H1 H2]. destruct c as [|l]; [done|]. destruct Hc as [Hl _]. cbn [show_comp] in *. split.
      + inversion 1; subst. apply name_literal in H5 as ->; [|done|done]. apply IH in H7 as ->; [|done]. by rewrite <-app_assoc.
      + intros ->. econstructor; [by apply name_literal|]. apply IH; [done|]. by rewrite <-app_assoc.
  Qed.
  Lemma tree_valid p n : node_at m p = Some n → valid_comps p.
  Proof using Hwf. destruct p as [|x p]; [constructor|]. intros H. by apply (wf_valid m Hwf _ n). Qed.
  Lemma tree_lexists p n : node_at m p = Some n → g_lexists m p = true.
  Proof using Hwf.
    intros H. pose proof (tree_valid p n H) as Hv. unfold g_lexists. rewrite bool_decide_eq_false_2 by by apply last_valid. rewrite undot_valid by done.
    unfold stat. rewrite resolve_nofollow; [by rewrite H|done|done|].
    destruct p as [|x p]; [apply dir_at_nil|]. by destruct (Hwf _ _ H) as (_ & _ & ?).
  Qed.
  Lemma tree_scandir d : dir_at m d → scandir m (undot d) = Ok (entries m d).
  Proof using Hwf. intros [t Ht]. rewrite undot_valid by by apply (tree_valid _ _ Ht). unfold scandir. rewrite resolve_dir; [by rewrite Ht|done|by exists t]. Qed.
  Lemma tree_listdir d x b : dir_at m d → (b = true → g_isdir m (d ++ [x]) = true) → x ∈ listdir m d b ↔ is_Some (m !! (d ++ [x])).
  Proof using Hwf.
    intros Hd Hb. unfold listdir. rewrite tree_scandir by done. rewrite elem_of_list_In, filter_In, <-elem_of_list_In. split.
    - intros [H _]. apply elem_of_list_fmap in H as ([y n] & -> & H). apply elem_of_entries in H. by exists n.
    - intros [n H]. split; [|destruct b; [by apply Hb|done]]. apply elem_of_list_fmap. exists (x, n). split; [done|]. by apply elem_of_entries.
  Qed.
  Lemma tree_isdir d : dir_at m d → g_isdir m d = true.
  Proof using Hwf. intros Hd. destruct Hd as [t Ht] eqn:E. unfold g_isdir. rewrite undot_valid by by apply (tree_valid _ _ Ht). by apply isdir_dir. Qed.

  Lemma tree_rlistdir n : ∀ d y b, dir_at m d → y ≠ [] → is_Some (m !! (d ++ y)) → (b = true → g_isdir m (d ++ y) = true) → (length y ≤ n)%nat →
    y ∈ rlistdir m n d b ↔ Forall (λ x, ¬ hidden x) y.
  Proof using Hwf.
    induction n as [|n IH]; intros d y b Hd Hy Hs Hb Hn; [destruct y; [done|simpl in Hn; lia]|].
    cbn [rlistdir]. rewrite elem_of_list_In, in_flat_map. destruct y as [|x y]; [done|]. 
    assert (x :: y = [x] ++ y) as Ex by done. 
    assert (Hx : x ∈ List.filter (λ x, negb (ishidden x)) (listdir m d b) ↔ ¬ hidden x).
    { rewrite elem_of_list_In, filter_In, <-elem_of_list_In, negb_true_iff, <-not_true_iff_false, ishidden_spec. split; [tauto|]. intros H. split; [|done].
      apply tree_listdir; [done| |].
      - intros ->. destruct y as [|z y]; [by apply Hb|]. apply tree_isdir. destruct Hs as [k Hk]. eapply (wf_anc m Hwf); [exact Hk| |].
        + exists (z :: y). by rewrite <-app_assoc.
        + intros E. apply app_inv_head in E. done.
      - destruct Hs as [k Hk]. destruct y as [|z y]; [by exists k|]. assert (dir_at m (d ++ [x])) as [t Ht].
        { eapply (wf_anc m Hwf); [exact Hk| |]; [exists (z :: y); by rewrite <-app_assoc|]. intros E. by apply app_inv_head in E. }
        rewrite node_at_app_ne in Ht by done. by eexists. }
    rewrite Forall_cons, <-Hx. clear Hx. split.
    - intros (x' & Hin & H). destruct H as [H|H].
      + injection H as -> <-. split; [by apply elem_of_list_In|constructor].
      + apply in_map_iff in H as (y' & E & H). injection E as -> ->. split; [by apply elem_of_list_In|].
        apply elem_of_list_In in H. destruct y as [|z y]; [constructor|].
        assert (d ++ x :: z :: y = (d ++ [x]) ++ z :: y) as Ed by by rewrite <-app_assoc.
        eapply IH; [..|exact H]; [|done|by rewrite <-Ed|by rewrite <-Ed|simpl in *; lia].
        destruct Hs as [k Hk]. eapply (wf_anc m Hwf); [exact Hk| |]; [exists (z :: y); by rewrite <-app_assoc|]. intros E'. by apply app_inv_head in E'.
    - intros [Hin Hf]. exists x. split; [by apply elem_of_list_In|]. destruct y as [|z y]; [by left|right]. apply in_map_iff. exists (z :: y). split; [done|].
      apply elem_of_list_In. assert (d ++ x :: z :: y = (d ++ [x]) ++ z :: y) as Ed by by rewrite <-app_assoc.
      apply IH; [|done|by rewrite <-Ed|by rewrite <-Ed|simpl in *; lia|done].
      destruct Hs as [k Hk]. eapply (wf_anc m Hwf); [exact Hk| |]; [exists (z :: y); by rewrite <-app_assoc|]. intros E'. by apply app_inv_head in E'.
  Qed.

  Lemma existsb_rev {A} (f : A → bool) l : existsb f (rev l) = existsb f l.
  Proof. apply eq_true_iff_eq. rewrite !existsb_exists. split; intros (x & H & ?); exists x; (split; [|done]); [by apply in_rev|by apply in_rev in H]. Qed.
  Lemma iglob_step p b c : iglob m (rev (p ++ [c])) b =
    if negb (existsb has_magic p || has_magic c) then
      match c with [] => if g_isdir m p then [p] else [] | _ => if g_lexists m (p ++ [c]) then [p ++ [c]] else [] end
    else flat_map (λ d, map (app d) (if has_magic c then if bool_decide (c = double_star) then glob2 m d b else glob1 m d c b else glob0 m d c))
           (if existsb has_magic p then iglob m (rev p) true else [p]).
  Proof.
    rewrite rev_app_distr. change (rev [c] ++ rev p) with (c :: rev p). cbn [iglob]. cbn [existsb]. rewrite existsb_rev, rev_involutive.
    change (rev (c :: rev p)) with (rev (rev p) ++ [c]). rewrite rev_involutive, orb_comm. done.
  Qed.
  Lemma listdir_valid d x b : x ∈ listdir m d b → valid_name x.
  Proof using Hwf.
    unfold listdir, scandir. destruct (resolve true m (undot d)) as [q|]; [|by intros ?%elem_of_nil]. destruct (node_at m q) as [[]|]; try by intros ?%elem_of_nil.
    rewrite elem_of_list_In, filter_In, <-elem_of_list_In. intros [H _]. apply elem_of_list_fmap in H as ([y n] & -> & H). apply elem_of_entries in H.
    apply (wf_valid m Hwf) in H. by apply valid_app in H as [_ H%valid_one].
  Qed.
  Lemma rlistdir_valid n : ∀ d b y, y ∈ rlistdir m n d b → valid_comps y.
  Proof using Hwf.
    induction n as [|n IH]; intros d b y; cbn [rlistdir]; [by intros ?%elem_of_nil|]. rewrite elem_of_list_In, in_flat_map. intros (x & Hx & H).
    apply filter_In in Hx as [Hx _]. apply elem_of_list_In, listdir_valid in Hx. destruct H as [<-|H]; [by apply valid_one|].
    apply in_map_iff in H as (y' & <- & H). apply elem_of_list_In in H. constructor; [done|by eapply IH].
  Qed.
  Lemma rlistdir_nil n d b : [] ∉ rlistdir m n d b.
  Proof.
    destruct n as [|n]; cbn [rlistdir]; [apply not_elem_of_nil|]. rewrite elem_of_list_In, in_flat_map. intros (x & _ & [H|H]); [done|].
    by apply in_map_iff in H as (? & ? & _).
  Qed.
  (** Every result is a path below the directory. *)
  Lemma iglob_below cs : Forall wf_comp cs → ∀ b d, d ∈ iglob m (rev (S ++ map show_comp cs)) b → ∃ r, d = S ++ r ∧ valid_comps r.
  Proof using Hwf HS HM.
    induction cs as [|c cs IH] using rev_ind; intros Hcs b d.
    - rewrite app_nil_r. intros H. exists []. rewrite app_nil_r. split; [|constructor].
      destruct HS as [t Ht]. apply tree_valid in Ht. clear HS t. destruct S as [|z S' _] using rev_ind.
      + by apply elem_of_list_singleton in H.
      + rewrite iglob_step in H. rewrite existsb_app in HM. apply orb_false_iff in HM as [H1 H2]. cbn [existsb] in H2. rewrite orb_false_r in H2.
        rewrite H1, H2 in H. cbn [orb negb] in H. destruct z; [destruct (g_isdir m S'); [|by apply elem_of_nil in H]|].
        * by apply valid_app in Ht as [_ [? _]%valid_one].
        * destruct (g_lexists _ _); [|by apply elem_of_nil in H]. by apply elem_of_list_singleton in H.
    - apply Forall_app in Hcs as [Hcs [Hc _]%Forall_cons]. rewrite map_app, app_assoc. cbn [map]. rewrite iglob_step.
      assert (Hlit : existsb has_magic (map show_comp cs) = false → valid_comps (map show_comp cs)).
      { clear -Hcs. induction Hcs as [|x l Hx Hl IH]; [constructor|]. cbn [map existsb]. intros [H1 H2]%orb_false_iff. constructor; [|by apply IH].
        destruct x as [|l']; [done|]. by apply name_valid. }
      rewrite existsb_app, HM. cbn [orb]. destruct (existsb has_magic (map show_comp cs) || has_magic (show_comp c)) eqn:Em; cbn [negb].
      + rewrite elem_of_list_In, in_flat_map. intros (d1 & Hd & H). apply in_map_iff in H as (y & <- & H).
        assert (∃ r, d1 = S ++ r ∧ valid_comps r) as (r & -> & Hr).
        { destruct (existsb has_magic (map show_comp cs)) eqn:E1.
          - apply elem_of_list_In in Hd. by eapply IH.
          - destruct Hd as [<-|[]]. exists (map show_comp cs). split; [done|by apply Hlit]. }
        exists (r ++ y). rewrite app_assoc. split; [done|]. apply valid_app. split; [done|].
        apply elem_of_list_In in H. destruct (has_magic (show_comp c)) eqn:E2.
        * destruct (bool_decide_reflect (show_comp c = double_star)) as [E3|E3].
          -- unfold glob2 in H. apply elem_of_app in H as [H|H]; [|by apply rlistdir_valid in H].
             destruct (g_isdir _ _); [apply elem_of_list_singleton in H as ->; constructor|by apply elem_of_nil in H].
          -- unfold glob1 in H. apply elem_of_list_fmap in H as (x & -> & H). rewrite elem_of_list_In, filter_In, <-elem_of_list_In in H.
             apply valid_one. by apply (listdir_valid _ _ _ (proj1 H)).
        * destruct c as [|l]; [done|]. cbn [show_comp] in *. pose proof (name_valid l Hc) as Hv. unfold glob0 in H. destruct (show_name l) as [|a x] eqn:El; [by destruct Hv|].
          destruct (g_lexists _ _); [apply elem_of_list_singleton in H as ->|by apply elem_of_nil in H]. by apply valid_one.
      + apply orb_false_iff in Em as [E1 E2]. destruct c as [|l]; [done|]. cbn [show_comp] in *. pose proof (name_valid l Hc) as Hv.
        destruct (show_name l) as [|a x] eqn:El; [by destruct Hv|]. destruct (g_lexists _ _); [|by intros ?%elem_of_nil].
        intros ->%elem_of_list_singleton. eexists. rewrite <-app_assoc. split; [done|]. apply valid_app. split; [by apply Hlit|by apply valid_one].
  Qed.

  Lemma tree_prefix_dir (r y : path) n : y ≠ [] → node_at m (S ++ r ++ y) = Some n → dir_at m (S ++ r).
  Proof using Hwf.
    intros Hy E. rewrite app_assoc in E. rewrite node_at_app_ne in E by done. eapply (wf_anc m Hwf); [exact E|by exists y|].
    intros E'. symmetry in E'. rewrite <-(app_nil_r (S ++ r)) in E' at 2. by apply app_inv_head in E'.
  Qed.
  Lemma isdir_g p n : node_at m p = Some n → g_isdir m p = isdir m p.
  Proof using Hwf. intros H. unfold g_isdir. by rewrite undot_valid by by apply (tree_valid _ _ H). Qed.
  (** One component, from a directory of the tree. *)
  Lemma comp_step c r y n b : wf_comp c → node_at m (S ++ r ++ y) = Some n → (b = true → isdir m (S ++ r ++ y) = true) →
    y ∈ (if has_magic (show_comp c) then if bool_decide (show_comp c = double_star) then glob2 m (S ++ r) b else glob1 m (S ++ r) (show_comp c) b
         else glob0 m (S ++ r) (show_comp c))
    ↔ leads r [c] (r ++ y).
  Proof using Hwf.
    intros Hc Hn Hb. destruct c as [|l].
    - cbn [show_comp]. change (has_magic (lit "**")) with true. rewrite bool_decide_eq_true_2 by done. unfold glob2. rewrite elem_of_app.
      destruct (decide (y = [])) as [->|Hy].
      + rewrite !app_nil_r in *. rewrite (isdir_g _ _ Hn). split.
        * intros [H|H]; [|by apply rlistdir_nil in H]. destruct (isdir m (S ++ r)) eqn:E; [|by apply elem_of_nil in H].
          apply (ld_dstar m S r [] [] r); [done|constructor|]. rewrite app_nil_r. constructor.
        * intros (-> & _)%leads_dstar1. left. left.
      + pose proof (tree_prefix_dir r y n Hy Hn) as Hd. rewrite app_assoc in Hn.
        assert (y ∈ rlistdir m (glob_depth m) (S ++ r) b ↔ Forall (λ x, ¬ hidden x) y) as ->.
        { apply tree_rlistdir; [done|done|..].
          - rewrite node_at_app_ne in Hn by done. by eexists.
          - intros ->. rewrite (isdir_g _ _ Hn), <-app_assoc. by apply Hb.
          - rewrite node_at_app_ne in Hn by done. destruct y as [|x y]; [done|].
            pose proof (depth_size m Hwf (S ++ r) _ _ Hn) as H. rewrite app_length in H. unfold glob_depth.
            assert (below ((S ++ r) ++ x :: y) (S ++ r)) as Hbe by by exists x, y. specialize (H Hbe). lia. }
        split.
        * intros [H|H]; [destruct (g_isdir _ _); [|by apply elem_of_nil in H]; by apply elem_of_list_singleton in H|].
          apply leads_dstar1. split; [by apply isdir_dir|by exists y].
        * intros (_ & a & E & Ha)%leads_dstar1. right. by apply app_inv_head in E as ->.
    - cbn [show_comp]. assert (leads r [Name l] (r ++ y) ↔ ∃ x, y = [x] ∧ name_fits l x) as ->.
      { rewrite leads_name1. split; intros (x & E & H); exists x; (split; [|done]); [by apply app_inv_head in E|by rewrite E]. }
      rewrite bool_decide_eq_false_2 by by apply name_not_dstar. destruct Hc as [Hl Hne]. destruct (has_magic (show_name l)) eqn:Em.
      + unfold glob1. rewrite elem_of_list_fmap. assert (∀ x, y = [x] → x ∈ listdir m (S ++ r) b ↔ True) as Hx.
        { intros x ->. assert (dir_at m (S ++ r)) as Hd by (by apply (tree_prefix_dir r [x] n)). split; [done|]. intros _. apply tree_listdir; [done| |].
          - rewrite <-app_assoc. intros ->. rewrite (isdir_g _ _ Hn). by apply Hb.
          - rewrite app_assoc, node_at_app_ne in Hn by done. by eexists. }
        split.
        * intros (x & -> & H). exists x. split; [done|]. rewrite elem_of_list_In, filter_In in H. destruct H as [_ H]. by apply name_magic in H.
        * intros (x & -> & H). exists x. split; [done|]. rewrite elem_of_list_In, filter_In, <-elem_of_list_In. split; [by apply (Hx x)|]. by apply name_magic.
      + unfold glob0. destruct (show_name l) as [|a x] eqn:El; [exfalso; apply Hne; left|]. rewrite <-El in *.
        assert (∀ x', name_fits l x' ↔ x' = show_name l) as Hf by (intros; by apply name_literal). split.
        * destruct (g_lexists _ _) eqn:Eg; [|by intros ?%elem_of_nil]. intros ->%elem_of_list_singleton. exists (show_name l). split; [done|by apply Hf].
        * intros (x' & -> & ->%Hf). rewrite app_assoc in Hn. rewrite (tree_lexists _ _ Hn). left.
  Qed.
  (** The results that are entries of the tree. *)
  Lemma iglob_spec cs : Forall wf_comp cs → ∀ b r n, node_at m (S ++ r) = Some n → (b = true → isdir m (S ++ r) = true) →
    S ++ r ∈ iglob m (rev (S ++ map show_comp cs)) b ↔ leads [] cs r.
  Proof using Hwf HS HM.
    induction cs as [|c cs IH] using rev_ind; intros Hcs b r n Hn Hb.
    - cbn [map]. rewrite app_nil_r. assert (leads [] [] r ↔ r = []) as -> by (split; [by inversion 1|intros ->; constructor]). split.
      + intros H. assert (S ++ r ∈ iglob m (rev (S ++ map show_comp [])) b) as H1 by by rewrite app_nil_r.
        destruct S as [|z S' _] using rev_ind; [by apply elem_of_list_singleton in H|].
        rewrite iglob_step in H. rewrite existsb_app in HM. apply orb_false_iff in HM as [H2 H3]. cbn [existsb] in H3. rewrite orb_false_r in H3.
        rewrite H2, H3 in H. cbn [orb negb] in H. destruct HS as [t Ht]. apply tree_valid in Ht. apply valid_app in Ht as [_ [Hz _]%valid_one].
        destruct z as [|a z]; [done|]. destruct (g_lexists _ _); [|by apply elem_of_nil in H]. apply elem_of_list_singleton in H.
        rewrite <-(app_nil_r (S' ++ [a :: z])) in H at 2. by apply app_inv_head in H.
      + intros ->. rewrite app_nil_r in *. destruct S as [|z S' _] using rev_ind; [left|]. rewrite iglob_step. rewrite existsb_app in HM.
        apply orb_false_iff in HM as [H2 H3]. cbn [existsb] in H3. rewrite orb_false_r in H3. rewrite H2, H3. cbn [orb negb].
        pose proof (tree_valid _ _ Hn) as Hv. apply valid_app in Hv as [_ [Hz _]%valid_one]. destruct z as [|a z]; [done|].
        rewrite (tree_lexists _ _ Hn). left.
    - apply Forall_app in Hcs as [Hcs [Hc _]%Forall_cons]. rewrite map_app, app_assoc. cbn [map]. rewrite iglob_step, existsb_app, HM. cbn [orb].
      rewrite leads_app. destruct (existsb has_magic (map show_comp cs) || has_magic (show_comp c)) eqn:Em; cbn [negb].
      + rewrite elem_of_list_In, in_flat_map.
        assert (Hdirs : ∀ r', isdir m (S ++ r') = true → is_Some (node_at m (S ++ r')) →
          S ++ r' ∈ (if existsb has_magic (map show_comp cs) then iglob m (rev (S ++ map show_comp cs)) true else [S ++ map show_comp cs]) ↔ leads [] cs r').
        { intros r' Hi [n' Hn']. destruct (existsb has_magic (map show_comp cs)) eqn:E1.
          - by eapply IH.
          - rewrite elem_of_list_singleton, leads_literal by done. cbn [app]. split; [by intros ?%app_inv_head|by intros ->]. }
        split.
        * intros (d & Hd & H). apply in_map_iff in H as (y & E & H). apply elem_of_list_In in Hd, H.
          assert (∃ r', d = S ++ r') as [r' ->].
          { destruct (existsb has_magic (map show_comp cs)); [apply iglob_below in Hd as (r' & ? & _); [by exists r'|done]|].
            apply elem_of_list_singleton in Hd. eauto. }
          rewrite <-app_assoc in E. apply app_inv_head in E as <-. exists r'.
          assert (isdir m (S ++ r') = true ∧ is_Some (node_at m (S ++ r'))) as [Hi Hs].
          { destruct (decide (y = [])) as [->|Hy].
            - rewrite app_nil_r in Hn. split; [|by eexists]. destruct (has_magic (show_comp c)) eqn:E2.
              + destruct (bool_decide _); [|unfold glob1 in H; by apply elem_of_list_fmap in H as (? & ? & ?)].
                unfold glob2 in H. apply elem_of_app in H as [H|H]; [|by apply rlistdir_nil in H]. rewrite (isdir_g _ _ Hn) in H.
                destruct (isdir m (S ++ r')); [done|by apply elem_of_nil in H].
              + unfold glob0 in H. pose proof (comp_ne c Hc). destruct (show_comp c); [done|]. destruct (g_lexists _ _); [by apply elem_of_list_singleton in H|by apply elem_of_nil in H].
            - pose proof (tree_prefix_dir r' y n Hy Hn) as Hd'. split; [by apply isdir_dir|]. destruct Hd' as [t ->]. by eexists. }
          split; [by apply Hdirs|]. by eapply comp_step.
        * intros (r' & Hl & Hl2). assert (∃ y, r = r' ++ y) as [y ->].
          { destruct c as [|l]; [apply leads_dstar1 in Hl2 as (_ & a & -> & _)|apply leads_name1 in Hl2 as (x & -> & _)]; eauto. }
          exists (S ++ r').
          assert (isdir m (S ++ r') = true ∧ is_Some (node_at m (S ++ r'))) as [Hi Hs].
          { destruct (decide (y = [])) as [->|Hy].
            - rewrite app_nil_r in Hn, Hl2. split; [|by eexists]. destruct c as [|l]; [by apply leads_dstar1 in Hl2 as [? _]|].
              apply leads_name1 in Hl2 as (x & E & _). exfalso. apply (f_equal length) in E. rewrite app_length in E. simpl in E. lia.
            - pose proof (tree_prefix_dir r' y n Hy Hn) as Hd'. split; [by apply isdir_dir|]. destruct Hd' as [t ->]. by eexists. }
          split; [apply elem_of_list_In; by apply Hdirs|]. apply in_map_iff. exists y. split; [by rewrite app_assoc|]. apply elem_of_list_In. by eapply comp_step.
      + apply orb_false_iff in Em as [E1 E2]. setoid_rewrite (leads_literal cs Hcs E1). cbn [app]. destruct c as [|l]; [done|]. cbn [show_comp] in *.
        pose proof (comp_ne _ Hc) as Hne. cbn [show_comp] in Hne. destruct (show_name l) as [|a x] eqn:El; [done|]. rewrite <-El in *. destruct Hc as [Hwl _]. split.
        * destruct (g_lexists _ _); [|by intros ?%elem_of_nil]. intros H%elem_of_list_singleton. rewrite <-app_assoc in H. apply app_inv_head in H as ->.
          eexists. split; [done|]. apply leads_name1. eexists. split; [done|]. by apply name_literal.
        * intros (q & -> & (x' & -> & Hf)%leads_name1). apply name_literal in Hf as ->; [|done|done]. rewrite <-app_assoc.
          rewrite (tree_lexists _ _ Hn). left.
  Qed.
  (** With a slash at the end. *)
  Lemma iglob_slash cs : Forall wf_comp cs → ∀ r n, node_at m (S ++ r) = Some n →
    S ++ r ∈ iglob m (rev (S ++ map show_comp cs ++ [[]])) false ↔ leads [] cs r ∧ isdir m (S ++ r) = true.
  Proof using Hwf HS HM.
    intros Hcs r n Hn. rewrite app_assoc, iglob_step, existsb_app, HM. change (has_magic []) with false. cbn [orb]. rewrite orb_false_r.
    destruct (existsb has_magic (map show_comp cs)) eqn:E1; cbn [negb].
    - rewrite elem_of_list_In, in_flat_map. split.
      + intros (d & Hd & H). apply in_map_iff in H as (y & E & H). cbn [glob0] in H. destruct (g_isdir m d) eqn:Ei; [|done]. destruct H as [<-|[]].
        rewrite app_nil_r in E. subst d. rewrite (isdir_g _ _ Hn) in Ei. split; [|done]. apply elem_of_list_In in Hd. by eapply (iglob_spec cs Hcs true r n).
      + intros [H Hi]. exists (S ++ r). split; [apply elem_of_list_In; by eapply (iglob_spec cs Hcs true r n)|]. cbn [glob0]. rewrite (isdir_g _ _ Hn), Hi. left. by rewrite app_nil_r.
    - rewrite (leads_literal cs Hcs E1). cbn [app]. split.
      + destruct (g_isdir _ _) eqn:Ei; [|by intros ?%elem_of_nil]. intros H%elem_of_list_singleton. apply app_inv_head in H as ->. by rewrite (isdir_g _ _ Hn) in Ei.
      + intros [-> Hi]. rewrite (isdir_g _ _ Hn), Hi. left.
  Qed.
End tree.

(** ** Written patterns *)
Lemma item_nonl i : wf_item i → c_nl ∉ show_item i.
Proof.
  destruct i as [| |c|neg close l]; cbn [show_item].
  - intros _. vm_compute. set_solver.
  - intros _. vm_compute. set_solver.
  - intros [_ H] E. by apply elem_of_list_singleton in E as <-.
  - intros (Hl & _) H. rewrite !elem_of_app in H. unfold show_set in H. rewrite elem_of_app in H.
    destruct H as [H|[H|[[H|H]|H]]]; [vm_compute in H; set_solver|destruct neg; vm_compute in H; set_solver|destruct close; vm_compute in H; set_solver| |vm_compute in H; set_solver].
    induction Hl as [|x l Hx Hl IH]; [by apply elem_of_nil in H|]. cbn [map concat] in H. apply elem_of_app in H as [H|H]; [|done].
    destruct x as [c|a b]; cbn [show_elt] in H.
    + apply elem_of_list_singleton in H as <-. by destruct Hx.
    + destruct Hx as ([_ Ha] & [_ Hb] & _). apply elem_of_cons in H as [<-|H]; [done|].
      apply elem_of_app in H as [H|H]; [vm_compute in H; set_solver|]. by apply elem_of_list_singleton in H as <-.
Qed.
Lemma comp_nonl c : wf_comp c → c_nl ∉ show_comp c.
Proof.
  destruct c as [|l]; [intros _; vm_compute; set_solver|]. intros [Hl _]. cbn [show_comp].
  induction Hl as [|i l Hi Hl IH]; [by apply not_elem_of_nil|]. unfold show_name in *. cbn [map concat]. rewrite elem_of_app. intros [H|H]; [|done]. by eapply item_nonl.
Qed.
Lemma join_elem (c x : char) l : x ∈ join_on c l → x = c ∨ ∃ y, y ∈ l ∧ x ∈ y.
Proof.
  induction l as [|a l IH]; [by intros ?%elem_of_nil|]. destruct l as [|b l].
  - cbn [join_on]. intros H. right. exists a. split; [left|done].
  - change (join_on c (a :: b :: l)) with (a ++ c :: join_on c (b :: l)). rewrite elem_of_app, elem_of_cons. intros [H|[->|H]]; [right; exists a; split; [left|done]|by left|].
    apply IH in H as [?|(y & ? & ?)]; [by left|right]. exists y. split; [by right|done].
Qed.
Lemma pat_nonl p : wf_pat p → c_nl ∉ show_pat p.
Proof.
  intros (_ & Hc & _). unfold show_pat. rewrite !elem_of_app. intros [H|[H|H]].
  - destruct (anchored p); vm_compute in H; set_solver.
  - apply join_elem in H as [H|(y & Hy & H)]; [done|]. apply elem_of_list_fmap in Hy as (c & -> & Hy). rewrite Forall_forall in Hc. by eapply comp_nonl, H; apply Hc.
  - destruct (slash p); vm_compute in H; set_solver.
Qed.
Lemma filter_ne l : Forall (λ x : str, x ≠ []) l → List.filter (λ c, negb (bool_decide (c = []))) l = l.
Proof. induction 1 as [|x l Hx Hl IH]; [done|]. cbn [List.filter]. rewrite bool_decide_eq_false_2 by done. cbn [negb]. by rewrite IH. Qed.
Lemma pat_comps_show p : wf_pat p →
  pat_comps (show_pat p) = map show_comp (if anchored p then comps p else DStar :: comps p) ++ (if slash p then [[]] else []).
Proof.
  intros (Hne & Hc & _).
  assert (Hl : map show_comp (comps p) ≠ [] ∧ Forall (λ x, c_slash ∉ x) (map show_comp (comps p)) ∧ Forall (λ x, x ≠ []) (map show_comp (comps p))).
  { split; [by destruct (comps p)|]. rewrite !Forall_map. split; (eapply Forall_impl; [exact Hc|]); intros c ?; [by apply comp_noslash|by apply comp_ne]. }
  destruct Hl as (Hl & Hs & Hn).
  assert (Hhead : ∃ c s, join_on c_slash (map show_comp (comps p)) = c :: s ∧ c ≠ c_slash).
  { destruct (map show_comp (comps p)) as [|x l]; [done|]. apply Forall_cons in Hs as [Hs _]. apply Forall_cons in Hn as [Hn _]. destruct x as [|c x]; [done|].
    exists c. assert (c ≠ c_slash) by (intros ->; apply Hs; left). destruct l as [|y l]; [by exists x|]. eexists. split; [|done].
    change (join_on c_slash ((c :: x) :: y :: l)) with ((c :: x) ++ c_slash :: join_on c_slash (y :: l)). done. }
  destruct Hhead as (c & s & Ej & Hcs).
  set (j := join_on c_slash (map show_comp (comps p))) in *.
  set (t := j ++ (if slash p then lit "/" else [])).
  assert (split_on c_slash t = map show_comp (comps p) ++ (if slash p then [[]] else [])) as Es.
  { unfold t. destruct (slash p).
    - change (lit "/") with [c_slash]. rewrite split_on_mid. unfold j. by rewrite split_on_join.
    - rewrite !app_nil_r. unfold j. by rewrite split_on_join. }
  assert (final_slash t = slash p) as Ef.
  { unfold final_slash. rewrite Es. destruct (slash p); [by rewrite last_snoc|]. rewrite app_nil_r. destruct (last _) as [[|]|] eqn:El; try done.
    apply last_Some_elem_of in El. rewrite Forall_forall in Hn. by apply Hn in El. }
  assert (List.filter (λ c, negb (bool_decide (c = []))) (split_on c_slash t) = map show_comp (comps p)) as Eg.
  { rewrite Es, List.filter_app, filter_ne by done. destruct (slash p); cbn; by rewrite app_nil_r. }
  assert (t = c :: s ++ (if slash p then lit "/" else [])) as Et by (unfold t; by rewrite Ej).
  unfold pat_comps, show_pat. fold j. fold t. destruct (anchored p).
  - change (lit "/" ++ t) with (c_slash :: t). change (startswith [c_slash] (c_slash :: t)) with true. cbv iota beta.
    assert (lstrip_by is_slash (c_slash :: t) = t) as ->.
    { change (lstrip_by is_slash (c_slash :: t)) with (lstrip_by is_slash t). rewrite Et. cbn [lstrip_by]. unfold is_slash. by rewrite (proj2 (N.eqb_neq _ _) Hcs). }
    cbn [app]. by rewrite Eg, Ef.
  - cbn [app]. assert (startswith [c_slash] t = false) as ->.
    { rewrite Et. cbn [startswith]. destruct (N.eqb_spec c_slash c) as [<-|_]; done. }
    cbn [map app]. by rewrite Eg, Ef.
Qed.

Lemma pat_ne pt : wf_pat pt → show_pat pt ≠ [].
Proof.
  intros (Hne & Hc & _). unfold show_pat. destruct (comps pt) as [|c cs]; [done|]. apply Forall_cons in Hc as [Hc _]. apply comp_ne in Hc.
  intros [_ [H _]%app_nil]%app_nil. cbn [map] in H. destruct (map show_comp cs); cbn [join_on] in H; [done|]. by apply app_nil in H as [? _].
Qed.

(** ** All matches *)
Lemma scan_shape (m : fs) : wf_fs m → ∀ n p l, scan_tree_aux n m p = Ok l → ∀ x, x ∈ l → ∃ y, x = p ++ y ∧ y ≠ [] ∧ valid_comps y.
Proof.
  intros Hwf n. induction n as [|n IH]; intros p l; [done|]. cbn [scan_tree_aux]. destruct (scandir m p) as [es|] eqn:Es; [|done].
  assert (Hv : Forall (λ xn, valid_name xn.1) es).
  { unfold scandir in Es. destruct (resolve true m p) as [q|]; [|done]. destruct (node_at m q) as [[]|]; try done. injection Es as <-.
    apply Forall_forall. intros [x k] H. apply elem_of_entries in H. apply (wf_valid m Hwf) in H. by apply valid_app in H as [_ H%valid_one]. }
  clear Es. revert l. induction Hv as [|[x k] es Hx Hes IH2]; intros l; cbn [foldr]; [intros [= <-] x ?%elem_of_nil; done|].
  destruct (foldr _ _ es) as [l0|] eqn:Ef; [|done]. specialize (IH2 l0 eq_refl). cbn [fst snd] in *.
  assert (∃ y, p ++ [x] = p ++ y ∧ y ≠ [] ∧ valid_comps y) as H0 by (exists [x]; split; [done|]; split; [done|by apply valid_one]).
  destruct (is_Dir k).
  - destruct (scan_tree_aux n m (p ++ [x])) as [l'|] eqn:El; [|done]. intros [= <-] z [->|H]%elem_of_cons; [done|].
    apply elem_of_app in H as [H|H]; [|by apply IH2]. destruct (IH _ _ El z H) as (y & -> & Hy & Hyv). exists (x :: y). rewrite <-app_assoc. split; [done|]. split; [done|]. by constructor.
  - intros [= <-] z [->|H]%elem_of_cons; [done|by apply IH2].
Qed.
Lemma walk_valid p : valid_comps p → ∀ d, walk d p = d ++ p.
Proof.
  induction 1 as [|x p Hx Hp IH]; intros d; cbn [walk]; [by rewrite app_nil_r|].
  destruct Hx as (H1 & _ & H2 & H3). rewrite bool_decide_eq_false_2 by naive_solver. rewrite bool_decide_eq_false_2 by done. rewrite IH. by rewrite <-app_assoc.
Qed.
Lemma common_prefix_app (a b : list str) : common_prefix a (a ++ b) = a.
Proof. induction a as [|x a IH]; [by destruct b|]. cbn [app common_prefix]. rewrite bool_decide_eq_true_2 by done. by rewrite IH. Qed.
Lemma relpath_below (s p : path) : valid_comps (s ++ p) → relpath s (s ++ p) = p.
Proof.
  intros H. unfold relpath. rewrite walk_valid by done. cbn [app]. rewrite common_prefix_app, Nat.sub_diag, drop_app. done.
Qed.

Definition keep_line (l : pline) : bool := match l with Comment _ _ => false | _ => true end.

Section all.
  Context (m : fs) (Hwf : wf_fs m) (S : path) (HS : dir_at m S) (HM : existsb has_magic S = false).

  Lemma add_matches_spec ms : (∀ q, q ∈ ms → ∃ r, q = S ++ r ∧ valid_comps r) → ∀ acc X, add_matches m S ms acc = Ok X →
    ∀ p n, node_at m (S ++ p) = Some n → p ∈ X ↔ p ∈ acc ∨ ∃ r, S ++ r ∈ ms ∧ r `prefix_of` p.
  Proof using Hwf HS.
    pose proof (wf_dir_valid m Hwf _ HS) as HvS.
    induction ms as [|q ms IH]; intros Hms acc X HX p n Hn.
    - injection HX as <-. split; [by left|]. intros [?|(r & ?%elem_of_nil & _)]; done.
    - destruct (Hms q) as (r & -> & Hr); [left|]. assert (Hv : valid_comps (S ++ r)) by by apply valid_app.
      cbn [add_matches] in HX. rewrite relpath_below, undot_valid in HX by done.
      assert (IH' : ∀ q, q ∈ ms → ∃ r, q = S ++ r ∧ valid_comps r) by (intros; apply Hms; by right). specialize (IH IH').
      assert (Hrest : (∃ r', S ++ r' ∈ (S ++ r) :: ms ∧ r' `prefix_of` p) ↔ r `prefix_of` p ∨ ∃ r', S ++ r' ∈ ms ∧ r' `prefix_of` p).
      { setoid_rewrite elem_of_cons. split; [intros (r' & [E%app_inv_head|?] & ?); [subst; by left|right; eauto]|]. intros [?|(r' & ? & ?)]; eauto. }
      rewrite Hrest. clear Hrest.
      assert (Hdir : r `prefix_of` p → r ≠ p → ∃ l, scan_tree m (S ++ r) = Ok l ∧ S ++ p ∈ l).
      { intros [y ->] Hy. assert (y ≠ []) as Hy' by (intros ->; by rewrite app_nil_r in Hy).
        destruct (scan_tree_dir m Hwf (S ++ r)) as (l & El & _ & Hl).
        - rewrite app_assoc, node_at_app_ne in Hn by done. eapply (wf_anc m Hwf); [exact Hn|by exists y|]. intros E. rewrite <-(app_nil_r (S ++ r)) in E at 1. by apply app_inv_head in E as <-.
        - exists l. split; [done|]. apply Hl. exists y, n. rewrite app_assoc. split; [done|]. split; [done|]. by rewrite app_assoc, node_at_app_ne in Hn. }
      destruct (scan_tree m (S ++ r)) as [l|x] eqn:El.
      + rewrite (IH _ _ HX p n Hn), !elem_of_union, elem_of_list_to_set, elem_of_list_fmap, elem_of_singleton.
        assert ((∃ y, p = relpath S y ∧ y ∈ l) ∨ p = r ↔ r `prefix_of` p) as Hp.
        { split.
          - intros [(y & -> & Hy)| ->]; [|done]. destruct (scan_shape m Hwf _ _ _ El y Hy) as (z & -> & _ & Hz). rewrite <-app_assoc, relpath_below; [by exists z|].
            rewrite app_assoc. by apply valid_app.
          - intros Hp. destruct (decide (r = p)) as [->|Hne]; [by right|left]. destruct (Hdir Hp Hne) as (l' & [= <-] & Hin). exists (S ++ p). split; [|done].
            symmetry. apply relpath_below. by apply (tree_valid m Hwf _ _ Hn). }
        rewrite <-Hp. tauto.
      + assert (x = NotADir ∧ add_matches m S ms ({[r]} ∪ acc) = Ok X) as [-> HX'] by by destruct x.
        rewrite (IH _ _ HX' p n Hn), !elem_of_union, elem_of_singleton.
        assert (p = r ↔ r `prefix_of` p) as Hp.
        { split; [by intros ->|]. intros Hp. destruct (decide (r = p)) as [->|Hne]; [done|]. by destruct (Hdir Hp Hne) as (l' & ? & _). }
        rewrite <-Hp. tauto.
  Qed.
  Lemma pattern_results pt : wf_pat pt →
    (∀ q, q ∈ iglob m (rev (S ++ pat_comps (show_pat pt))) false → ∃ r, q = S ++ r ∧ valid_comps r) ∧
    ∀ r n, node_at m (S ++ r) = Some n → S ++ r ∈ iglob m (rev (S ++ pat_comps (show_pat pt))) false ↔ matches m S pt r.
  Proof using Hwf HS HM.
    intros Hp. rewrite pat_comps_show by done. destruct Hp as (_ & Hc & _). unfold matches.
    set (cs := if anchored pt then comps pt else DStar :: comps pt).
    assert (Forall wf_comp cs) as Hcs by (unfold cs; destruct (anchored pt); [done|by constructor]). destruct (slash pt).
    - split; [|intros r n Hn; rewrite iglob_slash by done; naive_solver].
      intros q. rewrite app_assoc, iglob_step, existsb_app, HM. change (has_magic []) with false. cbn [orb]. rewrite orb_false_r.
      destruct (existsb has_magic (map show_comp cs)) eqn:E1; cbn [negb].
      + rewrite elem_of_list_In, in_flat_map. intros (d & Hd & H). apply elem_of_list_In in Hd. apply in_map_iff in H as (y & <- & H). cbn [glob0] in H.
        destruct (g_isdir m d); [|done]. destruct H as [<-|[]]. rewrite app_nil_r. by eapply (iglob_below m Hwf S HS HM cs).
      + destruct (g_isdir _ _) eqn:Ei; [|by intros ?%elem_of_nil]. intros ->%elem_of_list_singleton. eexists. split; [done|].
        clear -Hcs E1. induction Hcs as [|x l Hx Hl IH]; [constructor|]. cbn [map existsb] in *. apply orb_false_iff in E1 as [H1 H2]. constructor; [|by apply IH].
        destruct x as [|l']; [done|]. by apply name_valid.
    - rewrite app_nil_r. split; [intros q; by apply iglob_below|]. intros r n Hn. rewrite iglob_spec by done. naive_solver.
  Qed.

  Lemma glob_lines_spec ls : Forall wf_line ls → ∀ acc X, glob_lines m S (map show_line (List.filter keep_line ls)) acc = Ok X →
    ∀ p n, node_at m (S ++ p) = Some n → p ∈ X ↔ p ∈ acc ∨ ∃ ws pt ws' r, Pattern ws pt ws' ∈ ls ∧ matches m S pt r ∧ r `prefix_of` p.
  Proof using Hwf HS HM.
    induction 1 as [|l ls Hl Hls IH]; intros acc X HX p n Hn.
    - injection HX as <-. split; [by left|]. intros [?|(? & ? & ? & ? & ?%elem_of_nil & _)]; done.
    - assert (Hskip : (∀ ws pt ws', l ≠ Pattern ws pt ws') →
        (∃ ws pt ws' r, Pattern ws pt ws' ∈ l :: ls ∧ matches m S pt r ∧ r `prefix_of` p) ↔ ∃ ws pt ws' r, Pattern ws pt ws' ∈ ls ∧ matches m S pt r ∧ r `prefix_of` p).
      { intros Hl'. setoid_rewrite elem_of_cons. split; [|naive_solver]. intros (ws & pt & ws' & r & [E|?] & ?); [by destruct (Hl' ws pt ws')|naive_solver]. }
      destruct l as [ws|ws rest|ws pt ws']; cbn [List.filter keep_line] in HX.
      + cbn [map show_line glob_lines] in HX.
        assert (strip ws = []) as E.
        { rewrite <-(app_nil_r ws). apply (strip_unique ws [] []); [|constructor|by split; intros ? r E; destruct r]. eapply Forall_impl; [exact Hl|]. by intros ? [? _]. }
        rewrite E in HX. rewrite Hskip by done. by eapply IH.
      + rewrite Hskip by done. by eapply IH.
      + destruct Hl as (Hw & Hp & Hw'). cbn [map show_line glob_lines] in HX.
        assert (strip (ws ++ show_pat pt ++ ws') = show_pat pt) as E.
        { apply strip_unique; [eapply Forall_impl; [exact Hw|]; by intros ? [? _]|eapply Forall_impl; [exact Hw'|]; by intros ? [? _]|].
          apply stripped_edges. apply Hp. }
        rewrite E in HX. pose proof (pat_ne pt Hp) as Hne.
        destruct (pattern_results pt Hp) as [Hb Hm]. destruct (show_pat pt) as [|c0 s0] eqn:Ep; [done|]. rewrite <-Ep in *.
        destruct (add_matches _ _ _ _) as [acc'|] eqn:Ea; [|done].
        rewrite (IH _ _ HX p n Hn), (add_matches_spec _ Hb _ _ Ea p n Hn).
        assert ((∃ r, S ++ r ∈ iglob m (rev (S ++ pat_comps (show_pat pt))) false ∧ r `prefix_of` p) ↔ ∃ r, matches m S pt r ∧ r `prefix_of` p) as ->.
        { assert (∀ r, r `prefix_of` p → is_Some (node_at m (S ++ r))) as Hpre.
          { intros r [y ->]. destruct (decide (y = [])) as [->|Hy]; [rewrite app_nil_r in Hn; by eexists|].
            destruct (tree_prefix_dir m Hwf S r y n Hy Hn) as [t Ht]. by eexists. }
          split; intros (r & H & Hr); destruct (Hpre r Hr) as [k Hk]; exists r; (split; [|done]); by eapply Hm. }
        setoid_rewrite elem_of_cons. split.
        * intros [[?|(r & ? & ?)]|(ws1 & pt1 & ws2 & r & ? & ? & ?)]; [by left|right; exists ws, pt, ws', r; tauto|right; exists ws1, pt1, ws2, r; tauto].
        * intros [?|(ws1 & pt1 & ws2 & r & [E'|?] & ? & ?)]; [by left; left| |right; exists ws1, pt1, ws2, r; tauto]. injection E' as -> -> ->. left. right. eauto.
  Qed.

End all.

Lemma show_line_nonl l : wf_line l → c_nl ∉ show_line l.
Proof.
  assert (∀ s, white s → c_nl ∉ s) as Hw.
  { intros s H Hin. unfold white in H. rewrite Forall_forall in H. by apply H in Hin as [_ ?]. }
  destruct l as [ws|ws rest|ws pt ws']; cbn [wf_line show_line].
  - apply Hw.
  - intros [H1 H2]. rewrite !elem_of_app. intros [H|[H|H]]; [by apply Hw in H|vm_compute in H; set_solver|done].
  - intros (H1 & Hp & H2). rewrite !elem_of_app. intros [H|[H|H]]; [by apply Hw in H|by apply pat_nonl in H|by apply Hw in H].
Qed.
Lemma split_file ls : Forall wf_line ls → split_on c_nl (show_file ls) = map show_line ls ++ [[]].
Proof.
  induction 1 as [|l ls Hl Hls IH]; [done|]. unfold show_file in *. cbn [map concat]. rewrite <-app_assoc. cbn [app].
  rewrite split_on_app by by apply show_line_nonl. by rewrite IH.
Qed.
Lemma comment_line l : wf_line l → comment_text (show_line l) = match l with Comment _ _ => true | _ => false end.
Proof.
  assert (∀ s, white s → Forall (λ c, is_space c = true) s) as Hw by (intros s H; eapply Forall_impl; [exact H|]; by intros ? [? _]).
  unfold comment_text. destruct l as [ws|ws rest|ws pt ws']; cbn [wf_line show_line].
  - intros H. by rewrite lstrip_by_all by by apply Hw.
  - intros [H _]. rewrite lstrip_by_app by by apply Hw. done.
  - intros (H & Hp & _). rewrite lstrip_by_app by by apply Hw. pose proof (pat_ne pt Hp) as Hne. destruct Hp as (_ & _ & Hs & Hh).
    apply stripped_edges in Hs as [Hs _]. destruct (show_pat pt) as [|c s] eqn:E; [done|].
    cbn [app lstrip_by]. rewrite (Hs c s eq_refl). apply not_true_iff_false. rewrite startswith_spec. intros [k Hk]. injection Hk as Hc _. subst c. by apply Hh.
Qed.
Lemma read_file ls : Forall wf_line ls → pattern_lines (show_file ls) = map show_line (List.filter keep_line ls) ++ [[]].
Proof.
  intros H. unfold pattern_lines. rewrite split_file, List.filter_app by done. f_equal.
  induction H as [|l ls Hl Hls IH]; [done|]. cbn [map List.filter]. rewrite comment_line by done. destruct l as [ws|ws rest|ws pt ws']; cbn [negb].
  - cbn [keep_line map]. by rewrite IH.
  - cbn [keep_line map]. by rewrite IH.
  - cbn [keep_line map]. by rewrite IH.
Qed.
Section file.
  Context (m : fs) (Hwf : wf_fs m) (S : path) (HS : dir_at m S) (HM : existsb has_magic S = false).
  Lemma glob_lines_blank l acc : glob_lines m S (l ++ [[]]) acc = glob_lines m S l acc.
  Proof.
    revert acc. induction l as [|x l IH]; intros acc; [done|]. cbn [app glob_lines]. destruct (strip x) as [|c s]; [apply IH|].
    destruct (add_matches _ _ _ _); [apply IH|done].
  Qed.
  Theorem all_matches_spec ls X : Forall wf_line ls → all_matches m S (show_file ls) = Ok X →
    ∀ p n, node_at m (S ++ p) = Some n → p ∈ X ↔ ∃ ws pt ws' r, Pattern ws pt ws' ∈ ls ∧ matches m S pt r ∧ r `prefix_of` p.
  Proof using Hwf HS HM.
    intros Hls HX p n Hn. unfold all_matches in HX. rewrite read_file, glob_lines_blank in HX by done.
    rewrite (glob_lines_spec m Hwf S HS HM ls Hls _ _ HX p n Hn). set_solver.
  Qed.
End file.

(** ** Without links nothing fails *)
Lemma namei_nolinks n f (m : fs) r : valid_comps r → ∀ cur q, (∀ p t k, cur `prefix_of` p → m !! p ≠ Some (Link t k)) →
  namei n f m cur r = Ok q → q = cur ++ r.
Proof.
  induction 1 as [|c r Hc Hr IH]; intros cur q Hl.
  - destruct n; cbn; intros [= <-]; by rewrite app_nil_r.
  - assert (namei n f m cur (c :: r) = match m !! (cur ++ [c]) with
      | None => match r with [] => Ok (cur ++ [c]) | _ => Err FileNotFound end
      | Some (Dir _) => namei n f m (cur ++ [c]) r
      | Some (File _ _) => match r with [] => Ok (cur ++ [c]) | _ => Err NotADir end
      | Some (Link _ _) => namei n f m cur (c :: r) end) as ->.
    { destruct n; cbn; (rewrite bool_decide_false by (by intros ->; destruct Hc as (_ & _ & _ & ?))); by destruct (m !! (cur ++ [c])) as [[]|]. }
    destruct (m !! (cur ++ [c])) as [[]|] eqn:E.
    + destruct r; [by intros [= <-]|done].
    + exfalso. eapply Hl; [|exact E]. by exists [c].
    + intros H. apply IH in H as ->; [by rewrite <-app_assoc|]. intros p t k [y ->]. apply Hl. exists (c :: y). by rewrite <-app_assoc.
    + destruct r; [by intros [= <-]|done].
Qed.
Section total.
  Context (m : fs) (Hwf : wf_fs m) (S : path) (HS : dir_at m S) (HM : existsb has_magic S = false).
  Context (Hlinks : ∀ p t k, m !! (S ++ p) ≠ Some (Link t k)).

  Lemma resolve_in f r q : valid_comps r → resolve f m (S ++ r) = Ok q → q = S ++ r.
  Proof using Hwf HS Hlinks.
    intros Hr. unfold resolve. rewrite namei_dirs; [|by apply (wf_dir_valid m Hwf)|].
    - apply namei_nolinks; [done|]. intros p t k [y ->]. cbn [app]. apply Hlinks.
    - intros p _ Hp. cbn [app]. by apply (wf_dir_anc m Hwf S).
  Qed.
  Lemma valid_in r : valid_comps r → undot (S ++ r) = S ++ r ∧ last (S ++ r) ≠ Some dot.
  Proof using Hwf HS. intros Hr. assert (valid_comps (S ++ r)) by (apply valid_app; split; [by apply (wf_dir_valid m Hwf)|done]). split; [by apply undot_valid|by apply last_valid]. Qed.
  Lemma stat_in f r n : valid_comps r → stat f m (S ++ r) = Ok n → node_at m (S ++ r) = Some n.
  Proof using Hwf HS Hlinks.
    intros Hr. unfold stat. destruct (resolve f m (S ++ r)) as [q|] eqn:E; [|done]. apply resolve_in in E as ->; [|done]. destruct (node_at m (S ++ r)); [by intros [= ->]|done].
  Qed.
  Lemma lexists_in r : valid_comps r → g_lexists m (S ++ r) = true → is_Some (node_at m (S ++ r)).
  Proof using Hwf HS Hlinks.
    intros Hr. destruct (valid_in r Hr) as [E1 E2]. unfold g_lexists. rewrite bool_decide_eq_false_2, E1 by done.
    destruct (stat false m (S ++ r)) eqn:E; [|done]. apply stat_in in E; [by eexists|done].
  Qed.
  Lemma isdir_in r : valid_comps r → g_isdir m (S ++ r) = true → is_Some (node_at m (S ++ r)).
  Proof using Hwf HS Hlinks.
    intros Hr. destruct (valid_in r Hr) as [E1 E2]. unfold g_isdir, isdir. rewrite E1.
    destruct (stat true m (S ++ r)) eqn:E; [|done]. apply stat_in in E; [by eexists|done].
  Qed.
  Lemma listdir_in r x b : valid_comps r → x ∈ listdir m (S ++ r) b → is_Some (m !! (S ++ r ++ [x])).
  Proof using Hwf HS Hlinks.
    intros Hr. destruct (valid_in r Hr) as [E1 E2]. unfold listdir, scandir. rewrite E1. destruct (resolve true m (S ++ r)) as [q|] eqn:E; [|by intros ?%elem_of_nil].
    apply resolve_in in E as ->; [|done]. destruct (node_at m (S ++ r)) as [[]|]; try by intros ?%elem_of_nil.
    rewrite elem_of_list_In, filter_In, <-elem_of_list_In. intros [H _]. apply elem_of_list_fmap in H as ([y n] & -> & H). apply elem_of_entries in H. rewrite app_assoc. by eexists.
  Qed.
  Lemma rlistdir_in n : ∀ r y b, valid_comps r → y ∈ rlistdir m n (S ++ r) b → is_Some (m !! (S ++ r ++ y)).
  Proof using Hwf HS Hlinks.
    induction n as [|n IH]; intros r y b Hr; cbn [rlistdir]; [by intros ?%elem_of_nil|]. rewrite elem_of_list_In, in_flat_map. intros (x & Hx & H).
    apply filter_In in Hx as [Hx _]. apply elem_of_list_In in Hx. destruct H as [<-|H]; [by eapply listdir_in|].
    apply in_map_iff in H as (y' & <- & H). apply elem_of_list_In in H. rewrite <-app_assoc in H. apply IH in H.
    - by rewrite <-app_assoc in H.
    - apply valid_app. split; [done|]. apply valid_one. by eapply listdir_valid.
  Qed.
  Lemma results_exist pt q : wf_pat pt → q ∈ iglob m (rev (S ++ pat_comps (show_pat pt))) false → is_Some (node_at m q).
  Proof using Hwf HS HM Hlinks.
    intros Hp Hq. destruct (proj1 (pattern_results m Hwf S HS HM pt Hp) q Hq) as (r & -> & Hr).
    rewrite pat_comps_show in Hq by done. destruct Hp as (Hne & Hc & _).
    set (cs := if anchored pt then comps pt else DStar :: comps pt) in *.
    assert (Forall wf_comp cs ∧ cs ≠ []) as [Hcs Hn] by (unfold cs; destruct (anchored pt); [done|split; [by constructor|done]]).
    destruct (slash pt).
    - rewrite app_assoc, iglob_step, existsb_app, HM in Hq. change (has_magic []) with false in Hq. cbn [orb] in Hq. rewrite orb_false_r in Hq.
      destruct (existsb has_magic (map show_comp cs)) eqn:E1; cbn [negb] in Hq.
      + rewrite elem_of_list_In, in_flat_map in Hq. destruct Hq as (d & Hd & H). apply in_map_iff in H as (y & E & H). cbn [glob0] in H.
        destruct (g_isdir m d) eqn:Ei; [|done]. destruct H as [<-|[]]. rewrite app_nil_r in E. subst d. by apply isdir_in.
      + destruct (g_isdir m (S ++ map show_comp cs)) eqn:Ei; [|by apply elem_of_nil in Hq]. apply elem_of_list_singleton in Hq. rewrite <-Hq in Ei. by apply isdir_in.
    - rewrite app_nil_r in Hq. destruct cs as [|c cs' _] using rev_ind; [done|]. apply Forall_app in Hcs as [Hcs [Hc1 _]%Forall_cons].
      rewrite map_app, app_assoc in Hq. cbn [map] in Hq. rewrite iglob_step, existsb_app, HM in Hq. cbn [orb] in Hq.
      destruct (existsb has_magic (map show_comp cs') || has_magic (show_comp c)) eqn:Em; cbn [negb] in Hq.
      + rewrite elem_of_list_In, in_flat_map in Hq. destruct Hq as (d & Hd & H). apply in_map_iff in H as (y & E & H). apply elem_of_list_In in H.
        assert (∃ r', d = S ++ r') as [r' ->].
        { destruct (existsb has_magic (map show_comp cs')); [apply elem_of_list_In, iglob_below in Hd as (r' & ? & _); [by exists r'|done..]|].
          destruct Hd as [<-|[]]. eauto. }
        rewrite <-app_assoc in E. apply app_inv_head in E as <-. pose proof Hr as [Hr1 Hr2]%valid_app.
        assert (is_Some (m !! (S ++ r' ++ y)) → is_Some (node_at m (S ++ r' ++ y))) as Hgo.
        { intros [k Hk]. exists k. destruct (decide (S ++ r' ++ y = [])) as [E|E]; [rewrite E in Hk; by rewrite (wf_nil m Hwf) in Hk|]. by rewrite node_at_ne. }
        destruct (has_magic (show_comp c)).
        * destruct (bool_decide _).
          -- unfold glob2 in H. apply elem_of_app in H as [H|H]; [|by apply Hgo; eapply rlistdir_in].
             destruct (g_isdir m (S ++ r')) eqn:Ei; [|by apply elem_of_nil in H]. apply elem_of_list_singleton in H as ->. rewrite app_nil_r. by apply isdir_in.
          -- unfold glob1 in H. apply elem_of_list_fmap in H as (x & -> & H). rewrite elem_of_list_In, filter_In, <-elem_of_list_In in H.
             apply Hgo. by eapply listdir_in, H.
        * unfold glob0 in H. destruct (show_comp c) as [|a s] eqn:Ec; [by apply comp_ne in Hc1|]. destruct (g_lexists m ((S ++ r') ++ [a :: s])) eqn:Eg; [|by apply elem_of_nil in H].
          apply elem_of_list_singleton in H as ->. rewrite <-app_assoc in Eg. by apply lexists_in in Eg.
      + destruct (show_comp c) as [|a s] eqn:Ec; [by apply comp_ne in Hc1|]. destruct (g_lexists m ((S ++ _) ++ [a :: s])) eqn:Eg; [|by apply elem_of_nil in Hq].
        apply elem_of_list_singleton in Hq. rewrite <-Hq in Eg. by apply lexists_in.
  Qed.
  Lemma add_matches_total ms : (∀ q, q ∈ ms → ∃ r, q = S ++ r ∧ valid_comps r ∧ is_Some (node_at m q)) → ∀ acc, ∃ X, add_matches m S ms acc = Ok X.
  Proof using Hwf HS Hlinks.
    induction ms as [|q ms IH]; intros Hms acc; [by exists acc|]. cbn [add_matches]. destruct (Hms q) as (r & -> & Hr & n & Hn); [left|].
    destruct (valid_in r Hr) as [-> _].
    assert ((∃ l, scan_tree m (S ++ r) = Ok l) ∨ scan_tree m (S ++ r) = Err NotADir) as [[l ->]| ->].
    { destruct n as [c t|t k|t].
      - right. destruct (decide (S ++ r = [])) as [E|E]; [by rewrite E in Hn|]. rewrite node_at_ne in Hn by done. by eapply scan_tree_file.
      - destruct (decide (S ++ r = [])) as [E|E]; [by rewrite E in Hn|]. rewrite node_at_ne in Hn by done. by apply Hlinks in Hn.
      - left. destruct (scan_tree_dir m Hwf (S ++ r)) as (l & ? & _); [by exists t|]. by exists l. }
    - apply IH. intros q Hq. apply Hms. by right.
    - apply IH. intros q Hq. apply Hms. by right.
  Qed.
  Lemma all_matches_total ls : Forall wf_line ls → ∃ X, all_matches m S (show_file ls) = Ok X.
  Proof using Hwf HS HM Hlinks.
    intros Hls. unfold all_matches. rewrite read_file, glob_lines_blank by done. generalize (∅ : gset path).
    induction Hls as [|l ls Hl Hls IH]; intros acc; [by exists acc|]. destruct l as [ws|ws rest|ws pt ws']; cbn [List.filter keep_line map]; [|done|].
    - cbn [glob_lines show_line]. assert (strip ws = []) as ->; [|done].
      rewrite <-(app_nil_r ws). apply (strip_unique ws [] []); [|constructor|by split; intros ? r E; destruct r]. eapply Forall_impl; [exact Hl|]. by intros ? [? _].
    - destruct Hl as (Hw & Hp & Hw'). cbn [show_line glob_lines].
      assert (strip (ws ++ show_pat pt ++ ws') = show_pat pt) as ->.
      { apply strip_unique; [eapply Forall_impl; [exact Hw|]; by intros ? [? _]|eapply Forall_impl; [exact Hw'|]; by intros ? [? _]|]. apply stripped_edges. apply Hp. }
      pose proof (pat_ne pt Hp) as Hne. destruct (show_pat pt) as [|c0 s0] eqn:Ep; [done|]. rewrite <-Ep.
      destruct (add_matches_total (iglob m (rev (S ++ pat_comps (show_pat pt))) false)) with acc as [X ->]; [|apply IH].
      intros q Hq. destruct (proj1 (pattern_results m Hwf S HS HM pt Hp) q Hq) as (r & -> & Hr). exists r. split; [done|]. split; [done|]. by eapply results_exist.
  Qed.
End total.
