(** Lemmas about the command line (Cli.v). *)
From Verif Require Export Cli.
From stdpp Require Import options.

(** A word that cannot be taken for an option. *)
Definition plain (s : str) : Prop := head s ≠ Some c_dash.
Lemma plain_arg os s : plain s → parse_optional os s = Some TArg.
Proof. destruct s as [|d s]; [done|]. intros H. simpl. destruct (N.eqb_spec d c_dash) as [->|]; [by destruct H|done]. Qed.
Lemma plain_dashes s : plain s → str_eqb s [c_dash; c_dash] = false.
Proof. intros H. apply bool_decide_eq_false. by intros ->. Qed.
Lemma classify_snd os l ts : classify os l = Some ts → ts.*2 = l.
Proof.
  revert ts. induction l as [|s l IH]; intros ts E; simpl in E; [by simplify_eq|].
  destruct (str_eqb s [c_dash; c_dash]).
  - simplify_eq. simpl. f_equal. clear IH. induction l as [|x l IH]; simpl; [done|]. by f_equal.
  - destruct (parse_optional os s) as [t|]; [|done]. destruct (classify os l) as [ts'|]; [|done]. simplify_eq/=. f_equal. by apply IH.
Qed.
Lemma classify_some os l : (∀ s, s ∈ l → is_Some (parse_optional os s)) → is_Some (classify os l).
Proof.
  induction l as [|s l IH]; intros H; simpl; [by eexists|]. destruct (str_eqb s _); [by eexists|].
  destruct (H s) as [t ->]; [by left|]. destruct IH as [ts ->]; [intros; apply H; by right|]. by eexists.
Qed.
Lemma classify_cons os s t l ts : str_eqb s [c_dash; c_dash] = false → parse_optional os s = Some t → classify os l = Some ts →
  classify os (s :: l) = Some ((t, s) :: ts).
Proof. intros H1 H2 H3. simpl. by rewrite H1, H2, H3. Qed.

(** ** What an option has to do with the argument that it comes from *)
(** [s] asks for [a]: it is the beginning of a long option, up to "=", or a group
    of short ones. *)
Definition asks (os : opts) (a : act) (s : str) : Prop :=
  (∃ l pre post, (l, a) ∈ os ∧ s = pre ++ post ∧ startswith [c_dash; c_dash] pre = true ∧ startswith pre l = true
     ∧ (post = [] ∨ ∃ v, post = c_eq :: v ∧ takes a = true))
  ∨ (∃ ch x, ([c_dash; ch], a) ∈ os ∧ s = c_dash :: x ∧ ch ∈ x ∧ plain x).
(** All options are "-x" or "--word". *)
Definition good_opts (os : opts) : Prop := ∀ o a, (o, a) ∈ os → (∃ ch, o = [c_dash; ch] ∧ ch ≠ c_dash) ∨ startswith [c_dash; c_dash] o = true.
Lemma good_cmd c : good_opts (cmd_opts c).
Proof.
  intros o a H. unfold cmd_opts in H.
  destruct c; rewrite ?elem_of_cons, ?elem_of_nil in H; destruct_or?; simplify_eq; try done; try (by right); by (left; eexists).
Qed.
Lemma good_main : good_opts main_opts.
Proof.
  intros o a H. unfold main_opts in H. rewrite ?elem_of_cons, ?elem_of_nil in H; destruct_or?; simplify_eq; try done; try (by right); by (left; eexists).
Qed.
Lemma opt_act_in os s a : opt_act os s = Some a → (s, a) ∈ os.
Proof.
  unfold opt_act. destruct (List.find _ os) as [[o b]|] eqn:E; [|done]. intros [= <-]. apply List.find_some in E as [Hin Hb].
  apply bool_decide_eq_true in Hb. simpl in Hb. subst. by apply elem_of_list_In.
Qed.
Lemma startswith_prefix p x : startswith p x = true ↔ p `prefix_of` x.
Proof.
  revert x. induction p as [|a p IH]; intros x; [split; [intros _; apply prefix_nil|by destruct x]|]. destruct x as [|b x]; simpl.
  - split; [done|]. by intros H%prefix_nil_not.
  - split.
    + intros [E H]%andb_true_iff. apply N.eqb_eq in E as ->. by apply prefix_cons, IH.
    + intros H. pose proof (prefix_cons_inv_1 _ _ _ _ H) as ->. rewrite N.eqb_refl. by apply IH, (prefix_cons_inv_2 _ _ _ _ H).
Qed.
Lemma partition_on_spec c x : contains_char c x = true → x = (partition_on c x).1 ++ c :: (partition_on c x).2.
Proof.
  induction x as [|a x IH]; simpl; [done|]. rewrite N.eqb_sym. destruct (N.eqb_spec a c) as [->|Hn]; simpl; [done|].
  intros H. destruct (partition_on c x). simpl. f_equal. by apply IH.
Qed.
Lemma startswith_refl x : startswith x x = true.
Proof. by apply startswith_prefix. Qed.

(** What [parse_optional] finds. *)
Definition finds (os : opts) (s : str) (a : act) (o : str) (sep : bool) (ex : option str) : Prop :=
  (o, a) ∈ os ∧
  (if long o then (∃ pre post, s = pre ++ post ∧ startswith [c_dash; c_dash] pre = true ∧ startswith pre o = true
     ∧ ((post = [] ∧ ex = None) ∨ ∃ v, post = c_eq :: v ∧ ex = Some v))
   else ∃ post, s = o ++ post ∧ ((post = [] ∧ ex = None) ∨ (∃ v, post = c_eq :: v ∧ ex = Some v) ∨ ex = Some post)).
Lemma parse_optional_finds os s a o sep ex : good_opts os →
  parse_optional os s = Some (TOpt (Some (a, o, sep, ex))) → finds os s a o sep ex.
Proof.
  intros Hg E. destruct s as [|d s']; [done|]. cbn [parse_optional] in E.
  destruct (N.eqb_spec d c_dash) as [->|]; cbn [negb] in E; [|done].
  destruct (opt_act os (c_dash :: s')) as [a'|] eqn:Ea.
  { simplify_eq. apply opt_act_in in Ea. split; [done|]. unfold long. destruct (startswith [c_dash; c_dash] (c_dash :: s')) eqn:El.
    - exists (c_dash :: s'), []. rewrite app_nil_r. split; [done|]. split; [done|]. split; [apply startswith_refl|]. by left.
    - exists []. rewrite app_nil_r. split; [done|]. by left. }
  destruct (str_eqb s' []) eqn:En; [done|].
  destruct (if contains_char c_eq (c_dash :: s') then _ else _) as [[[a1 o1] x1]|] eqn:Eq.
  { simplify_eq. destruct (contains_char c_eq (c_dash :: s')) eqn:Ec; [|done]. apply partition_on_spec in Ec.
    destruct (partition_on c_eq (c_dash :: s')) as [o2 x2]. simpl in Ec. destruct (opt_act os o2) as [a2|] eqn:E1; [|done]. cbn in Eq. injection Eq as -> -> ->.
    apply opt_act_in in E1. split; [done|]. unfold long. destruct (startswith [c_dash; c_dash] o) eqn:El.
    - exists o, (c_eq :: x1). split; [done|]. split; [done|]. split; [apply startswith_refl|]. right. eauto.
    - exists (c_eq :: x1). split; [done|]. right. left. by exists x1. }
  destruct (option_tuples os (c_dash :: s')) as [|t [|? ?]] eqn:Et; [destruct (_ || _); done| |done]. simplify_eq.
  assert (Hin : (a, o, sep, ex) ∈ option_tuples os (c_dash :: s')) by (rewrite Et; by left).
  unfold option_tuples in Hin. destruct (startswith [c_dash; c_dash] (c_dash :: s')) eqn:El.
  - destruct (contains_char c_eq (c_dash :: s')) eqn:Ec.
    + pose proof (partition_on_spec _ _ Ec) as Hp. destruct (partition_on c_eq (c_dash :: s')) as [pre v]. simpl in Hp.
      apply elem_of_list_omap in Hin as ([o1 a1] & Hin & H). cbn [fst snd] in H. destruct (startswith pre o1) eqn:Es; [|done]. simplify_eq.
      assert (Hpre : startswith [c_dash; c_dash] pre = true).
      { rewrite Hp in El. destruct pre as [|p1 [|p2 pre]]; [done| |].
        - cbn in El. by rewrite andb_false_r in El.
        - exact El. }
      assert (long o = true) as Hl.
      { unfold long. apply startswith_prefix. etrans; [by apply startswith_prefix|by apply startswith_prefix]. }
      split; [done|]. rewrite Hl. exists pre, (c_eq :: v). split; [done|]. split; [done|]. split; [done|]. right. by exists v.
    + apply elem_of_list_omap in Hin as ([o1 a1] & Hin & H). cbn [fst snd] in H. destruct (startswith (c_dash :: s') o1) eqn:Es; [|done]. simplify_eq.
      assert (long o = true) as Hl.
      { unfold long. apply startswith_prefix. etrans; [apply startswith_prefix; exact El|by apply startswith_prefix]. }
      split; [done|]. rewrite Hl. exists (c_dash :: s'), []. rewrite app_nil_r. split; [done|]. split; [done|]. split; [done|]. by left.
  - apply elem_of_list_omap in Hin as ([o1 a1] & Hin & H). cbn [fst snd] in H. destruct (str_eqb o1 (take 2 (c_dash :: s'))) eqn:E1.
    + simplify_eq. apply bool_decide_eq_true in E1. split; [done|]. assert (long o = false) as ->.
      { unfold long. rewrite E1. destruct s' as [|y s']; [done|]. cbn in El |- *. by destruct s'. }
      exists (drop 2 (c_dash :: s')). split; [rewrite E1; by rewrite take_drop|]. by right; right.
    + destruct (startswith (c_dash :: s') o1) eqn:Es; [|done]. simplify_eq. split; [done|].
      destruct (Hg _ _ Hin) as [(ch & -> & Hch)|Hl].
      * assert (long [c_dash; ch] = false) as ->.
        { unfold long. cbn [startswith]. rewrite (proj2 (N.eqb_neq c_dash ch)) by done. by rewrite andb_false_r. }
        apply startswith_prefix in Es as [k Ek]. destruct s' as [|y s2]; [done|]. injection Ek as -> Ek.
        symmetry in Ek. apply app_nil in Ek as [-> ->]. unfold str_eqb in E1. by rewrite bool_decide_eq_true_2 in E1.
      * exfalso. apply startswith_prefix in Es. apply startswith_prefix in Hl.
        destruct s' as [|y s']; [done|].
        destruct Es as [k ->]. destruct Hl as [k' Hl]. injection Hl as Hl _. subst y. cbn in El. done.
Qed.

Lemma cluster_spec os : ∀ k x a sep axs e l, length x < k → cluster os x a sep = Some (axs, e, l) →
  (∀ b v, (b, v) ∈ axs → (b = a ∨ ∃ ch, ([c_dash; ch], b) ∈ os ∧ ch ∈ x) ∧ (∀ f, v = Some f → takes b = true ∧ f `suffix_of` x))
  ∧ (∀ b, l = Some b → ∃ ch, ([c_dash; ch], b) ∈ os ∧ ch ∈ x).
Proof.
  induction k as [|k IH]; intros x a sep axs e l Hk E; [lia|].
  assert (Hone : ∀ e', axs = [(a, None)] → e = e' → l = None → (∀ b v, (b, v) ∈ axs → (b = a ∨ ∃ ch, ([c_dash; ch], b) ∈ os ∧ ch ∈ x)
    ∧ (∀ f, v = Some f → takes b = true ∧ f `suffix_of` x)) ∧ (∀ b, l = Some b → ∃ ch, ([c_dash; ch], b) ∈ os ∧ ch ∈ x)).
  { intros e' -> _ ->. split; [|done]. intros b v [= -> ->]%elem_of_list_singleton. split; [by left|done]. }
  destruct x as [|ch x']; cbn [cluster] in E.
  - destruct (takes a) eqn:Ht; simplify_eq. split; [|done]. intros b v [= -> ->]%elem_of_list_singleton. split; [by left|]. intros f [= <-]. done.
  - destruct (takes a) eqn:Ht; [simplify_eq; split; [|done]; intros b v [= -> ->]%elem_of_list_singleton; split; [by left|]; intros f [= <-]; done|].
    destruct (sep || N.eqb ch c_dash); [done|]. destruct (opt_act os [c_dash; ch]) as [a'|] eqn:Ea; [|simplify_eq; by eapply Hone].
    apply opt_act_in in Ea. destruct x' as [|c x''].
    + simplify_eq. split.
      * intros b v [= -> ->]%elem_of_list_singleton. split; [by left|done].
      * intros b [= <-]. exists ch. split; [done|]. by left.
    + assert (Hrec : ∃ y sep', length y < k ∧ y `suffix_of` c :: x'' ∧ (if N.eqb c c_eq then cluster os x'' a' true else cluster os (c :: x'') a' false) = cluster os y a' sep').
      { destruct (N.eqb c c_eq).
        - exists x'', true. simpl in Hk. split; [lia|]. split; [by apply suffix_cons_r|done].
        - exists (c :: x''), false. simpl in Hk |- *. split; [lia|]. done. }
      destruct Hrec as (y & sep' & Hy & [pre Hsuf] & Hr). rewrite Hr in E.
      destruct (cluster os y a' sep') as [[[axs' e'] l']|] eqn:Ec; [|done]. simplify_eq/=.
      destruct (IH y a' sep' axs' e l Hy Ec) as [H1 H2].
      assert (Hin : ∀ z, z ∈ y → z ∈ ch :: c :: x'') by (intros z Hz; right; rewrite Hsuf; apply elem_of_app; by right).
      split.
      * intros b v [[= -> ->]|Hbv]%elem_of_cons; [split; [by left|done]|]. destruct (H1 b v Hbv) as [Hb Hv]. split.
        -- right. destruct Hb as [->|(z & ? & ?)]; [exists ch; split; [done|by left]|exists z; auto].
        -- intros f Hf. destruct (Hv f Hf) as [? [q Hq]]. split; [done|]. exists (ch :: pre ++ q). rewrite Hsuf, Hq. by rewrite app_comm_cons, app_assoc.
      * intros b Hb. destruct (H2 b Hb) as (z & ? & ?). exists z. auto.
Qed.
(** Every action of an argument was asked for in it, and the argument of an option
    is the end of it or the next one. *)
Lemma consume_optional_spec os s o rest axs e k : good_opts os → parse_optional os s = Some (TOpt o) →
  consume_optional os s o rest = Some (axs, e, k) →
  ∀ b v, (b, v) ∈ axs → asks os b s ∧ (∀ f, v = Some f → takes b = true ∧ (f `suffix_of` s ∨ ∃ rest', rest = (TArg, f) :: rest')).
Proof.
  intros Hg Hp E b v Hin. destruct o as [[[[a o] sep] ex]|]; [|cbn in E; simplify_eq; by apply elem_of_nil in Hin].
  pose proof (parse_optional_finds os s a o sep ex Hg Hp) as [Ho Hf]. cbn [consume_optional] in E.
  assert (Hlast : ∀ a' axs0 (e0 : list str) r', (if takes a' then match rest with (TArg, v0) :: _ => Some (axs0 ++ [(a', Some v0)], e0, 1) | _ => None end
      else Some (axs0 ++ [(a', None)], e0, 0)) = Some r' → (b, v) ∈ r'.1.1 →
    (b, v) ∈ axs0 ∨ (b = a' ∧ ∀ f, v = Some f → takes b = true ∧ ∃ rest', rest = (TArg, f) :: rest')).
  { intros a' axs0 e0 r' Er Hbv. destruct (takes a') eqn:Ht.
    - destruct rest as [|[[] v0] rest']; try done. simplify_eq/=. apply elem_of_app in Hbv as [?|[= -> ->]%elem_of_list_singleton]; [by left|right].
      split; [done|]. intros f [= <-]. eauto.
    - simplify_eq/=. apply elem_of_app in Hbv as [?|[= -> ->]%elem_of_list_singleton]; [by left|right]. done. }
  destruct (long o) eqn:Hl.
  - destruct Hf as (pre & post & -> & Hpre & Hs & [[-> ->]|(v0 & -> & ->)]).
    + cbn in E. destruct (Hlast a [] [] _ E Hin) as [?%elem_of_nil|[-> Hv]]; [done|]. split.
      * left. exists o, pre, []. auto 10.
      * intros f Hf'. destruct (Hv f Hf'). auto.
    + destruct (takes a) eqn:Ht; [|done]. cbn in E. simplify_eq. apply elem_of_list_singleton in Hin as [= -> ->]. split.
      * left. exists o, pre, (c_eq :: v0). do 4 (split; [done|]). right. eauto.
      * intros f [= <-]. split; [done|]. left. exists (pre ++ [c_eq]). by rewrite <- app_assoc.
  - destruct Hf as (post & -> & Hex). destruct (Hg _ _ Ho) as [(ch & -> & Hch)|Hl']; [|unfold long in Hl; congruence].
    assert (Hpl : plain (ch :: post)) by (intros [= ->]; done).
    destruct ex as [x|].
    + assert (Hsuf : x `suffix_of` post). { destruct Hex as [[_ ?]|[(? & -> & [= ->])|[= ->]]]; [done|by apply suffix_cons_r|done]. }
      destruct (cluster os x a sep) as [[[axs0 e0] l0]|] eqn:Ec; [|done]. cbn in E.
      destruct (cluster_spec os (S (length x)) x a sep axs0 e0 l0 ltac:(lia) Ec) as [H1 H2].
      assert (Hask : (b = a ∨ ∃ c, ([c_dash; c], b) ∈ os ∧ c ∈ x) → asks os b ([c_dash; ch] ++ post)).
      { intros Hb. right. destruct Hsuf as [q Hq]. destruct Hb as [->|(c & Hc & Hx)].
        - exists ch, (ch :: post). split; [done|]. split; [done|]. split; [by left|exact Hpl].
        - exists c, (ch :: post). split; [done|]. split; [done|]. split; [|exact Hpl]. right. rewrite Hq. apply elem_of_app. by right. }
      assert (Hbv : (b, v) ∈ axs0 ∨ (l0 = Some b ∧ ∀ f, v = Some f → takes b = true ∧ ∃ rest', rest = (TArg, f) :: rest')).
      { destruct l0 as [a'|]; [|simplify_eq; by left]. destruct (Hlast a' axs0 _ _ E Hin) as [?|[-> ?]]; [by left|by right]. }
      destruct Hbv as [Hbv|[-> Hv]].
      * destruct (H1 b v Hbv) as [Hb Hv]. split; [by apply Hask|]. intros f Hf. destruct (Hv f Hf) as [? Hs]. split; [done|]. left.
        etrans; [exact Hs|]. etrans; [exact Hsuf|]. by apply suffix_app_r.
      * split; [apply Hask; right; by apply H2|]. intros f Hf. destruct (Hv f Hf). auto.
    + cbn in E. destruct (Hlast a [] [] _ E Hin) as [?%elem_of_nil|[-> Hv]]; [done|]. split.
      * right. exists ch, (ch :: post). split; [done|]. split; [done|]. split; [by left|exact Hpl].
      * intros f Hf'. destruct (Hv f Hf'). auto.
Qed.

(** ** The namespace says what the arguments asked for *)
Definition asked (A : list str) (a : act) : Prop :=
  ∃ s os, s ∈ A ∧ s ≠ [c_dash; c_dash] ∧ (os = main_opts ∨ ∃ c, os = cmd_opts c) ∧ asks os a s.
Record told (A : list str) (n : args) : Prop := {
  to_debug : a_debug n = true → asked A ADebug;
  to_quiet : a_quiet n = true → asked A AQuiet;
  to_exclude : ∀ f, a_exclude n = Some f → asked A AExclude ∧ ∃ s, s ∈ A ∧ f `suffix_of` s;
  to_template : ∀ f, a_template n = Some f → asked A ATemplate ∧ ∃ s, s ∈ A ∧ f `suffix_of` s;
  to_add : a_add n = true → asked A AAddRemote;
  to_keep : a_keep n = true → asked A AKeepRemote;
  to_none : a_none n = true → asked A ANoRetrieve;
  to_profile : ∀ p, a_profile n = Some p → p ∈ A
}.
Lemma told0 A : told A args0.
Proof. by split. Qed.
Lemma do_acts_told A who axs n n' : told A n →
  (∀ b v, (b, v) ∈ axs → asked A b ∧ ∀ f, v = Some f → ∃ s, s ∈ A ∧ f `suffix_of` s) →
  do_acts who axs n = Got n' → told A n'.
Proof.
  revert n. induction axs as [|[a v] axs IH]; intros n Hn Hax E; cbn in E; [by simplify_eq|].
  destruct (Hax a v) as [Ha Hv]; [by left|].
  assert (Hax' : ∀ b v, (b, v) ∈ axs → asked A b ∧ ∀ f, v = Some f → ∃ s, s ∈ A ∧ f `suffix_of` s) by (intros; apply Hax; by right).
  destruct a; cbn in E; try done; (eapply IH; [|exact Hax'|exact E]); (destruct Hn; split; cbn; eauto; done).
Qed.
Definition tokens (os : opts) (A : list str) (ts : list (tok * str)) : Prop :=
  ∀ t s, (t, s) ∈ ts → s ∈ A ∧ (∀ o, t = TOpt o → s ≠ [c_dash; c_dash] ∧ parse_optional os s = Some (TOpt o)).
Lemma classify_tokens os A l ts : (∀ s, s ∈ l → s ∈ A) → classify os l = Some ts → tokens os A ts.
Proof.
  revert ts. induction l as [|s l IH]; intros ts Hl E; cbn in E; [simplify_eq; by intros ? ? ?%elem_of_nil|].
  destruct (str_eqb s [c_dash; c_dash]) eqn:Es.
  - simplify_eq. intros t s' [[= -> ->]|Hin]%elem_of_cons; [split; [apply Hl; by left|done]|].
    apply elem_of_list_fmap in Hin as (y & [= -> ->] & Hy). split; [apply Hl; by right|done].
  - apply bool_decide_eq_false in Es. destruct (parse_optional os s) as [t0|] eqn:Ep; [|done].
    destruct (classify os l) as [ts'|] eqn:Ec; [|done]. simplify_eq/=.
    intros t s' [[= -> ->]|Hin]%elem_of_cons; [split; [apply Hl; by left|]; by intros o ->|].
    apply (IH ts'); [|done|done]. intros; apply Hl; by right.
Qed.
Lemma tokens_drop os A k ts : tokens os A ts → tokens os A (drop k ts).
Proof. intros H t s Hin. apply H. rewrite <- (take_drop k ts). apply elem_of_app. by right. Qed.
Lemma consume_told os A s o rest axs e k who n n' : os = main_opts ∨ (∃ c, os = cmd_opts c) → tokens os A ((TOpt o, s) :: rest) → told A n →
  consume_optional os s o rest = Some (axs, e, k) → do_acts who axs n = Got n' → told A n'.
Proof.
  intros Hos Ht Hn Ec Ed. eapply do_acts_told; [exact Hn| |exact Ed]. intros b v Hin.
  destruct (Ht (TOpt o) s) as [Hs Ho]; [by left|]. destruct (Ho o eq_refl) as [Hne Hp].
  assert (good_opts os) as Hg. { destruct Hos as [->|[c ->]]; [apply good_main|apply good_cmd]. }
  destruct (consume_optional_spec os s o rest axs e k Hg Hp Ec b v Hin) as [Ha Hv]. split; [exists s, os; auto|].
  intros f Hf. destruct (Hv f Hf) as [_ [?|[rest' ->]]]; [by exists s|]. exists f. split; [|done]. apply (Ht TArg f). right. by left.
Qed.
Lemma do_acts_profile who axs n n' : do_acts who axs n = Got n' → a_profile n' = a_profile n.
Proof.
  revert n. induction axs as [|[a v] axs IH]; intros n E; cbn in E; [by simplify_eq|].
  destruct a; cbn in E; try done; apply IH in E; by rewrite E.
Qed.
Lemma cmd_loop_profile c fuel : ∀ ts n extra n' miss extra',
  cmd_loop fuel c ts false n extra = Got (n', miss, extra') → a_profile n' = a_profile n ∧ miss = false.
Proof.
  induction fuel as [|fuel IH]; intros ts n extra n' miss extra' E; [done|]. cbn [cmd_loop] in E.
  destruct ts as [|[t s] rest]; [by simplify_eq|destruct t as [| |o]]; [by apply IH in E..|].
  destruct (consume_optional (cmd_opts c) s o rest) as [[[axs e] k]|]; [|done].
  destruct (do_acts (Some c) axs n) as [n1| | |] eqn:Ed; try done. apply IH in E as [-> ->]. by rewrite (do_acts_profile _ _ _ _ Ed).
Qed.
Lemma cmd_loop_told A c fuel : ∀ ts pend n extra n' miss extra',
  tokens (cmd_opts c) A ts → told A n → cmd_loop fuel c ts pend n extra = Got (n', miss, extra') →
  told A n' ∧ (miss = false → pend = true → is_Some (a_profile n')).
Proof.
  induction fuel as [|fuel IH]; intros ts pend n extra n' miss extra' Ht Hn E; [done|]. cbn [cmd_loop] in E.
  destruct (if pend then _ else _) as [[p k]|] eqn:Ep.
  - destruct pend; [|done]. assert (Hp : p ∈ A).
    { destruct ts as [|[[] s1] ts1]; try done; cbn in Ep.
      - destruct ts1 as [|[[] s2] ts2]; try done. simplify_eq. apply (Ht TArg p). right. by left.
      - destruct ts1 as [|[[] s2] ts2]; simplify_eq; (apply (Ht TArg p); by left). }
    assert (Hn' : told A (set_profile p n)). { destruct Hn; split; cbn; auto. by intros ? [= <-]. }
    destruct (IH _ _ _ _ _ _ _ (tokens_drop _ _ k _ Ht) Hn' E) as [H1 _]. split; [done|]. intros _ _.
    apply cmd_loop_profile in E as [-> _]. by eexists.
  - destruct ts as [|[t s] rest]; [|destruct t as [| |o]].
    + simplify_eq. split; [done|]. by intros -> ?.
    + eapply IH; [|exact Hn|exact E]. by apply (tokens_drop _ _ 1 _ Ht).
    + eapply IH; [|exact Hn|exact E]. by apply (tokens_drop _ _ 1 _ Ht).
    + destruct (consume_optional (cmd_opts c) s o rest) as [[[axs e] k]|] eqn:Ec; [|done].
      destruct (do_acts (Some c) axs n) as [n1| | |] eqn:Ed; try done. cbn in E.
      eapply IH; [|eapply consume_told; [right; by exists c|exact Ht|exact Hn|exact Ec|exact Ed]|exact E].
      apply tokens_drop. by apply (tokens_drop _ _ 1 _ Ht).
Qed.
Lemma main_loop_told A : ∀ ts n extra c n', tokens main_opts A ts → told A n → main_loop ts n extra = Got (c, n') →
  told A n' ∧ cmd_name c ∈ A ∧ (c = CList ∨ is_Some (a_profile n')).
Proof.
  induction ts as [|[t s] rest IH]; intros n extra c n' Ht Hn E; cbn [main_loop] in E; [done|]. destruct t as [| |o]; [done|..].
  - destruct (cmd_of s) as [c0|] eqn:Ec; [|done]. unfold cmd_of in Ec. apply List.find_some in Ec as [_ Ec]. apply bool_decide_eq_true in Ec.
    unfold parse_cmd in E. destruct (classify (cmd_opts c0) rest.*2) as [ts|] eqn:Ecl; [|done].
    destruct (cmd_loop _ c0 ts (cmd_profile c0) n []) as [[[n1 miss] ex]| | |] eqn:El; try done. cbn in E. destruct miss; [done|]. cbn in E.
    destruct (decide _) as [_|]; [|done]. simplify_eq.
    assert (tokens (cmd_opts c) A ts) as Hts.
    { eapply classify_tokens; [|exact Ecl]. intros y ([t z] & -> & Hz)%elem_of_list_fmap. apply (Ht t z). by right. }
    destruct (cmd_loop_told A c _ ts _ n [] n' false ex Hts Hn El) as [H1 H2]. split; [done|]. split; [apply (Ht TArg (cmd_name c)); by left|].
    destruct c; [right; by apply H2..|by left|right; by apply H2].
  - destruct (consume_optional main_opts s o rest) as [[[axs e] k]|] eqn:Ec; [|done].
    destruct (do_acts None axs n) as [n1| | |] eqn:Ed; try done. cbn in E.
    eapply IH; [|eapply consume_told; [by left|exact Ht|exact Hn|exact Ec|exact Ed]|exact E]. by apply (tokens_drop _ _ 1 _ Ht).
Qed.
Lemma parse_args_told argv c n : parse_args argv = Got (c, n) → told argv n ∧ cmd_name c ∈ argv ∧ (c = CList ∨ is_Some (a_profile n)).
Proof.
  unfold parse_args. destruct (classify main_opts argv) as [ts|] eqn:E; [|done]. intros H. eapply main_loop_told; [|apply told0|exact H].
  by eapply classify_tokens.
Qed.

(** ** Options as they are documented *)
(** An option with its argument, in two words. *)
Definition dopt : Type := str * act * option str.
Definition d_words (x : dopt) : list str := x.1.1 :: match x.2 with Some v => [v] | None => [] end.
Definition d_toks (x : dopt) : list (tok * str) :=
  (TOpt (Some (x.1.2, x.1.1, false, None)), x.1.1) :: match x.2 with Some v => [(TArg, v)] | None => [] end.
Definition d_ok (c : cmd) (x : dopt) : Prop :=
  (x.1.1, x.1.2) ∈ cmd_opts c ∧ x.1.2 ≠ AHelp ∧ match x.2 with Some v => takes x.1.2 = true ∧ plain v | None => takes x.1.2 = false end.
Lemma cmd_opts_find c o a : (o, a) ∈ cmd_opts c →
  str_eqb o [c_dash; c_dash] = false ∧ parse_optional (cmd_opts c) o = Some (TOpt (Some (a, o, false, None))) ∧ is_Some (parse_optional main_opts o).
Proof.
  intros H. unfold cmd_opts in H.
  destruct c; rewrite ?elem_of_cons, ?elem_of_nil in H; destruct_or?; simplify_eq; try done; (split; [done|]; split; [vm_compute; reflexivity|]; vm_compute; by eexists).
Qed.
Lemma classify_docs c xs rest ts : Forall (d_ok c) xs → classify (cmd_opts c) rest = Some ts →
  classify (cmd_opts c) ((xs ≫= d_words) ++ rest) = Some ((xs ≫= d_toks) ++ ts).
Proof.
  intros Hx Hr. induction Hx as [|[[o a] v] xs (Hin & _ & Hv) _ IH]; [done|]. destruct (cmd_opts_find c o a Hin) as (H1 & H2 & _).
  cbn [fst snd] in *. destruct v as [v|]; cbn -[classify].
  - rewrite (classify_cons _ _ _ _ _ H1 H2 (classify_cons _ _ _ _ _ (plain_dashes _ (proj2 Hv)) (plain_arg _ _ (proj2 Hv)) IH)). done.
  - by rewrite (classify_cons _ _ _ _ _ H1 H2 IH).
Qed.
Lemma main_docs c xs : Forall (d_ok c) xs → ∀ s, s ∈ xs ≫= d_words → is_Some (parse_optional main_opts s).
Proof.
  intros Hx s ([[o a] v] & Hs & Hin)%elem_of_list_bind. rewrite Forall_forall in Hx. destruct (Hx _ Hin) as (H1 & _ & Hv). cbn in *.
  apply elem_of_cons in Hs as [->|Hs]; [by apply (cmd_opts_find c o a)|]. destruct v as [v|]; [|by apply elem_of_nil in Hs].
  apply elem_of_list_singleton in Hs as ->. rewrite plain_arg by apply Hv. by eexists.
Qed.
(** What the options make of a namespace. *)
Definition d_acts (xs : list dopt) : list (act * option str) := map (λ x, (x.1.2, x.2)) xs.
Lemma docs_loop c xs : Forall (d_ok c) xs → ∀ fuel ts pend n, length xs ≤ fuel →
  ∃ n', do_acts (Some c) (d_acts xs) n = Got n' ∧ cmd_loop fuel c ((xs ≫= d_toks) ++ ts) pend n [] = cmd_loop (fuel - length xs) c ts pend n' [].
Proof.
  induction 1 as [|[[o a] v] xs (Hin & Hh & Hv) _ IH]; intros fuel ts pend n Hf.
  { exists n. split; [done|]. cbn. by rewrite Nat.sub_0_r. }
  destruct fuel as [|fuel]; [cbn in Hf; lia|]. cbn [fst snd] in *.
  assert (∃ n1, do_act (Some c) (a, v) n = Got n1) as [n1 Hn1].
  { assert (a ≠ AVersion). { intros ->. unfold cmd_opts in Hin. destruct c; rewrite ?elem_of_cons, ?elem_of_nil in Hin; destruct_or?; simplify_eq; done. }
    destruct a; try done; cbn; by eexists. }
  destruct (IH fuel ts pend n1) as (n' & H1 & H2); [cbn in Hf; lia|]. exists n'. split; [cbn [d_acts map do_acts fst snd]; by rewrite Hn1|].
  assert (Ec : ∀ rest, consume_optional (cmd_opts c) o (Some (a, o, false, None)) (match v with Some v => [(TArg, v)] | None => [] end ++ rest)
    = Some ([(a, v)], [], match v with Some _ => 1 | None => 0 end)).
  { intros rest. cbn. destruct v as [v|]; [by rewrite (proj1 Hv)|by rewrite Hv]. }
  assert (Eb : (((o, a, v) :: xs) ≫= d_toks) ++ ts = (TOpt (Some (a, o, false, None)), o) :: (match v with Some v => [(TArg, v)] | None => [] end ++ (xs ≫= d_toks) ++ ts)).
  { change (((o, a, v) :: xs) ≫= d_toks) with (d_toks (o, a, v) ++ (xs ≫= d_toks)). unfold d_toks at 1. cbn [fst snd]. by destruct v. }
  etrans; [exact (f_equal (λ l, cmd_loop (S fuel) c l pend n []) Eb)|]. clear Eb. cbn [cmd_loop].
  assert ((if pend then None else None) = None :> option (str * nat)) as -> by by destruct pend.
  rewrite Ec. cbn [do_acts obind]. rewrite Hn1. cbn [obind]. etrans; [|exact H2]. f_equal.
  by destruct v.
Qed.
Lemma do_acts_app who xs ys n n1 : do_acts who xs n = Got n1 → do_acts who (xs ++ ys) n = do_acts who ys n1.
Proof.
  revert n. induction xs as [|x xs IH]; intros n E; cbn in E; [by simplify_eq|]. cbn. destruct (do_act who x n); try done. cbn in *. by apply IH.
Qed.
Lemma docs_length xs : length xs ≤ length (xs ≫= d_toks).
Proof. induction xs as [|[[o a] [v|]] xs IH]; cbn in *; lia. Qed.
Lemma set_profile_acts who xs p n n1 : do_acts who xs n = Got n1 → do_acts who xs (set_profile p n) = Got (set_profile p n1).
Proof.
  revert n. induction xs as [|[a v] xs IH]; intros n E; cbn in E; [by simplify_eq|]. destruct a; cbn in E |- *; try done; by apply IH in E.
Qed.
(** A command with its options, before and after the name. *)
Lemma parse_cmd_docs c xs ys p n : cmd_profile c = true → Forall (d_ok c) xs → Forall (d_ok c) ys → plain p →
  ∃ n', do_acts (Some c) (d_acts (xs ++ ys)) n = Got n' ∧ parse_cmd c ((xs ≫= d_words) ++ p :: (ys ≫= d_words)) n = Got (set_profile p n', []).
Proof.
  intros Hc Hx Hy Hp. unfold parse_cmd.
  assert (Ey : classify (cmd_opts c) (ys ≫= d_words) = Some (ys ≫= d_toks)).
  { rewrite <- (app_nil_r (ys ≫= d_words)), <- (app_nil_r (ys ≫= d_toks)). by apply classify_docs. }
  rewrite (classify_docs c xs _ _ Hx (classify_cons _ _ _ _ _ (plain_dashes _ Hp) (plain_arg _ _ Hp) Ey)). rewrite Hc.
  set (ts := (xs ≫= d_toks) ++ _). assert (Hl : length ts = length (xs ≫= d_toks) + S (length (ys ≫= d_toks))) by (unfold ts; by rewrite app_length).
  pose proof (docs_length xs). pose proof (docs_length ys).
  destruct (docs_loop c xs Hx (S (length ts)) ((TArg, p) :: (ys ≫= d_toks)) true n) as (n1 & H1 & H2); [lia|].
  destruct (docs_loop c ys Hy (length ts - length xs) [] false (set_profile p n1)) as (n2 & H3 & H4); [lia|].
  destruct (docs_loop c ys Hy (length ys) [] false n1) as (n3 & H5 & _); [lia|].
  pose proof (set_profile_acts _ _ p _ _ H5) as H6. rewrite H3 in H6. injection H6 as ->. exists n3. split.
  { unfold d_acts. rewrite map_app. rewrite (do_acts_app _ _ _ _ _ H1). exact H5. }
  fold ts in H2. rewrite H2. replace (S (length ts) - length xs) with (S (length ts - length xs)) by lia. cbn [cmd_loop].
  assert (match ys ≫= d_toks with (TDashes, _) :: _ => Some (p, 2) | _ => Some (p, 1) end = Some (p, 1)) as Hh.
  { destruct ys as [|[[o a] [v|]] ys]; done. }
  assert (consume_profile ((TArg, p) :: (ys ≫= d_toks)) = Some (p, 1)) as ->.
  { cbn. rewrite <- Hh. destruct (ys ≫= d_toks) as [|[[] ?] ?]; done. }
  cbn [drop]. rewrite app_nil_r in H4. rewrite drop_0, H4.
  destruct (length ts - length xs - length ys) as [|f] eqn:Ef; [lia|]. done.
Qed.
(** ... and with a name after "--", which may be anything. *)
Lemma parse_cmd_dashes c xs p n : cmd_profile c = true → Forall (d_ok c) xs →
  ∃ n', do_acts (Some c) (d_acts xs) n = Got n' ∧ parse_cmd c ((xs ≫= d_words) ++ [[c_dash; c_dash]; p]) n = Got (set_profile p n', []).
Proof.
  intros Hc Hx. unfold parse_cmd.
  rewrite (classify_docs c xs [[c_dash; c_dash]; p] [(TDashes, [c_dash; c_dash]); (TArg, p)] Hx eq_refl). rewrite Hc.
  set (ts := (xs ≫= d_toks) ++ _). assert (Hl : length ts = length (xs ≫= d_toks) + 2) by (unfold ts; by rewrite app_length).
  pose proof (docs_length xs).
  destruct (docs_loop c xs Hx (S (length ts)) [(TDashes, [c_dash; c_dash]); (TArg, p)] true n) as (n1 & H1 & H2); [lia|].
  exists n1. split; [done|]. fold ts in H2. rewrite H2. replace (S (length ts) - length xs) with (S (S (length ts - length xs - 1))) by lia. done.
Qed.

(** ** No argument is dropped *)
Definition opt_toks (os : opts) (ts : list (tok * str)) : Prop := ∀ o s, (TOpt o, s) ∈ ts → parse_optional os s = Some (TOpt o).
Lemma classify_opt_toks os l ts : classify os l = Some ts → opt_toks os ts.
Proof.
  revert ts. induction l as [|s l IH]; intros ts E; cbn [classify] in E; [injection E as <-; by intros ? ? ?%elem_of_nil|].
  destruct (str_eqb s _).
  - injection E as <-. intros o s' [?|H]%elem_of_cons; [done|]. apply elem_of_list_fmap in H as (? & ? & _). done.
  - destruct (parse_optional os s) as [t|] eqn:Ep; [|done]. destruct (classify os l) as [ts'|]; [|done]. injection E as <-.
    intros o s' [[= <- ->]|H]%elem_of_cons; [done|]. by eapply IH.
Qed.
Lemma consume_some os s a o sep ex rest axs e k : consume_optional os s (Some (a, o, sep, ex)) rest = Some (axs, e, k) → axs ≠ [].
Proof.
  cbn [consume_optional]. intros E ->.
  assert (Hl : ∀ a' (axs0 : list (act * option str)) (e0 : list str) (e1 : list str) k1, (if takes a' then match rest with (TArg, v0) :: _ => Some (axs0 ++ [(a', Some v0)], e0, 1) | _ => None end
      else Some (axs0 ++ [(a', None)], e0, 0)) ≠ Some ([], e1, k1)).
  { intros a' axs0 e0 e1 k1. destruct (takes a'); [destruct rest as [|[[] ?] ?]; try done|]; intros [= H _ _]; by destruct axs0. }
  destruct ex as [x|]; [|by apply Hl in E]. destruct (long o).
  - destruct (takes a); [|done]. cbn in E. done.
  - destruct (cluster os x a sep) as [[[axs0 e0] l0]|] eqn:Ec; [|done]. cbn in E. destruct l0 as [a'|]; [by apply Hl in E|].
    injection E as -> _ _. destruct x as [|ch x]; cbn [cluster] in Ec; (destruct (takes a); [done|]); [done|]. destruct (_ || _); [done|].
    destruct (opt_act os _); [|done]. destruct x as [|c2 x]; [done|]. cbn zeta in Ec. destruct (N.eqb c2 c_eq); destruct (cluster _ _ _ _) as [[[? ?] ?]|]; done.
Qed.
(** An argument that names an option with an effect on the command. *)
Definition understood (os : opts) (s : str) : Prop := ∃ a, asks os a s ∧ a ≠ AHelp ∧ a ≠ AVersion.
Lemma consume_known os s o rest axs e k who n n' : good_opts os → parse_optional os s = Some (TOpt o) →
  consume_optional os s o rest = Some (axs, e, k) → do_acts who axs n = Got n' → e = [s] ∨ understood os s.
Proof.
  intros Hg Hp E Ha. destruct o as [[[[a o] sep] ex]|]; [right|left; cbn in E; by injection E as _ <- _].
  pose proof (consume_some _ _ _ _ _ _ _ _ _ _ E) as Hne. destruct axs as [|[b v] axs]; [done|].
  exists b. split; [exact (proj1 (consume_optional_spec _ _ _ _ _ _ _ Hg Hp E b v ltac:(by left)))|]. cbn [do_acts] in Ha. by destruct b.
Qed.
Lemma cmd_loop_extra fuel c ts pend n ex n' ms ex' : cmd_loop fuel c ts pend n ex = Got (n', ms, ex') → ex `prefix_of` ex'.
Proof.
  revert ts pend n ex. induction fuel as [|fuel IH]; intros ts pend n ex E; [done|]. cbn [cmd_loop] in E.
  destruct (if pend then _ else _) as [[p k]|]; [exact (IH _ _ _ _ E)|].
  destruct ts as [|[[| |o] s] rest]; [by injection E as _ _ <-|exact (transitivity (prefix_app_r _ _ _ (reflexivity ex)) (IH _ _ _ _ E))..|].
  destruct (consume_optional _ _ _ _) as [[[axs e] k]|]; [|done]. destruct (do_acts _ axs n) as [n1| | |] eqn:Ea; try done.
  exact (transitivity (prefix_app_r _ _ _ (reflexivity ex)) (IH _ _ _ _ E)).
Qed.
Lemma consume_optional_drop os s o rest axs e k : consume_optional os s o rest = Some (axs, e, k) → ∀ o' s', (TOpt o', s') ∈ rest → (TOpt o', s') ∈ drop k rest.
Proof.
  intros E o' s' Hin. assert (k = 0 ∨ ∃ v rest', rest = (TArg, v) :: rest' ∧ k = 1) as [->|(v & rest' & -> & ->)]; [|by rewrite drop_0|].
  - assert (Hl : ∀ a' (axs0 : list (act * option str)) (e0 : list str), (if takes a' then match rest with (TArg, v0) :: _ => Some (axs0 ++ [(a', Some v0)], e0, 1) | _ => None end
      else Some (axs0 ++ [(a', None)], e0, 0)) = Some (axs, e, k) → k = 0 ∨ ∃ v rest', rest = (TArg, v) :: rest' ∧ k = 1).
    { intros a' axs0 e0. destruct (takes a'); [destruct rest as [|[[] ?] ?]; try done; intros [= _ _ <-]; right; by eexists _, _|intros [= _ _ <-]; by left]. }
    destruct o as [[[[a o] sep] ex]|]; [|cbn in E; injection E as _ _ <-; by left]. cbn [consume_optional] in E.
    destruct ex as [x|]; [|by apply Hl in E]. destruct (long o).
    + destruct (takes a); [|done]. cbn in E. injection E as _ _ <-. by left.
    + destruct (cluster os x a sep) as [[[axs0 e0] l0]|]; [|done]. cbn in E. destruct l0 as [a'|]; [by apply Hl in E|]. injection E as _ _ <-. by left.
  - apply elem_of_cons in Hin as [?|?]; done.
Qed.
Lemma cmd_loop_known fuel c ts pend n ex n' ms : opt_toks (cmd_opts c) ts → cmd_loop fuel c ts pend n ex = Got (n', ms, []) →
  ∀ o s, (TOpt o, s) ∈ ts → understood (cmd_opts c) s.
Proof.
  revert ts pend n ex. induction fuel as [|fuel IH]; intros ts pend n ex Ht E o s Hin; [done|]. cbn [cmd_loop] in E.
  destruct (if pend then _ else _) as [[p k]|] eqn:Epr.
  - refine (IH _ _ _ _ _ E o s _).
    + intros o' s' H. apply Ht. rewrite <- (take_drop k ts). apply elem_of_app. by right.
    + destruct pend; [|done]. destruct ts as [|[[| |o1] s1] ts]; try done.
      * destruct ts as [|[[| |] ?] ts]; try done. cbn in Epr; injection Epr as _ <-; cbn; repeat (apply elem_of_cons in Hin as [?|Hin]; [done|]); exact Hin.
      * destruct ts as [|[[| |] ?] ts]; cbn in Epr; injection Epr as _ <-; cbn; repeat (apply elem_of_cons in Hin as [?|Hin]; [done|]); (exact Hin || (right; exact Hin)).
  - destruct ts as [|[[| |o1] s1] rest]; [by apply elem_of_nil in Hin| | |].
    + apply elem_of_cons in Hin as [?|Hin]; [done|]. refine (IH _ _ _ _ _ E o s Hin). intros o' s' H. apply Ht. by right.
    + apply elem_of_cons in Hin as [?|Hin]; [done|]. refine (IH _ _ _ _ _ E o s Hin). intros o' s' H. apply Ht. by right.
    + destruct (consume_optional _ _ _ _) as [[[axs e] k]|] eqn:Ec; [|done]. destruct (do_acts _ axs n) as [n1| | |] eqn:Ea; try done. cbn [obind] in E.
      apply elem_of_cons in Hin as [[= <- <-]|Hin].
      * destruct (consume_known _ _ _ _ _ _ _ _ _ _ (good_cmd c) (Ht _ _ ltac:(by left)) Ec Ea) as [->|]; [|done].
        apply cmd_loop_extra in E as (z & Hz). by destruct ex.
      * refine (IH _ _ _ _ _ E o s (consume_optional_drop _ _ _ _ _ _ _ Ec _ _ Hin)).
        intros o' s' H. apply Ht. right. rewrite <- (take_drop k rest). apply elem_of_app. by right.
Qed.
(** Split at the word of the command. *)
Lemma main_loop_known ts n ex c n' : opt_toks main_opts ts → main_loop ts n ex = Got (c, n') →
  ∃ ts1 w ts2, ts = ts1 ++ (TArg, w) :: ts2 ∧ w = cmd_name c ∧ (∀ t s, (t, s) ∈ ts1 → understood main_opts s)
    ∧ ∃ ts2', classify (cmd_opts c) ts2.*2 = Some ts2' ∧ ∀ o s, (TOpt o, s) ∈ ts2' → understood (cmd_opts c) s.
Proof.
  revert n ex. induction ts as [|[[| |o] s] rest IH]; intros n ex Ht E; [done|done| |]; cbn [main_loop] in E.
  - destruct (cmd_of s) as [c'|] eqn:Eco; [|done]. unfold parse_cmd in E. destruct (classify _ _) as [ts|] eqn:Ecl; [|done].
    destruct (cmd_loop _ _ _ _ _ _) as [[[n1 ms] e]| | |] eqn:El; try done. cbn [obind] in E. destruct ms; [done|]. cbn [obind] in E.
    destruct (decide _) as [He|]; [|done]. apply app_nil in He as [_ ->]. injection E as -> ->.
    exists [], s, rest. split; [done|]. split; [|split; [by intros ? ? ?%elem_of_nil|]].
    + unfold cmd_of in Eco. apply List.find_some in Eco as [_ E]. symmetry. by apply bool_decide_eq_true in E.
    + exists ts. split; [done|]. exact (cmd_loop_known _ _ _ _ _ _ _ _ (classify_opt_toks _ _ _ Ecl) El).
  - destruct (consume_optional _ _ _ _) as [[[axs e] k]|] eqn:Ec; [|done]. destruct (do_acts _ axs n) as [n1| | |] eqn:Ea; try done. cbn [obind] in E.
    destruct (IH _ _ ltac:(intros o' s' H; apply Ht; by right) E) as (ts1 & w & ts2 & -> & Hw & H1 & H2).
    exists ((TOpt o, s) :: ts1), w, ts2. split; [done|]. split; [done|]. split; [|done].
    intros t s' [[= -> ->]|H]%elem_of_cons; [|by eapply H1].
    destruct (consume_known _ _ _ _ _ _ _ _ _ _ good_main (Ht _ _ ltac:(by left)) Ec Ea) as [->|]; [|done]. exfalso.
    clear -E. assert (Hx : s ∈ ex ++ [s]) by (apply elem_of_app; right; by left). revert E Hx. generalize (ex ++ [s]). revert n1.
    induction (ts1 ++ (TArg, w) :: ts2) as [|[[| |o'] s'] l IHl]; intros n1 x E Hx; [done|done| |]; cbn [main_loop] in E.
    + destruct (cmd_of s'); [|done]. destruct (parse_cmd _ _ _) as [[? e]| | |]; try done. cbn [obind] in E. destruct (decide _) as [He|]; [|done].
      apply app_nil in He as [-> _]. by apply elem_of_nil in Hx.
    + destruct (consume_optional _ _ _ _) as [[[axs e] k]|]; [|done]. destruct (do_acts _ axs n1) as [n2| | |]; try done.
      refine (IHl _ _ E _). apply elem_of_app. by left.
Qed.
