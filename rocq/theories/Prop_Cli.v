(** C89 (documented command lines do what they say), C90 (nothing is done that
    the command line does not ask for), C91 (errors are reported). *)
From Verif Require Import CliProofs.
From stdpp Require Import options.

(** What the program is asked to do. *)
Definition requested (argv : list str) : option request :=
  match parse_args argv with Got ca => def_command ca | _ => None end.

(** ** C89 *)
(** The options as in the usage message. *)
Inductive gopt := GDebug | GQuiet (short : bool).
Definition g_word (g : gopt) : str :=
  match g with GDebug => lit "--debug" | GQuiet true => lit "-q" | GQuiet false => lit "--quiet" end.
Inductive iopt := IExclude (short : bool) (file : str) | ITemplate (short : bool) (file : str) | IAdd (short : bool).
Definition i_words (o : iopt) : list str :=
  match o with
  | IExclude true f => [lit "-e"; f] | IExclude false f => [lit "--exclude"; f]
  | ITemplate true f => [lit "-t"; f] | ITemplate false f => [lit "--template"; f]
  | IAdd true => [lit "-a"] | IAdd false => [lit "--add-remote"]
  end.
Inductive ropt := RKeep (short : bool) | RNone (short : bool).
Definition r_word (o : ropt) : str :=
  match o with
  | RKeep true => lit "-k" | RKeep false => lit "--keep-remote" | RNone true => lit "-n" | RNone false => lit "--no-retrieve"
  end.
(** The file names do not begin with "-". *)
Definition i_fit (o : iopt) : Prop := match o with IExclude _ f | ITemplate _ f => plain f | IAdd _ => True end.
Definition i_exclude (o : iopt) : option str := match o with IExclude _ f => Some f | _ => None end.
Definition i_template (o : iopt) : option str := match o with ITemplate _ f => Some f | _ => None end.
Definition i_add (o : iopt) : bool := match o with IAdd _ => true | _ => false end.
Definition r_keep (o : ropt) : bool := match o with RKeep _ => true | RNone _ => false end.
Definition r_none (o : ropt) : bool := match o with RKeep _ => false | RNone _ => true end.

Definition g_tok (g : gopt) : tok * str :=
  (TOpt (Some (match g with GDebug => ADebug | GQuiet _ => AQuiet end, g_word g, false, None)), g_word g).
Definition g_args (gs : list gopt) (n : args) : args :=
  Args (a_debug n || existsb (λ g, match g with GDebug => true | _ => false end) gs) (a_quiet n || existsb (λ g, match g with GQuiet _ => true | _ => false end) gs)
    (a_exclude n) (a_template n) (a_add n) (a_keep n) (a_none n) (a_profile n).
Lemma globals_classify gs rest ts : classify main_opts rest = Some ts → classify main_opts (map g_word gs ++ rest) = Some (map g_tok gs ++ ts).
Proof.
  intros Hr. induction gs as [|g gs IH]; [done|]. cbn [map app]. apply classify_cons; [by destruct g as [|[]]| |done]. destruct g as [|[]]; vm_compute; reflexivity.
Qed.
Lemma globals_loop gs ts n : main_loop (map g_tok gs ++ ts) n [] = main_loop ts (g_args gs n) [].
Proof.
  revert n. induction gs as [|g gs IH]; intros n; [destruct n; unfold g_args; cbn; by rewrite !orb_false_r|].
  assert (∃ o, g_tok g = (TOpt o, g_word g) ∧ consume_optional main_opts (g_word g) o (map g_tok gs ++ ts) = Some ([(match g with GDebug => ADebug | GQuiet _ => AQuiet end, None)], [], 0)) as (o & E & Ec).
  { eexists. split; [reflexivity|]. by destruct g. }
  cbn [map app]. rewrite E. cbn [main_loop]. rewrite Ec. destruct g; cbn [do_acts do_act obind fst snd app]; rewrite IH; unfold g_args; destruct n; cbn; f_equal; try done; by rewrite ?orb_assoc, ?orb_true_r.
Qed.
Lemma parse_docs gs c rest n' : is_Some (classify main_opts rest) → parse_cmd c rest (g_args gs args0) = Got (n', []) →
  parse_args (map g_word gs ++ cmd_name c :: rest) = Got (c, n').
Proof.
  intros [ts Hts] Hc. unfold parse_args.
  assert (Hn : plain (cmd_name c)) by (by destruct c).
  rewrite (globals_classify gs _ _ (classify_cons _ _ _ _ _ (plain_dashes _ Hn) (plain_arg _ _ Hn) Hts)).
  rewrite globals_loop. cbn [main_loop]. assert (cmd_of (cmd_name c) = Some c) as -> by (by destruct c).
  rewrite (classify_snd _ _ _ Hts), Hc. done.
Qed.

Definition i_dopt (o : iopt) : dopt :=
  match o with
  | IExclude true f => (lit "-e", AExclude, Some f) | IExclude false f => (lit "--exclude", AExclude, Some f)
  | ITemplate true f => (lit "-t", ATemplate, Some f) | ITemplate false f => (lit "--template", ATemplate, Some f)
  | IAdd true => (lit "-a", AAddRemote, None) | IAdd false => (lit "--add-remote", AAddRemote, None)
  end.
Lemma i_dopt_ok xs : Forall i_fit xs → Forall (d_ok CInit) (map i_dopt xs).
Proof.
  induction 1 as [|o xs Ho _ IH]; [constructor|]. cbn [map]. constructor; [|done].
  destruct o as [[]|[]|[]]; (split; [apply (bool_decide_unpack _); vm_compute; exact I|done]).
Qed.
Lemma i_dopt_words xs : (map i_dopt xs ≫= d_words) = (xs ≫= i_words).
Proof. induction xs as [|o xs IH]; [done|]. cbn [map mbind list_bind]. rewrite <- IH. by destruct o as [[]|[]|[]]. Qed.
Lemma i_acts xs n : do_acts (Some CInit) (d_acts (map i_dopt xs)) n = Got (Args (a_debug n) (a_quiet n)
  (match last (omap i_exclude xs) with Some f => Some f | None => a_exclude n end) (match last (omap i_template xs) with Some f => Some f | None => a_template n end)
  (a_add n || existsb i_add xs) (a_keep n) (a_none n) (a_profile n)).
Proof.
  revert n. induction xs as [|o xs IH]; intros n; [destruct n; cbn; by rewrite orb_false_r|].
  destruct o as [[] f|[] f|[]]; cbn [map d_acts i_dopt do_acts do_act obind fst snd]; fold (d_acts (map i_dopt xs)); rewrite IH; cbn [a_debug a_quiet a_exclude a_template a_add a_keep a_none a_profile existsb i_add];
    rewrite ?orb_true_r, ?orb_true_l, ?orb_false_l; do 2 f_equal; cbn [omap list_omap i_exclude i_template]; rewrite ?last_cons; by repeat case_match.
Qed.
Definition r_dopt (o : ropt) : dopt := (r_word o, match o with RKeep _ => AKeepRemote | RNone _ => ANoRetrieve end, None).
Lemma r_dopt_ok xs : Forall (d_ok CReset) (map r_dopt xs).
Proof.
  induction xs as [|o xs IH]; [constructor|]. cbn [map]. constructor; [|done].
  destruct o as [[]|[]]; (split; [apply (bool_decide_unpack _); vm_compute; exact I|done]).
Qed.
Lemma r_dopt_words xs : (map r_dopt xs ≫= d_words) = map r_word xs.
Proof. induction xs as [|o xs IH]; [done|]. cbn [map]. by rewrite <- IH. Qed.
Lemma r_acts xs n : do_acts (Some CReset) (d_acts (map r_dopt xs)) n = Got (Args (a_debug n) (a_quiet n) (a_exclude n) (a_template n) (a_add n)
  (a_keep n || existsb r_keep xs) (a_none n || existsb r_none xs) (a_profile n)).
Proof.
  revert n. induction xs as [|o xs IH]; intros n; [destruct n; cbn; by rewrite !orb_false_r|].
  destruct o; cbn [map d_acts r_dopt do_acts do_act obind fst snd]; fold (d_acts (map r_dopt xs)); rewrite IH; cbn [a_debug a_quiet a_exclude a_template a_add a_keep a_none a_profile existsb r_keep r_none];
    by rewrite ?orb_true_r, ?orb_true_l, ?orb_false_l.
Qed.

Lemma docs_known c xs rest : Forall (d_ok c) xs → is_Some (classify main_opts rest) → is_Some (classify main_opts ((xs ≫= d_words) ++ rest)).
Proof.
  intros Hx. pose proof (main_docs c xs Hx) as Hm. clear Hx. induction (xs ≫= d_words) as [|s l IH]; [done|]. intros Hr. cbn [app classify].
  destruct (str_eqb s _); [by eexists|]. destruct (Hm s) as [t ->]; [by left|]. destruct IH as [ts E]; [intros; apply Hm; by right|done|].
  cbn. rewrite E. by eexists.
Qed.
Lemma plain_known p rest : plain p → is_Some (classify main_opts rest) → is_Some (classify main_opts (p :: rest)).
Proof. intros Hp [ts E]. rewrite (classify_cons _ _ _ _ _ (plain_dashes _ Hp) (plain_arg _ _ Hp) E). by eexists. Qed.

(** The options may come in any order, before or after the name; of several
    "--exclude" the last one counts. *)
Theorem C89_init gs xs ys name : Forall i_fit (xs ++ ys) → plain name →
  requested (map g_word gs ++ lit "init" :: (xs ≫= i_words) ++ name :: (ys ≫= i_words))
  = Some (RInit name (last (omap i_exclude (xs ++ ys))) (last (omap i_template (xs ++ ys))) (existsb i_add (xs ++ ys))).
Proof.
  intros [Hx Hy]%Forall_app Hn. pose proof (i_dopt_ok _ Hx) as Dx. pose proof (i_dopt_ok _ Hy) as Dy.
  destruct (parse_cmd_docs CInit (map i_dopt xs) (map i_dopt ys) name (g_args gs args0) eq_refl Dx Dy Hn) as (n' & Ha & Hp).
  rewrite <- map_app, i_acts in Ha. injection Ha as <-. rewrite !i_dopt_words in Hp.
  unfold requested. change (lit "init") with (cmd_name CInit). rewrite (λ H, parse_docs _ _ _ _ H Hp).
  - cbn. by repeat case_match.
  - rewrite <- !i_dopt_words. apply (docs_known CInit); [done|]. apply plain_known; [done|]. rewrite <- (app_nil_r (map i_dopt ys ≫= d_words)).
    apply (docs_known CInit); [done|]. by eexists.
Qed.
Print Assumptions C89_init.
Theorem C89_reset gs xs ys name : plain name →
  requested (map g_word gs ++ lit "reset" :: map r_word xs ++ name :: map r_word ys)
  = Some (RReset name (existsb r_keep (xs ++ ys)) (existsb r_none (xs ++ ys))).
Proof.
  intros Hn. pose proof (r_dopt_ok xs) as Dx. pose proof (r_dopt_ok ys) as Dy.
  destruct (parse_cmd_docs CReset (map r_dopt xs) (map r_dopt ys) name (g_args gs args0) eq_refl Dx Dy Hn) as (n' & Ha & Hp).
  rewrite <- map_app, r_acts in Ha. injection Ha as <-. rewrite !r_dopt_words in Hp.
  unfold requested. change (lit "reset") with (cmd_name CReset). rewrite (λ H, parse_docs _ _ _ _ H Hp).
  - done.
  - rewrite <- !r_dopt_words. apply (docs_known CReset); [done|]. apply plain_known; [done|]. rewrite <- (app_nil_r (map r_dopt ys ≫= d_words)).
    apply (docs_known CReset); [done|]. by eexists.
Qed.
Print Assumptions C89_reset.
Theorem C89_others gs name : plain name →
  requested (map g_word gs ++ [lit "sync"; name]) = Some (RSync name)
  ∧ requested (map g_word gs ++ [lit "empty-trash"; name]) = Some (REmptyTrash name)
  ∧ requested (map g_word gs ++ [lit "list"]) = Some RList.
Proof.
  intros Hn. assert (He : is_Some (classify main_opts [])) by (by eexists). pose proof (plain_known name [] Hn He) as Hk.
  split; [|split].
  - destruct (parse_cmd_docs CSync [] [] name (g_args gs args0) eq_refl ltac:(constructor) ltac:(constructor) Hn) as (n' & Ha & Hp).
    unfold requested. change (lit "sync") with (cmd_name CSync). by rewrite (parse_docs _ _ _ _ Hk Hp).
  - destruct (parse_cmd_docs CEmptyTrash [] [] name (g_args gs args0) eq_refl ltac:(constructor) ltac:(constructor) Hn) as (n' & Ha & Hp).
    unfold requested. change (lit "empty-trash") with (cmd_name CEmptyTrash). by rewrite (parse_docs _ _ _ _ Hk Hp).
  - unfold requested. change (lit "list") with (cmd_name CList). by rewrite (parse_docs gs CList [] (g_args gs args0) He eq_refl).
Qed.
Print Assumptions C89_others.
(** A name that looks like an option can be given after "--". *)
Theorem C89_any_name gs xs ys name : Forall i_fit xs →
  requested (map g_word gs ++ lit "init" :: (xs ≫= i_words) ++ [lit "--"; name])
  = Some (RInit name (last (omap i_exclude xs)) (last (omap i_template xs)) (existsb i_add xs))
  ∧ requested (map g_word gs ++ [lit "sync"; lit "--"; name]) = Some (RSync name)
  ∧ requested (map g_word gs ++ lit "reset" :: map r_word ys ++ [lit "--"; name]) = Some (RReset name (existsb r_keep ys) (existsb r_none ys))
  ∧ requested (map g_word gs ++ [lit "empty-trash"; lit "--"; name]) = Some (REmptyTrash name).
Proof.
  intros Hx. pose proof (i_dopt_ok _ Hx) as Dx. pose proof (r_dopt_ok ys) as Dy. assert (He : is_Some (classify main_opts [lit "--"; name])) by (by eexists).
  change (lit "--") with [c_dash; c_dash] in *. split; [|split; [|split]].
  - destruct (parse_cmd_dashes CInit (map i_dopt xs) name (g_args gs args0) eq_refl Dx) as (n' & Ha & Hp).
    rewrite i_acts in Ha. injection Ha as <-. rewrite !i_dopt_words in Hp.
    unfold requested. change (lit "init") with (cmd_name CInit). rewrite (λ H, parse_docs _ _ _ _ H Hp); [cbn; by repeat case_match|].
    rewrite <- !i_dopt_words. by apply (docs_known CInit).
  - destruct (parse_cmd_dashes CSync [] name (g_args gs args0) eq_refl ltac:(constructor)) as (n' & Ha & Hp).
    unfold requested. change (lit "sync") with (cmd_name CSync). by rewrite (parse_docs _ _ _ _ He Hp).
  - destruct (parse_cmd_dashes CReset (map r_dopt ys) name (g_args gs args0) eq_refl Dy) as (n' & Ha & Hp).
    rewrite r_acts in Ha. injection Ha as <-. rewrite !r_dopt_words in Hp.
    unfold requested. change (lit "reset") with (cmd_name CReset). rewrite (λ H, parse_docs _ _ _ _ H Hp); [done|].
    rewrite <- !r_dopt_words. by apply (docs_known CReset).
  - destruct (parse_cmd_dashes CEmptyTrash [] name (g_args gs args0) eq_refl ltac:(constructor)) as (n' & Ha & Hp).
    unfold requested. change (lit "empty-trash") with (cmd_name CEmptyTrash). by rewrite (parse_docs _ _ _ _ He Hp).
Qed.
Print Assumptions C89_any_name.
Example C89_ex :
  requested [lit "--debug"; lit "init"; lit "-e"; lit "pats"; lit "-a"; lit "home"; lit "--exclude"; lit "more"]
  = Some (RInit (lit "home") (Some (lit "more")) None true)
  ∧ Forall i_fit [IExclude true (lit "pats"); IAdd true; IExclude false (lit "more")] ∧ plain (lit "home")
  ∧ requested [lit "reset"; lit "home"; lit "-k"] = Some (RReset (lit "home") true false)
  ∧ requested [lit "sync"; lit "--"; lit "-x"] = Some (RSync (lit "-x")) ∧ requested [lit "sync"; lit "-x"] = None.
Proof. split; [vm_compute; reflexivity|]. split; [repeat constructor; done|]. split; [done|]. by vm_compute. Qed.

(** ** C90 *)
(** An argument naming a flag: "--" and the beginning of its long name (at
    least one letter), or one dash and letters among which is its own. *)
Definition names_flag (long : str) (ch : N) (s : str) : Prop :=
  (3 ≤ length s ∧ s `prefix_of` long) ∨ (∃ x, s = c_dash :: x ∧ plain x ∧ ch ∈ x).
(** The same for an option with a value, which may follow "=". *)
Definition names_option (long : str) (ch : N) (s : str) : Prop :=
  names_flag long ch s ∨ (∃ pre v, 2 ≤ length pre ∧ pre `prefix_of` long ∧ s = pre ++ c_eq :: v).

Lemma starts_two pre : startswith [c_dash; c_dash] pre = true → pre = [c_dash; c_dash] ∨ 3 ≤ length pre.
Proof.
  intros [k ->]%startswith_prefix. destruct k; [by left|]. right. cbn. lia.
Qed.
(** The two names of each option. *)
Definition act_long (a : act) : str :=
  match a with AExclude => lit "--exclude" | ATemplate => lit "--template" | AAddRemote => lit "--add-remote"
  | AKeepRemote => lit "--keep-remote" | ANoRetrieve => lit "--no-retrieve" | ADebug => lit "--debug" | AQuiet => lit "--quiet"
  | _ => [] end.
Definition act_char (a : act) : str :=
  match a with AExclude => lit "e" | ATemplate => lit "t" | AAddRemote => lit "a"
  | AKeepRemote => lit "k" | ANoRetrieve => lit "n" | AQuiet => lit "q" | _ => [] end.
Lemma asked_option A a : asked A a → act_long a ≠ [] → ∃ s, s ∈ A ∧
  ((3 ≤ length s ∧ s `prefix_of` act_long a) ∨ (∃ ch x, act_char a = [ch] ∧ s = c_dash :: x ∧ plain x ∧ ch ∈ x)
   ∨ takes a = true ∧ ∃ pre v, 2 ≤ length pre ∧ pre `prefix_of` act_long a ∧ s = pre ++ c_eq :: v).
Proof.
  intros (s & os & Hs & Hne & Hos & Ha) Hl.
  assert (Hno : ∀ o, (o, a) ∈ os → o = act_long a ∨ o = c_dash :: act_char a ∧ act_char a ≠ []).
  { intros o Ho. destruct Hos as [->|[c ->]]; [|destruct c]; unfold main_opts, cmd_opts in Ho; rewrite ?elem_of_cons, ?elem_of_nil in Ho;
      destruct_or?; simplify_eq; try (by destruct Hl); try (left; reflexivity); right; (split; [reflexivity|]); by vm_compute. }
  exists s. split; [done|]. destruct Ha as [(l & pre & post & Hla & -> & Hp & Hpl & Hpost)|(ch' & x & Hin & -> & Hx & Hpx)].
  - apply startswith_prefix in Hpl.
    assert (l = act_long a) as ->.
    { destruct (Hno _ Hla) as [|[-> Hc]]; [done|]. exfalso. apply startswith_prefix in Hp. destruct Hp as (k & ->). destruct Hpl as (k' & Hk). by destruct a. }
    destruct Hpost as [->|(v & -> & Ht)].
    + left. rewrite app_nil_r in *. destruct (starts_two _ Hp) as [->|]; done.
    + right; right. split; [done|]. exists pre, v. split; [|done]. destruct (starts_two _ Hp) as [->|]; [done|lia].
  - right; left. destruct (Hno _ Hin) as [E|[E Hc]]; [by destruct a|]. injection E as E. exists ch', x. by rewrite <- E.
Qed.
Lemma asked_flag A a ch : asked A a → act_long a ≠ [] → act_char a = [ch] → takes a = false → ∃ s, s ∈ A ∧ names_flag (act_long a) ch s.
Proof.
  intros Ha Hl Hc Ht. destruct (asked_option A a Ha Hl) as (s & Hs & [H|[(ch' & x & E & H)|[E _]]]); [| |congruence]; (exists s; split; [done|]).
  - by left.
  - right. exists x. rewrite Hc in E. by injection E as ->.
Qed.
Lemma asked_valued A a ch : asked A a → act_long a ≠ [] → act_char a = [ch] → ∃ s, s ∈ A ∧ names_option (act_long a) ch s.
Proof.
  intros Ha Hl Hc. destruct (asked_option A a Ha Hl) as (s & Hs & [H|[(ch' & x & E & H)|[_ H]]]); (exists s; split; [done|]).
  - by left; left.
  - left; right. exists x. rewrite Hc in E. by injection E as ->.
  - by right.
Qed.

(** The letters of the options. *)
Definition letter (s : str) : N := default 0%N (head s).
Lemma requested_told argv r : requested argv = Some r → ∃ c n, parse_args argv = Got (c, n) ∧ def_command (c, n) = Some r ∧ told argv n ∧ cmd_name c ∈ argv.
Proof.
  unfold requested. intros E. destruct (parse_args argv) as [[c n]| | |] eqn:Ep; try done.
  exists c, n. destruct (parse_args_told _ _ _ Ep) as (? & ? & ?). done.
Qed.

Theorem C90_init argv name exc tmp add : requested argv = Some (RInit name exc tmp add) →
  lit "init" ∈ argv ∧ name ∈ argv
  ∧ (add = true → ∃ s, s ∈ argv ∧ names_flag (lit "--add-remote") (letter (lit "a")) s)
  ∧ (∀ f, exc = Some f → (∃ s, s ∈ argv ∧ names_option (lit "--exclude") (letter (lit "e")) s) ∧ ∃ s, s ∈ argv ∧ f `suffix_of` s)
  ∧ (∀ f, tmp = Some f → (∃ s, s ∈ argv ∧ names_option (lit "--template") (letter (lit "t")) s) ∧ ∃ s, s ∈ argv ∧ f `suffix_of` s).
Proof.
  intros H. destruct (requested_told _ _ H) as (c & n & _ & Hd & T & Hc). unfold def_command in Hd.
  destruct c, (a_profile n) eqn:Ep; try done. injection Hd as <- <- <- <-.
  split; [exact Hc|]. split; [exact (to_profile _ _ T _ Ep)|]. split; [|split].
  - intros E. exact (asked_flag _ AAddRemote _ (to_add _ _ T E) ltac:(done) eq_refl eq_refl).
  - intros f E. destruct (to_exclude _ _ T _ E) as [H1 H2]. split; [|exact H2]. exact (asked_valued _ AExclude _ H1 ltac:(done) eq_refl).
  - intros f E. destruct (to_template _ _ T _ E) as [H1 H2]. split; [|exact H2]. exact (asked_valued _ ATemplate _ H1 ltac:(done) eq_refl).
Qed.
Print Assumptions C90_init.
Theorem C90_reset argv name keep none : requested argv = Some (RReset name keep none) →
  lit "reset" ∈ argv ∧ name ∈ argv
  ∧ (keep = true → ∃ s, s ∈ argv ∧ names_flag (lit "--keep-remote") (letter (lit "k")) s)
  ∧ (none = true → ∃ s, s ∈ argv ∧ names_flag (lit "--no-retrieve") (letter (lit "n")) s).
Proof.
  intros H. destruct (requested_told _ _ H) as (c & n & _ & Hd & T & Hc). unfold def_command in Hd.
  destruct c, (a_profile n) eqn:Ep; try done. injection Hd as <- <- <-.
  split; [exact Hc|]. split; [exact (to_profile _ _ T _ Ep)|]. split.
  - intros E. exact (asked_flag _ AKeepRemote _ (to_keep _ _ T E) ltac:(done) eq_refl eq_refl).
  - intros E. exact (asked_flag _ ANoRetrieve _ (to_none _ _ T E) ltac:(done) eq_refl eq_refl).
Qed.
Print Assumptions C90_reset.
Theorem C90_others argv r : requested argv = Some r →
  match r with
  | RSync name => lit "sync" ∈ argv ∧ name ∈ argv
  | REmptyTrash name => lit "empty-trash" ∈ argv ∧ name ∈ argv
  | RList => lit "list" ∈ argv
  | _ => True
  end.
Proof.
  intros H. destruct (requested_told _ _ H) as (c & n & _ & Hd & T & Hc). unfold def_command in Hd.
  destruct c, (a_profile n) eqn:Ep; try done; injection Hd as <-; try done; (split; [exact Hc|exact (to_profile _ _ T _ Ep)]).
Qed.
Print Assumptions C90_others.
(** Abbreviations and groups of letters do count. *)
Example C90_ex :
  requested [lit "reset"; lit "-nk"; lit "home"] = Some (RReset (lit "home") true true)
  ∧ requested [lit "reset"; lit "home"; lit "--k"] = Some (RReset (lit "home") true false)
  ∧ requested [lit "init"; lit "--ex=pats"; lit "home"] = Some (RInit (lit "home") (Some (lit "pats")) None false)
  ∧ names_flag (lit "--keep-remote") (letter (lit "k")) (lit "-nk") ∧ names_flag (lit "--keep-remote") (letter (lit "k")) (lit "--k")
  ∧ ¬ names_flag (lit "--keep-remote") (letter (lit "k")) (lit "home") ∧ ¬ names_flag (lit "--keep-remote") (letter (lit "k")) (lit "--no-retrieve").
Proof.
  split; [vm_compute; reflexivity|]. split; [vm_compute; reflexivity|]. split; [vm_compute; reflexivity|]. split; [|split; [|split]].
  - right. exists (lit "nk"). split; [done|]. split; [done|]. apply (bool_decide_unpack _); vm_compute; exact I.
  - left. split; [vm_compute; lia|]. apply startswith_prefix. by vm_compute.
  - intros [[_ H]|(x & E & _)]; [|done]. apply startswith_prefix in H. by vm_compute in H.
  - intros [[_ H]|(x & E & Hp & _)]; [apply startswith_prefix in H; by vm_compute in H|]. injection E as <-. by vm_compute in Hp.
Qed.

(** Nothing on the command line is ignored. *)
Definition request_words (r : request) : list str :=
  match r with
  | RInit p _ _ _ => [lit "init"; p] | RSync p => [lit "sync"; p] | RReset p _ _ => [lit "reset"; p]
  | RList => [lit "list"] | REmptyTrash p => [lit "empty-trash"; p]
  end.
Lemma plain_classify os ws : Forall plain ws → classify os ws = Some (map (pair TArg) ws).
Proof. induction 1 as [|w ws Hw _ IH]; [done|]. exact (classify_cons _ _ _ _ _ (plain_dashes _ Hw) (plain_arg _ _ Hw) IH). Qed.
Lemma plain_loop fuel c ws n ex n' ms ex' : cmd_loop fuel c (map (pair TArg) ws) false n ex = Got (n', ms, ex') → n' = n ∧ ms = false ∧ ex' = ex ++ ws.
Proof.
  revert ws ex. induction fuel as [|fuel IH]; intros ws ex E; [done|]. destruct ws as [|w ws]; cbn in E.
  - injection E as <- <- <-. by rewrite app_nil_r.
  - destruct (IH _ _ E) as (-> & -> & ->). by rewrite <- app_assoc.
Qed.
Lemma plain_step fuel c p ws n ex : cmd_loop (S fuel) c (map (pair TArg) (p :: ws)) true n ex = cmd_loop fuel c (map (pair TArg) ws) false (set_profile p n) ex.
Proof. by destruct ws. Qed.
Theorem C90_words argv r : Forall plain argv → requested argv = Some r →
  argv = request_words r ∧ match r with RInit _ e t a => e = None ∧ t = None ∧ a = false | RReset _ k n => k = false ∧ n = false | _ => True end.
Proof.
  intros Hp. unfold requested, parse_args. rewrite (plain_classify _ _ Hp). destruct argv as [|w ws]; [done|].
  apply Forall_cons in Hp as [_ Hp]. cbn [map main_loop]. destruct (cmd_of w) as [c|] eqn:Ec; [|done].
  assert (w = cmd_name c) as ->. { unfold cmd_of in Ec. apply List.find_some in Ec as [_ E]. symmetry. by apply bool_decide_eq_true in E. }
  assert ((map (pair TArg) ws).*2 = ws) as ->. { clear. induction ws as [|w ws IH]; [done|]. cbn. by f_equal. }
  unfold parse_cmd. rewrite (plain_classify _ _ Hp). rewrite map_length.
  destruct (cmd_profile c) eqn:Epc.
  - destruct ws as [|p ws]; [by destruct c|]. cbn [length]. rewrite plain_step. destruct (cmd_loop _ _ _ _ _ _) as [[[n' ms] ex']| | |] eqn:El; try done.
    destruct (plain_loop _ _ _ _ _ _ _ _ El) as (-> & -> & ->). cbn [obind app].
    destruct (decide (ws = [])) as [->|]; [|done]. cbn. destruct c; try done; intros [= <-]; done.
  - destruct c; try done. destruct (cmd_loop _ _ _ _ _ _) as [[[n' ms] ex']| | |] eqn:El; try done.
    destruct (plain_loop _ _ _ _ _ _ _ _ El) as (-> & -> & ->). cbn [obind app].
    destruct (decide (ws = [])) as [->|]; [|done]. cbn. intros [= <-]. done.
Qed.
Print Assumptions C90_words.
(** The options of the program (those that do not only show something): the long
    names and the letters. *)
Definition documented : list (str * str) :=
  [(lit "--debug", []); (lit "--quiet", lit "q"); (lit "--exclude", lit "e"); (lit "--template", lit "t"); (lit "--add-remote", lit "a");
   (lit "--keep-remote", lit "k"); (lit "--no-retrieve", lit "n")].
Lemma understood_documented os s : os = main_opts ∨ (∃ c, os = cmd_opts c) → understood os s →
  ∃ long ch, (long, ch) ∈ documented ∧
    ((∃ pre, 2 ≤ length pre ∧ pre `prefix_of` long ∧ (s = pre ∨ ∃ v, s = pre ++ c_eq :: v)) ∨ (∃ c x, ch = [c] ∧ s = c_dash :: x ∧ plain x ∧ c ∈ x)).
Proof.
  intros Hos (a & Ha & Hh & Hv).
  assert (Hno : ∀ o, (o, a) ∈ os → o = act_long a ∨ o = c_dash :: act_char a).
  { intros o Ho. destruct Hos as [->|[c ->]]; [|destruct c]; unfold main_opts, cmd_opts in Ho; rewrite ?elem_of_cons, ?elem_of_nil in Ho;
      destruct_or?; simplify_eq; (left; reflexivity) || (right; reflexivity). }
  exists (act_long a), (act_char a). split; [destruct a; try done; apply (bool_decide_unpack _); vm_compute; exact I|].
  destruct Ha as [(l & pre & post & Hla & -> & Hp & Hpl & Hpost)|(ch' & x & Hin & -> & Hx & Hpx)].
  - left. exists pre. split; [destruct (starts_two _ Hp) as [->|]; [done|lia]|]. apply startswith_prefix in Hpl. split.
    + destruct (Hno _ Hla) as [-> | ->]; [done|]. exfalso. apply startswith_prefix in Hp. destruct Hp as (k & ->). destruct Hpl as (k' & Hk). by destruct a.
    + destruct Hpost as [->|(v & -> & _)]; [left; by rewrite app_nil_r|right; by eexists].
  - right. destruct (Hno _ Hin) as [E|E]; [by destruct a|]. injection E as E. exists ch', x. by rewrite <- E.
Qed.
Lemma classify_tok os l ts : classify os l = Some ts → [c_dash; c_dash] ∉ l → ∀ t s, (t, s) ∈ ts → parse_optional os s = Some t.
Proof.
  revert ts. induction l as [|w l IH]; intros ts E Hd t s Hin; cbn [classify] in E; [injection E as <-; by apply elem_of_nil in Hin|].
  apply not_elem_of_cons in Hd as [Hw Hd]. assert (str_eqb w [c_dash; c_dash] = false) as Ew by (apply bool_decide_eq_false; congruence). rewrite Ew in E.
  destruct (parse_optional os w) as [t'|] eqn:Ep; [|done]. destruct (classify os l) as [ts'|]; [|done]. injection E as <-.
  apply elem_of_cons in Hin as [[= -> ->]|Hin]; [done|]. by eapply IH.
Qed.
(** No argument that looks like an option is ignored: on a command line without
    "--", every argument that begins with a dash, is no negative number and has
    no space in it names an option of the program. *)
Theorem C90_known argv r s : requested argv = Some r → lit "--" ∉ argv → s ∈ argv →
  head s = Some c_dash → s ≠ [c_dash] → neg_number s = false → contains_char 32%N s = false →
  ∃ long ch, (long, ch) ∈ documented ∧
    ((∃ pre, 2 ≤ length pre ∧ pre `prefix_of` long ∧ (s = pre ∨ ∃ v, s = pre ++ c_eq :: v)) ∨ (∃ c x, ch = [c] ∧ s = c_dash :: x ∧ plain x ∧ c ∈ x)).
Proof.
  change (lit "--") with [c_dash; c_dash]. intros Hr Hd Hs Hh H1 Hn Hc.
  destruct s as [|d s']; [done|]. injection Hh as ->.
  assert (Hopt : ∀ os t, parse_optional os (c_dash :: s') = Some t → ∃ o, t = TOpt o).
  { intros os t Ep. unfold parse_optional in Ep. rewrite N.eqb_refl in Ep. cbn [negb] in Ep. destruct (opt_act os _); [injection Ep as <-; by eexists|].
    assert (str_eqb s' [] = false) as E0 by (apply bool_decide_eq_false; congruence). rewrite E0 in Ep.
    destruct (if contains_char c_eq _ then _ else _) as [[[a o] x]|]; [injection Ep as <-; by eexists|].
    destruct (option_tuples os _) as [|t1 [|]]; [|injection Ep as <-; by eexists|done]. rewrite Hn, Hc in Ep. injection Ep as <-. by eexists. }
  destruct (requested_told _ _ Hr) as (c & n & Ep & _). unfold parse_args in Ep. destruct (classify main_opts argv) as [ts|] eqn:Ec; [|done].
  destruct (main_loop_known _ _ _ _ _ (classify_opt_toks _ _ _ Ec) Ep) as (ts1 & w & ts2 & Ets & Hw & H2 & ts2' & Ec2 & H3).
  pose proof (classify_snd _ _ _ Ec) as Eargv. rewrite Ets in Eargv. rewrite fmap_app, fmap_cons in Eargv. cbn [snd] in Eargv. rewrite <- Eargv in Hs, Hd.
  apply elem_of_app in Hs as [Hs|[Hs|Hs]%elem_of_cons].
  - apply elem_of_list_fmap in Hs as ([t s2] & Es & Hin). cbn in Es. subst s2. exact (understood_documented _ _ (or_introl eq_refl) (H2 _ _ Hin)).
  - subst w. by destruct c.
  - rewrite <- (classify_snd _ _ _ Ec2) in Hs. apply elem_of_list_fmap in Hs as ([t s2] & Es & Hin). cbn in Es. subst s2.
    assert (Hd2 : [c_dash; c_dash] ∉ ts2.*2) by (intros H; apply Hd; apply elem_of_app; right; by right).
    destruct (Hopt _ _ (classify_tok _ _ _ Ec2 Hd2 _ _ Hin)) as [o ->].
    exact (understood_documented _ _ (or_intror (ex_intro _ c eq_refl)) (H3 _ _ Hin)).
Qed.
Print Assumptions C90_known.
Example C90_known_ex :
  requested [lit "reset"; lit "home"; lit "--no-retrive"] = None ∧ requested [lit "reset"; lit "-z"; lit "home"] = None
  ∧ requested [lit "sync"; lit "home"; lit "away"] = None ∧ requested [lit "sync"; lit "home"] = Some (RSync (lit "home"))
  ∧ requested [lit "reset"; lit "--keep"; lit "home"] = Some (RReset (lit "home") true false)
  ∧ neg_number (lit "--keep") = false ∧ contains_char 32%N (lit "--keep") = false.
Proof. by vm_compute. Qed.

(** ** C91 *)
(** Either help or the version is shown, or the requested command is run; the
    exit status is 0 exactly if it was shown or the command completed, and a
    status of 1 comes with a message or a trace. *)
Theorem C91_status argv exec :
  (main argv exec).1 = 0%Z ∧ ((main argv exec).2 ∈ [PHelp None; PVersion] ∨ (∃ c, (main argv exec).2 = PHelp (Some c))
      ∨ ∃ r, requested argv = Some r ∧ exec r = Completed ∧ (main argv exec).2 = PNothing)
  ∨ (main argv exec).1 = 1%Z ∧ ((main argv exec).2 = PMessage ∨ (main argv exec).2 = PTrace)
    ∧ (∀ r, requested argv = Some r → exec r ≠ Completed).
Proof.
  unfold main, requested. destruct (parse_args argv) as [ca|[c|]| |] eqn:Ep.
  - destruct (def_command ca) as [r|]; [|right; auto]. destruct (exec r) eqn:Ee; cbn.
    + left. split; [done|]. right; right. eauto.
    + right. split; [done|]. split; [destruct (a_debug ca.2); auto|]. intros ? [= <-]. congruence.
    + right. split; [done|]. split; [auto|]. intros ? [= <-]. congruence.
  - left. cbn. eauto.
  - left. cbn. split; [done|]. left. by left.
  - left. cbn. split; [done|]. left. by right; left.
  - right. cbn. split; [done|]. split; [auto|]. done.
Qed.
Print Assumptions C91_status.
(** Without an unexpected exception in a command no trace is shown, unless
    "--debug" is on the command line. *)
Theorem C91_message argv exec : (∀ r, exec r ≠ Crashed) → (main argv exec).2 = PTrace →
  ∃ s, s ∈ argv ∧ 3 ≤ length s ∧ s `prefix_of` lit "--debug".
Proof.
  intros Hx. unfold main. destruct (parse_args argv) as [[c n]| | |] eqn:Ep; try done.
  destruct (parse_args_told _ _ _ Ep) as (T & _ & Hc). destruct (def_command (c, n)) as [r|] eqn:Ed.
  - destruct (exec r) eqn:Ee; [done| |by destruct (Hx r)]. cbn. destruct (a_debug n) eqn:Eb; [|done]. intros _.
    destruct (asked_option _ ADebug (to_debug _ _ T Eb) ltac:(done)) as (s & Hs & [H|[(ch & x & E & _)|[E _]]]); [|done|done]. by exists s.
  - exfalso. unfold def_command in Ed. destruct Hc as [->|[p Hp]]; [done|]. rewrite Hp in Ed. by destruct c.
Qed.
Print Assumptions C91_message.
(** "print a full stack trace instead of an error message if an error occurs":
    not if the error is in the command line itself. *)
Theorem C91_debug_refuted : ∃ argv exec, lit "--debug" ∈ argv ∧ main argv exec = (1%Z, PMessage).
Proof.
  exists [lit "--debug"; lit "synk"; lit "home"], (λ _, Completed). split; [by left|]. vm_compute. reflexivity.
Qed.
Print Assumptions C91_debug_refuted.
Lemma do_acts_debug who axs n n' : do_acts who axs n = Got n' → a_debug n = true → a_debug n' = true.
Proof.
  revert n. induction axs as [|[a v] axs IH]; intros n E Hn; cbn [do_acts] in E; [by injection E as <-|].
  destruct a; cbn [do_act fst snd obind] in E; try done; exact (IH _ E ltac:(done)).
Qed.
Lemma cmd_loop_debug fuel c ts pend n ex n' ms ex' : cmd_loop fuel c ts pend n ex = Got (n', ms, ex') → a_debug n = true → a_debug n' = true.
Proof.
  revert ts pend n ex. induction fuel as [|fuel IH]; intros ts pend n ex E Hn; [done|]. cbn [cmd_loop] in E.
  destruct (if pend then _ else _) as [[p k]|]; [exact (IH _ _ _ _ E ltac:(done))|].
  destruct ts as [|[[| |o] s] rest]; [by injection E as <- _ _|exact (IH _ _ _ _ E Hn)|exact (IH _ _ _ _ E Hn)|].
  destruct (consume_optional _ _ _ _) as [[[axs e] k]|]; [|done]. destruct (do_acts _ axs n) as [n1| | |] eqn:Ea; try done.
  exact (IH _ _ _ _ E (do_acts_debug _ _ _ _ Ea Hn)).
Qed.
Lemma main_loop_debug ts n ex c n' : main_loop ts n ex = Got (c, n') → a_debug n = true → a_debug n' = true.
Proof.
  revert n ex. induction ts as [|[[| |o] s] rest IH]; intros n ex E Hn; [done|done| |]; cbn [main_loop] in E.
  - destruct (cmd_of s) as [c'|]; [|done]. unfold parse_cmd in E. destruct (classify _ _) as [ts|]; [|done].
    destruct (cmd_loop _ _ _ _ _ _) as [[[n1 ms] e]| | |] eqn:El; try done. cbn [obind] in E. destruct ms; [done|]. cbn [obind] in E.
    destruct (decide _); [|done]. injection E as _ <-. exact (cmd_loop_debug _ _ _ _ _ _ _ _ _ El Hn).
  - destruct (consume_optional _ _ _ _) as [[[axs e] k]|]; [|done]. destruct (do_acts _ axs n) as [n1| | |] eqn:Ea; try done.
    exact (IH _ _ E (do_acts_debug _ _ _ _ Ea Hn)).
Qed.
(** If the command line is understood, "--debug" in front of it works. *)
Theorem C91_debug_partial argv exec r : requested (lit "--debug" :: argv) = Some r → exec r ≠ Completed →
  main (lit "--debug" :: argv) exec = (1%Z, PTrace).
Proof.
  unfold requested, main. intros Er Hx. destruct (parse_args _) as [[c n]| | |] eqn:Ep; try done. rewrite Er.
  assert (Hd : a_debug n = true).
  { unfold parse_args in Ep. destruct (classify main_opts argv) as [ts|] eqn:Ec.
    - rewrite (globals_classify [GDebug] argv ts Ec : classify main_opts (lit "--debug" :: argv) = _), globals_loop in Ep.
      exact (main_loop_debug _ _ _ _ _ Ep eq_refl).
    - destruct (classify main_opts (lit "--debug" :: argv)) as [ts|] eqn:E2; [|done]. exfalso. cbn [classify] in E2.
      change (str_eqb (lit "--debug") [c_dash; c_dash]) with false in E2. cbn iota in E2. rewrite Ec in E2. by destruct (parse_optional _ _). }
  cbn [snd]. rewrite Hd. by destruct (exec r).
Qed.
Print Assumptions C91_debug_partial.
Example C91_ex :
  requested [lit "--debug"; lit "sync"; lit "home"] = Some (RSync (lit "home"))
  ∧ main [lit "--debug"; lit "sync"; lit "home"] (λ _, Failed) = (1%Z, PTrace)
  ∧ main [lit "sync"; lit "home"] (λ _, Failed) = (1%Z, PMessage)
  ∧ main [lit "sync"; lit "home"] (λ _, Completed) = (0%Z, PNothing)
  ∧ main [lit "sync"; lit "--help"] (λ _, Failed) = (0%Z, PHelp (Some CSync)).
Proof. by vm_compute. Qed.
