(** C98: the sync that the daemon starts is a sync of its profile. *)
From Verif Require Import Prop_Cli CliProofs.
From Verif Require Import Command.
From stdpp Require Import options.

(** For each accepted name that does not begin with a dash, the command that the
    daemon starts is the sync of the profile with that name.
    Missing: names that begin with a dash (C98_dash_refuted). *)
Theorem C98_name_partial word name : name_accepted word name = true → head name ≠ Some c_dash →
  requested (daemon_argv name) = Some (RSync name).
Proof. intros _ Hn. exact (proj1 (C89_others [GDebug] name Hn)). Qed.
Print Assumptions C98_name_partial.

Lemma dash_classify os s l : head s = Some c_dash → s ≠ [c_dash] → neg_number s = false → contains_char 32%N s = false →
  classify os [s] = Some l → l = [(TDashes, s)] ∨ ∃ o, l = [(TOpt o, s)].
Proof.
  intros Hh H1 Hn Hc. cbn [classify]. case_match; [intros [= <-]; by left|].
  destruct (parse_optional os s) as [t|] eqn:Ep; [|done]. intros [= <-]. right.
  destruct s as [|d s']; [done|]. injection Hh as ->. unfold parse_optional in Ep. rewrite N.eqb_refl in Ep. cbn [negb] in Ep.
  destruct (opt_act os _); [injection Ep as <-; by eexists|].
  assert (str_eqb s' [] = false) as E0 by (apply bool_decide_eq_false; congruence). rewrite E0 in Ep.
  destruct (if contains_char c_eq _ then _ else _) as [[[a o] x]|]; [injection Ep as <-; by eexists|].
  destruct (option_tuples os _) as [|t1 [|]]; [|injection Ep as <-; by eexists|done]. rewrite Hn, Hc in Ep. injection Ep as <-. by eexists.
Qed.
(** Every accepted name that begins with a dash, except "-" and what looks like
    a negative number, is taken for an option: no sync is made, ever. *)
Theorem C98_dash word name :
  name_accepted word name = true → head name = Some c_dash → name ≠ [c_dash] → neg_number name = false →
  requested (daemon_argv name) = None.
Proof.
  intros Ha Hh H1 Hn. assert (contains_char 32%N name = false) as Hc.
  { unfold name_accepted in Ha. destruct (existsb is_space name) eqn:Ex; [done|]. unfold contains_char.
    destruct (existsb (N.eqb 32) name) eqn:Ey; [|done]. apply existsb_exists in Ey as (c & Hin & <-%N.eqb_eq).
    assert (existsb is_space name = true) as Hx by (apply existsb_exists; by exists 32%N). congruence. }
  unfold requested, parse_args, daemon_argv. destruct (classify main_opts [name]) as [l|] eqn:El.
  - assert (plain (lit "sync")) as Hp by done.
    pose proof (globals_classify [GDebug] _ _ (classify_cons _ _ _ _ _ (plain_dashes _ Hp) (plain_arg _ _ Hp) El)) as E.
    change ([lit "--debug"; lit "sync"; name]) with (map g_word [GDebug] ++ lit "sync" :: [name]). rewrite E.
    rewrite globals_loop. cbn [main_loop]. change (cmd_of (lit "sync")) with (Some CSync).
    rewrite (classify_snd _ _ _ El). unfold parse_cmd. destruct (classify (cmd_opts CSync) [name]) as [l'|] eqn:El'; [|done].
    destruct (dash_classify _ _ _ Hh H1 Hn Hc El') as [-> | [o ->]].
    + done.
    + cbn [length cmd_loop cmd_profile]. destruct (consume_optional _ _ _ _) as [[[axs ex] k]|]; [|done].
      destruct (do_acts _ _ _) as [n'| | |]; [|done..]. cbn [obind]. rewrite drop_nil. done.
  - assert (classify main_opts [lit "--debug"; lit "sync"; name] = None) as ->; [|done].
    change ([lit "--debug"; lit "sync"; name]) with (lit "--debug" :: lit "sync" :: [name]).
    cbn [classify] in *. destruct (str_eqb name [c_dash; c_dash]); [done|].
    destruct (parse_optional main_opts name) as [t|]; [done|].
    assert (str_eqb (lit "--debug") [c_dash; c_dash] = false) as -> by (vm_compute; reflexivity).
    assert (str_eqb (lit "sync") [c_dash; c_dash] = false) as -> by (vm_compute; reflexivity).
    destruct (parse_optional main_opts (lit "--debug")) as [t|]; [|done].
    destruct (parse_optional main_opts (lit "sync")) as [t'|]; done.
Qed.
Print Assumptions C98_dash.
(** Such a profile can be made: not every attempt of the daemon is a sync. *)
Theorem C98_dash_refuted : ∃ name argv,
  name_accepted ascii_word name = true ∧ requested argv = Some (RInit name None None false)
  ∧ requested (daemon_argv name) = None ∧ ∀ exec, (main (daemon_argv name) exec).1 = 1%Z.
Proof.
  exists (lit "-work"), [lit "init"; lit "--"; lit "-work"].
  split; [vm_compute; reflexivity|]. split; [vm_compute; reflexivity|]. split; [vm_compute; reflexivity|].
  intros exec. unfold main. assert (parse_args (daemon_argv (lit "-work")) = Bad) as -> by (vm_compute; reflexivity). done.
Qed.
Print Assumptions C98_dash_refuted.
Example C98_ex :
  Forall (λ x, name_accepted ascii_word x = true ∧ head x ≠ Some c_dash) [lit "home"; lit "my-files"]
  ∧ Forall (λ x, name_accepted ascii_word x = true ∧ head x = Some c_dash ∧ x ≠ [c_dash] ∧ neg_number x = false) [lit "-work"; lit "--debug"; lit "--"; lit "-q"].
Proof. split; apply (bool_decide_unpack _); vm_compute; exact Logic.I. Qed.
