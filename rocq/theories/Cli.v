(** The command line: cli.py, and the part of argparse that it uses (as in
    CPython 3.11, argparse.py:1862-2560).  Not modelled: the texts of messages;
    digits and spaces outside ASCII; a final newline after a negative number. *)
From Verif Require Export Str.
From stdpp Require Import options.

(** cli.py:205-250: the commands ... *)
Inductive cmd := CInit | CSync | CReset | CList | CEmptyTrash.
Global Instance cmd_eq_dec : EqDecision cmd.
Proof. solve_decision. Defined.
(** ... and what their options do. *)
Inductive act := AHelp | AVersion | ADebug | AQuiet | AExclude | ATemplate | AAddRemote | AKeepRemote | ANoRetrieve.
Global Instance act_eq_dec : EqDecision act.
Proof. solve_decision. Defined.

(** cli.py:211-250: the names of the commands. *)
Definition cmd_name (c : cmd) : str :=
  match c with
  | CInit => lit "init" | CSync => lit "sync" | CReset => lit "reset" | CList => lit "list" | CEmptyTrash => lit "empty-trash"
  end.
Definition cmds : list cmd := [CInit; CSync; CReset; CList; CEmptyTrash].
Definition cmd_of (s : str) : option cmd := List.find (λ c, str_eqb (cmd_name c) s) cmds.

(** The options of a parser, in the order of [_option_string_actions]. *)
Definition opts : Type := list (str * act).
(** cli.py:211-215 *)
Definition main_opts : opts :=
  [(lit "--help", AHelp); (lit "--version", AVersion); (lit "--debug", ADebug); (lit "--quiet", AQuiet); (lit "-q", AQuiet)].
(** cli.py:220-250 *)
Definition cmd_opts (c : cmd) : opts :=
  (lit "--help", AHelp) ::
  match c with
  | CInit => [(lit "--exclude", AExclude); (lit "-e", AExclude); (lit "--template", ATemplate); (lit "-t", ATemplate);
              (lit "--add-remote", AAddRemote); (lit "-a", AAddRemote)]
  | CReset => [(lit "--keep-remote", AKeepRemote); (lit "-k", AKeepRemote); (lit "--no-retrieve", ANoRetrieve); (lit "-n", ANoRetrieve)]
  | CSync | CList | CEmptyTrash => []
  end.
(** cli.py:225-249: whether the command takes the name of a profile. *)
Definition cmd_profile (c : cmd) : bool := match c with CList => false | _ => true end.
(** Whether an option takes an argument ([nargs] None or 0; cli.py:220-221). *)
Definition takes (a : act) : bool := match a with AExclude | ATemplate => true | _ => false end.
Definition opt_act (os : opts) (s : str) : option act := snd <$> List.find (λ oa, str_eqb oa.1 s) os.

(** What an argument is to a parser: "--", an argument, or an option with the
    action, the string of the option, whether there was an "=", and what follows. *)
Inductive tok := TDashes | TArg | TOpt (o : option (act * str * bool * option str)).

(** argparse.py: _negative_number_matcher *)
Definition all_digits (s : str) : bool := forallb is_digit s.
Definition neg_number (s : str) : bool :=
  match s with
  | d :: s' => N.eqb d c_dash &&
      ((negb (str_eqb s' []) && all_digits s')
       || (contains_char c_dot s' && let '(a, b) := partition_on c_dot s' in all_digits a && negb (str_eqb b []) && all_digits b))
  | [] => false
  end.
(** argparse.py: _get_option_tuples *)
Definition option_tuples (os : opts) (s : str) : list (act * str * bool * option str) :=
  if startswith [c_dash; c_dash] s then
    let '(pre, ex) := if contains_char c_eq s then let '(a, b) := partition_on c_eq s in (a, Some b) else (s, None) in
    omap (λ oa, if startswith pre oa.1 then Some (oa.2, oa.1, bool_decide (is_Some ex), ex) else None) os
  else
    omap (λ oa, if str_eqb oa.1 (take 2 s) then Some (oa.2, oa.1, false, Some (drop 2 s))
                else if startswith s oa.1 then Some (oa.2, oa.1, false, None) else None) os.
(** argparse.py: _parse_optional; [None] when the option is ambiguous. *)
Definition parse_optional (os : opts) (s : str) : option tok :=
  match s with
  | [] => Some TArg
  | d :: s' =>
    if negb (N.eqb d c_dash) then Some TArg
    else match opt_act os s with
    | Some a => Some (TOpt (Some (a, s, false, None)))
    | None =>
      if str_eqb s' [] then Some TArg
      else match (if contains_char c_eq s then let '(o, x) := partition_on c_eq s in (λ a, (a, o, x)) <$> opt_act os o else None) with
      | Some (a, o, x) => Some (TOpt (Some (a, o, true, Some x)))
      | None =>
        match option_tuples os s with
        | [t] => Some (TOpt (Some t))
        | _ :: _ => None
        | [] => if neg_number s || contains_char 32%N s then Some TArg else Some (TOpt None)
        end
      end
    end
  end.
(** argparse.py:1933-1957: all arguments are classified first. *)
Fixpoint classify (os : opts) (args : list str) : option (list (tok * str)) :=
  match args with
  | [] => Some []
  | s :: rest =>
    if str_eqb s [c_dash; c_dash] then Some ((TDashes, s) :: map (pair TArg) rest)
    else t ← parse_optional os s; ts ← classify os rest; Some ((t, s) :: ts)
  end.

(** The namespace; [None] for a profile that was not given. *)
Record args := Args {
  a_debug : bool; a_quiet : bool; a_exclude : option str; a_template : option str;
  a_add : bool; a_keep : bool; a_none : bool; a_profile : option str
}.
Definition args0 : args := Args false false None None false false false None.
Definition set_profile (p : str) (n : args) : args :=
  Args (a_debug n) (a_quiet n) (a_exclude n) (a_template n) (a_add n) (a_keep n) (a_none n) (Some p).
(** What parsing comes to: a value, a help text (of a command or of the program)
    or the version, or an error message. *)
Inductive out (A : Type) := Got (a : A) | ShowHelp (c : option cmd) | ShowVersion | Bad.
Arguments Got {A}. Arguments ShowHelp {A}. Arguments ShowVersion {A}. Arguments Bad {A}.
Definition obind {A B} (o : out A) (f : A → out B) : out B :=
  match o with Got a => f a | ShowHelp c => ShowHelp c | ShowVersion => ShowVersion | Bad => Bad end.

(** The actions (cli.py:174-203; argparse.py: _StoreAction, _StoreTrueAction).
    [who] is the command whose parser it is. *)
Definition do_act (who : option cmd) (ax : act * option str) (n : args) : out args :=
  match ax.1 with
  | AHelp => ShowHelp who
  | AVersion => ShowVersion
  | ADebug => Got (Args true (a_quiet n) (a_exclude n) (a_template n) (a_add n) (a_keep n) (a_none n) (a_profile n))
  | AQuiet => Got (Args (a_debug n) true (a_exclude n) (a_template n) (a_add n) (a_keep n) (a_none n) (a_profile n))
  | AExclude => Got (Args (a_debug n) (a_quiet n) ax.2 (a_template n) (a_add n) (a_keep n) (a_none n) (a_profile n))
  | ATemplate => Got (Args (a_debug n) (a_quiet n) (a_exclude n) ax.2 (a_add n) (a_keep n) (a_none n) (a_profile n))
  | AAddRemote => Got (Args (a_debug n) (a_quiet n) (a_exclude n) (a_template n) true (a_keep n) (a_none n) (a_profile n))
  | AKeepRemote => Got (Args (a_debug n) (a_quiet n) (a_exclude n) (a_template n) (a_add n) true (a_none n) (a_profile n))
  | ANoRetrieve => Got (Args (a_debug n) (a_quiet n) (a_exclude n) (a_template n) (a_add n) (a_keep n) true (a_profile n))
  end.
Fixpoint do_acts (who : option cmd) (axs : list (act * option str)) (n : args) : out args :=
  match axs with [] => Got n | ax :: axs' => obind (do_act who ax n) (do_acts who axs') end.

(** argparse.py:2008-2043: the options in one argument such as "-kn" or "-efile";
    the actions, what is not understood, and a last option without an argument
    of its own; [None] for an error. *)
Fixpoint cluster (os : opts) (x : str) (a : act) (sep : bool) : option (list (act * option str) * option str * option act) :=
  if takes a then Some ([(a, Some x)], None, None)
  else match x with
  | [] => None
  | ch :: x' =>
    if sep || N.eqb ch c_dash then None
    else match opt_act os [c_dash; ch] with
    | None => Some ([(a, None)], Some (c_dash :: x), None)
    | Some a' =>
      match x' with
      | [] => Some ([(a, None)], None, Some a')
      | c :: x'' =>
        let r := if N.eqb c c_eq then cluster os x'' a' true else cluster os x' a' false in
        (λ '(axs, e, l), ((a, None) :: axs, e, l)) <$> r
      end
    end
  end.
Definition long (o : str) : bool := startswith [c_dash; c_dash] o.
(** argparse.py:1991-2063 (consume_optional): the actions, the arguments that are
    not understood and the number of arguments read. *)
Definition consume_optional (os : opts) (s : str) (o : option (act * str * bool * option str)) (rest : list (tok * str)) :
    option (list (act * option str) * list str * nat) :=
  match o with
  | None => Some ([], [s], 0)
  | Some (a, o, sep, ex) =>
    r ← match ex with
        | None => Some ([], None, Some a)
        | Some x =>
          if long o then (if takes a then Some ([(a, Some x)], None, None) else None)
          else cluster os x a sep
        end;
    let '(axs, e, l) := r in
    let e := match e with Some x => [x] | None => [] end in
    match l with
    | None => Some (axs, e, 0)
    | Some a =>
      if takes a then match rest with (TArg, v) :: _ => Some (axs ++ [(a, Some v)], e, 1) | _ => None end
      else Some (axs ++ [(a, None)], e, 0)
    end
  end.

(** argparse.py:2069-2085 (consume_positionals) for the one argument of a command:
    its value and the number of arguments read, with those that are "--". *)
Definition consume_profile (ts : list (tok * str)) : option (str * nat) :=
  match ts with
  | (TArg, p) :: (TDashes, _) :: _ => Some (p, 2)
  | (TArg, p) :: _ => Some (p, 1)
  | (TDashes, _) :: (TArg, p) :: _ => Some (p, 2)
  | _ => None
  end.
Definition is_opt (t : tok * str) : bool := match t.1 with TOpt _ => true | _ => false end.

(** argparse.py:2087-2150 for the parser of a command.  [pend]: the profile is
    still to come.  The result: the namespace, whether the profile is missing and
    the arguments that are not understood. *)
Fixpoint cmd_loop (fuel : nat) (c : cmd) (ts : list (tok * str)) (pend : bool) (n : args) (extra : list str) : out (args * bool * list str) :=
  match fuel with
  | 0 => Bad
  | S fuel =>
    match (if pend then match ts with (TOpt _, _) :: _ => None | _ => consume_profile ts end else None) with
    | Some (p, k) => cmd_loop fuel c (drop k ts) false (set_profile p n) extra
    | None =>
      match ts with
      | [] => Got (n, pend, extra)
      | (TOpt o, s) :: rest =>
        match consume_optional (cmd_opts c) s o rest with
        | None => Bad
        | Some (axs, e, k) => obind (do_acts (Some c) axs n) (λ n', cmd_loop fuel c (drop k rest) pend n' (extra ++ e))
        end
      | (_, s) :: rest => cmd_loop fuel c rest pend n (extra ++ [s])
      end
    end
  end.
(** argparse.py:1890-1916, 2135-2150 (parse_known_args) *)
Definition parse_cmd (c : cmd) (argv : list str) (n : args) : out (args * list str) :=
  match classify (cmd_opts c) argv with
  | None => Bad
  | Some ts => obind (cmd_loop (S (length ts)) c ts (cmd_profile c) n []) (λ '(n', missing, extra), if (missing : bool) then Bad else Got (n', extra))
  end.
(** The main parser: the first argument that is no option is the command and
    gets all that follow (argparse.py: PARSER, 1222-1252).  Then nothing may be
    left over (argparse.py:1862-1866). *)
Fixpoint main_loop (ts : list (tok * str)) (n : args) (extra : list str) : out (cmd * args) :=
  match ts with
  | [] => Bad
  | (TOpt o, s) :: rest =>
    match consume_optional main_opts s o rest with
    | None => Bad
    | Some (axs, e, _) => obind (do_acts None axs n) (λ n', main_loop rest n' (extra ++ e))
    end
  | (TDashes, _) :: _ => Bad
  | (TArg, s) :: rest =>
    match cmd_of s with
    | None => Bad
    | Some c => obind (parse_cmd c rest.*2 n) (λ '(n', e), if decide (extra ++ e = []) then Got (c, n') else Bad)
    end
  end.
(** cli.py:205-252 *)
Definition parse_args (argv : list str) : out (cmd * args) :=
  match classify main_opts argv with None => Bad | Some ts => main_loop ts args0 [] end.

(** cli.py:296-312 (def_command) *)
Inductive request :=
  | RInit (name : str) (exclude template : option str) (add_remote : bool)
  | RSync (profile : str)
  | RReset (profile : str) (keep_remote no_retrieve : bool)
  | RList
  | REmptyTrash (profile : str).
Definition def_command (ca : cmd * args) : option request :=
  let '(c, n) := ca in
  match c, a_profile n with
  | CInit, Some p => Some (RInit p (a_exclude n) (a_template n) (a_add n))
  | CSync, Some p => Some (RSync p)
  | CReset, Some p => Some (RReset p (a_keep n) (a_none n))
  | CList, _ => Some RList
  | CEmptyTrash, Some p => Some (REmptyTrash p)
  | _, None => None
  end.

(** What a command comes to, and what is seen of the program: the exit status
    and what is printed for an error.  cli.py:255-276 (main). *)
Inductive ended := Completed | Failed (* a ProgramError *) | Crashed (* another exception *).
Inductive printed := PNothing | PHelp (c : option cmd) | PVersion | PMessage | PTrace.
Definition main (argv : list str) (exec : request → ended) : Z * printed :=
  match parse_args argv with
  | Bad => (1%Z, PMessage)
  | ShowHelp c => (0%Z, PHelp c)
  | ShowVersion => (0%Z, PVersion)
  | Got ca =>
    match def_command ca with
    | None => (1%Z, PTrace)
    | Some r =>
      match exec r with
      | Completed => (0%Z, PNothing)
      | Failed => (1%Z, if a_debug ca.2 then PTrace else PMessage)
      | Crashed => (1%Z, PTrace)
      end
    end
  end.

(** daemon.py 181-182 (_sync): the arguments of the sync that the daemon starts;
    [input] is what the daemon was started with. *)
Definition daemon_argv (input : str) : list str := [lit "--debug"; lit "sync"; input].
