(** The configuration file of a new profile, /repo/zielen/profile.py 95-122 and
    984-1006, and the command "list", /repo/zielen/commands/list.py 30-51. *)
From Verif Require Export Config Table.
From stdpp Require Import options.

(** profile.py 995-1005: one option at the prompt.  [inputs] are the lines that
    the user still types; [None] when they end (EOFError). *)
Fixpoint ask (key : str) (inputs : list str) : option (str * list str) :=
  match inputs with
  | [] => None
  | x :: r => if check_value key (strip x) then ask key r else Some (strip x, r)
  end.
(** profile.py 993-1006: the options of [prompt_keys], in their order. *)
Fixpoint ask_all (keys : list str) (raw : raw_vals) (inputs : list str) : option raw_vals :=
  match keys with
  | [] => Some raw
  | k :: r => match ask k inputs with
              | Some (v, rest) => ask_all r (<[k := v]> raw) rest
              | None => None
              end
  end.
(** profile.py 986-991 *)
Definition prompt_keys (raw : raw_vals) : list str :=
  List.filter (λ k, match raw !! k with Some v => bool_decide (v = []) | None => true end) required_keys.
(** profile.py 984-1006, [prompt] *)
Definition prompt (raw : raw_vals) (inputs : list str) : option raw_vals :=
  ask_all (prompt_keys raw) raw inputs.

(** profile.py 109-122: the part of [Profile.generate] about the configuration
    file.  [given]: whether --template was used; otherwise the template is the
    one that comes with the program.  Simplification: both can be opened.
    [GParseErr] is FileParseError, [GEOF] is EOFError. *)
Inductive generated := GWritten (content : str) | GParseErr | GEOF.
Definition generate_config (given : bool) (template : str) (inputs : list str) : generated :=
  let raw := if given then cfg_read ∅ template else ∅ in
  if given && check_all false raw then GParseErr
  else match prompt raw inputs with
       | Some raw' => GWritten (cfg_write raw' template)
       | None => GEOF
       end.
(** profile.py 91-92: reading the configuration file of a profile, as every
    later command does.  [None] is FileParseError. *)
Definition read_config (content : str) : option raw_vals :=
  let raw := cfg_read ∅ content in
  if check_all true raw then None else Some raw.

(** list.py 30-51, [ListCommand.main].  [profiles] are the directories of
    profiles in the order of [os.scandir], each with the contents of its
    configuration file; [None] if that cannot be opened.  [LParseErr] is
    FileParseError; a value [None] in a row makes [ANSI_REGEX.sub] raise
    TypeError (utils.py 292-294). *)
Inductive listing := LNone | LTable (lines : list str) | LParseErr | LTypeErr | LValueErr.
(** list.py 35-39 *)
Fixpoint read_all (profiles : list (str * option str)) : option (list (str * raw_vals)) :=
  match profiles with
  | [] => Some []
  | (name, c) :: r =>
      match c with
      | None => None
      | Some content => match read_all r with Some l => Some ((name, cfg_read ∅ content) :: l) | None => None end
      end
  end.
(** list.py 41-45 *)
Definition list_row (name : str) (raw : raw_vals) : option (list str) :=
  match cfg_val raw (lit "LocalDir"), cfg_val raw (lit "RemoteDir"), cfg_val raw (lit "StorageLimit") with
  | Some l, Some r, Some s => Some [name; l; r; s]
  | _, _, _ => None
  end.
Fixpoint list_rows (files : list (str * raw_vals)) : option (list (list str)) :=
  match files with
  | [] => Some []
  | (name, raw) :: r => match list_row name raw, list_rows r with
                        | Some x, Some l => Some (x :: l)
                        | _, _ => None
                        end
  end.
(** list.py 46-47 *)
Definition list_header : list str := [lit "Profile"; lit "Local Directory"; lit "Remote Directory"; lit "Limit"].
Definition list_main (profiles : list (str * option str)) : listing :=
  match profiles with
  | [] => LNone
  | _ => match read_all profiles with
         | None => LParseErr
         | Some files => match list_rows files with
                         | None => LTypeErr
                         | Some rows => match table_lines (list_header :: rows) with
                                        | Some lines => LTable lines
                                        | None => LValueErr
                                        end
                         end
         end
  end.
