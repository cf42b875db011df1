(** What is reported about a configuration file: /repo/zielen/profile.py 899-969
    and /repo/zielen/cli.py 272-273. *)
From Verif Require Export Config.
From stdpp Require Import options.

(** profile.py 899-935, [check_value]; [None] when there is no error. *)
Definition check_message (key value : str) : option str :=
  if bool_decide (key ∈ required_keys) && bool_decide (value = []) then Some (lit "must not be blank")
  else if bool_decide (key ∈ bool_keys) && negb (bool_decide (value = []))
          && negb (bool_decide (lower value ∈ TRUE_VALS ++ FALSE_VALS)) then Some (lit "must have a boolean value")
  else if bool_decide (key = lit "LocalDir") then
    if re_abs value then None else Some (lit "must be an absolute path")
  else if bool_decide (key = lit "RemoteDir") then
    if re_abs value then None else Some (lit "must be an absolute path")
  else if bool_decide (key = lit "StorageLimit") then
    match re_limit value with Some _ => None | None => Some (lit "must be an integer followed by a unit (e.g. 10GB)") end
  else if bool_decide (key = lit "SyncInterval") then
    if re_int value then None else Some (lit "must be an integer")
  else if bool_decide (key = lit "PriorityHalfLife") then
    if re_int value then None else Some (lit "must be an integer")
  else if bool_decide (key = lit "TrashCleanupPeriod") then
    if re_sint value then None else Some (lit "must be an integer")
  else None.

(** profile.py 937-969, [check_all]: the arguments of the FileParseError; without
    any there is none.
    Simplification: the differences of sets are in the order of the lists. *)
Definition check_messages (context : str) (check_empty : bool) (raw : raw_vals) : list str :=
  map (λ k, context ++ lit ": missing required option '" ++ k ++ lit "'")
    (List.filter (λ k, bool_decide (raw !! k = None)) required_keys)
  ++ map (λ k, context ++ lit ": unrecognized option '" ++ k ++ lit "'")
    (List.filter (λ k, negb (bool_decide (k ∈ all_keys))) (map fst (map_to_list raw)))
  ++ omap (λ kv : str * str,
      if check_empty || negb (bool_decide (kv.2 = [])) then
        (λ e, context ++ lit ": '" ++ kv.1 ++ lit "' " ++ e) <$> check_message kv.1 kv.2
      else None) (map_to_list raw).

(** cli.py 272-273: the lines that are printed. *)
Definition error_lines (messages : list str) : list str := map (λ m, lit "Error: " ++ m) messages.
