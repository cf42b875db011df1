(** The configuration file: /repo/zielen/containerbase.py 32-85 and
    /repo/zielen/profile.py 220-280 and 833-1006. *)
From stdpp Require Export gmap.
From Verif Require Export Str.
From stdpp Require Import options.

(** ** Text files *)

(** Universal newlines of [open(path)]: "\r\n" and "\r" become "\n". *)
Fixpoint univ_nl (x : str) : str :=
  match x with
  | [] => []
  | c :: x' =>
      if (c =? 13)%N then
        match x' with
        | d :: x'' => if (d =? 10)%N then c_nl :: univ_nl x'' else c_nl :: univ_nl x'
        | [] => [c_nl]
        end
      else c :: univ_nl x'
  end.

(** [for line in file]: lines with their line break; the last one may have
    none. *)
Fixpoint lines_of (x : str) : list str :=
  match x with
  | [] => []
  | c :: x' =>
      if (c =? 10)%N then [c] :: lines_of x'
      else match lines_of x' with
           | [] => [[c]]
           | l :: ls => (c :: l) :: ls
           end
  end.
Definition read_lines (content : str) : list str := lines_of (univ_nl content).

(** ** containerbase.py 32-85, ConfigFile *)

(** line 43, [COMMENT_REGEX = ^\s*#] *)
Definition is_comment (line : str) : bool :=
  match lstrip_by is_space line with
  | c :: _ => (c =? c_hash)%N
  | [] => false
  end.
(** lines 55-56 and 70-71 *)
Definition is_option_line (line : str) : bool :=
  negb (is_comment line) && contains_char c_eq line.

Notation raw_vals := (gmap str str) (only parsing).

(** lines 53-58: the body of the loop of [read] *)
Definition read_line (raw : raw_vals) (line : str) : raw_vals :=
  if is_option_line line then
    let '(key, value) := partition_on c_eq line in
    <[strip key := strip value]> raw
  else raw.

(** lines 49-60, [read] on an object whose dictionary is [raw].  Simplification:
    the OSError branch (file cannot be opened) is left out. *)
Definition cfg_read (raw : raw_vals) (content : str) : raw_vals :=
  fold_left read_line (read_lines content) raw.

(** lines 67-82: the line written for one template line *)
Definition write_line (raw : raw_vals) (line : str) : str :=
  if is_option_line line then
    let '(key, value) := partition_on c_eq line in
    let key := strip key in
    match raw !! key with
    | Some v => key ++ [c_eq] ++ v ++ [c_nl]
    | None => line
    end
  else line.

(** lines 62-85, [write] through the template [template] *)
Definition cfg_write (raw : raw_vals) (template : str) : str :=
  concat (map (write_line raw) (read_lines template)).

(** ** profile.py 864-889: the options *)

Definition TRUE_VALS := [lit "yes"; lit "true"].
Definition FALSE_VALS := [lit "no"; lit "false"].
Definition required_keys := [lit "LocalDir"; lit "RemoteDir"; lit "StorageLimit"].
Definition optional_keys :=
  [lit "SyncInterval"; lit "PriorityHalfLife"; lit "UseTrash"; lit "TrashCleanupPeriod";
   lit "InflatePriority"; lit "AccountForSize"].
Definition all_keys := required_keys ++ optional_keys.
Definition bool_keys := [lit "UseTrash"; lit "InflatePriority"; lit "AccountForSize"].
Definition defaults : raw_vals :=
  list_to_map
    [(lit "SyncInterval", lit "20"); (lit "PriorityHalfLife", lit "120");
     (lit "UseTrash", lit "yes"); (lit "TrashCleanupPeriod", lit "30");
     (lit "InflatePriority", lit "yes"); (lit "AccountForSize", lit "yes")].

(** profile.py 971-977, [vals[key]] *)
Definition cfg_val (raw : raw_vals) (key : str) : option str :=
  match raw !! key with
  | Some v => Some v
  | None => defaults !! key
  end.

(** ** Regular expressions *)

(** [$] without MULTILINE: at the end or before a final line break. *)
Definition at_end (x : str) : bool := bool_decide (x = [] ∨ x = [c_nl]).

Fixpoint span (f : char → bool) (x : str) : str * str :=
  match x with
  | [] => ([], [])
  | c :: x' => if f c then let '(a, b) := span f x' in (c :: a, b) else ([], x)
  end.

(** [^[0-9]+$] *)
Definition re_int (v : str) : bool :=
  let '(ds, r) := span is_digit v in negb (bool_decide (ds = [])) && at_end r.
(** [^-?[0-9]+$] *)
Definition re_sint (v : str) : bool :=
  match v with
  | c :: v' => if (c =? c_dash)%N then re_int v' else re_int v
  | [] => false
  end.
(** [^~?/] *)
Definition re_abs (v : str) : bool :=
  startswith [c_slash] v || startswith [126%N; c_slash] v.

(** The characters that a letter of a pattern matches under re.IGNORECASE. *)
Definition ci_K (c : char) : bool := (c =? 75)%N || (c =? 107)%N || (c =? 8490)%N.
Definition ci_M (c : char) : bool := (c =? 77)%N || (c =? 109)%N.
Definition ci_G (c : char) : bool := (c =? 71)%N || (c =? 103)%N.
Definition ci_B (c : char) : bool := (c =? 66)%N || (c =? 98)%N.
Definition ci_I (c : char) : bool := (c =? 73)%N || (c =? 105)%N || (c =? 304)%N || (c =? 305)%N.

(** [(B|iB)?$]: the text of the group, if the rest matches *)
Definition re_unit (x : str) : option str :=
  match x with
  | b :: r =>
      if ci_B b && at_end r then Some [b]
      else match r with
           | b' :: r' => if ci_I b && ci_B b' && at_end r' then Some [b; b']
                         else if at_end x then Some [] else None
           | [] => if at_end x then Some [] else None
           end
  | [] => Some []
  end.
(** [^([0-9]+)\s*([KMG])(B|iB)?$] with re.IGNORECASE (profile.py 223-225 and
    927): the three groups *)
Definition re_limit (v : str) : option (str * char * str) :=
  let '(ds, r) := span is_digit v in
  match ds with
  | [] => None
  | _ =>
      match lstrip_by is_space r with
      | p :: u =>
          if ci_K p || ci_M p || ci_G p then
            match re_unit u with Some un => Some (ds, p, un) | None => None end
          else None
      | [] => None
      end
  end.

(** ** profile.py 899-935, [check_value]: is there an error message? *)
Definition check_value (key value : str) : bool :=
  if bool_decide (key ∈ required_keys) && bool_decide (value = []) then true
  else if bool_decide (key ∈ bool_keys) && negb (bool_decide (value = []))
          && negb (bool_decide (lower value ∈ TRUE_VALS ++ FALSE_VALS)) then true
  else if bool_decide (key = lit "LocalDir") then negb (re_abs value)
  else if bool_decide (key = lit "RemoteDir") then negb (re_abs value)
  else if bool_decide (key = lit "StorageLimit") then
    match re_limit value with Some _ => false | None => true end
  else if bool_decide (key = lit "SyncInterval") then negb (re_int value)
  else if bool_decide (key = lit "PriorityHalfLife") then negb (re_int value)
  else if bool_decide (key = lit "TrashCleanupPeriod") then negb (re_sint value)
  else false.

(** profile.py 937-969, [check_all]: [true] when FileParseError is raised. *)
Definition check_all (check_empty : bool) (raw : raw_vals) : bool :=
  let missing := List.filter (λ k, bool_decide (raw !! k = None)) required_keys in
  let keys := map fst (map_to_list raw) in
  let unrecognized := List.filter (λ k, negb (bool_decide (k ∈ all_keys))) keys in
  let bad := List.filter
    (λ kv, (check_empty || negb (bool_decide (kv.2 = []))) && check_value kv.1 kv.2)
    (map_to_list raw) in
  negb (bool_decide (missing = [])) || negb (bool_decide (unrecognized = []))
  || negb (bool_decide (bad = [])).

(** ** The typed getters *)

(** Why a getter may fail: the Python exception. *)
Inductive py_exc := UnboundLocalError | IndexError | ValueError.

(** profile.py 220-239, [storage_limit], from the raw text.  [findall(...)[0]]
    raises IndexError when nothing matches; using a variable that no branch
    assigned raises UnboundLocalError. *)
Definition storage_limit (v : str) : N + py_exc :=
  match re_limit v with
  | None => inr IndexError
  | Some (num, prefix, unit) =>
      let base :=
        if bool_decide (unit = lit "iB") || bool_decide (unit = []) then Some 1024%N
        else if bool_decide (unit = lit "B") then Some 1000%N else None in
      let exponent :=
        if (prefix =? 107)%N || (prefix =? 75)%N then Some 1%N
        else if (prefix =? 77)%N then Some 2%N
        else if (prefix =? 71)%N then Some 3%N else None in
      match base, exponent with
      | Some b, Some e => inl (parse_N num * b ^ e)%N
      | _, _ => inr UnboundLocalError
      end
  end.

(** profile.py 260-265, [_convert_bool]; [None] when no branch returns *)
Definition convert_bool (v : str) : option bool :=
  if bool_decide (v ∈ TRUE_VALS) then Some true
  else if bool_decide (v ∈ FALSE_VALS) then Some false
  else None.
(** Truth value of the result in a condition: [None] counts as false. *)
Definition bool_truth (b : option bool) : bool :=
  match b with Some true => true | _ => false end.

(** [int(v)] for a text that [re_int] accepts (surrounding blanks ignored). *)
Definition py_int (v : str) : N := parse_N (strip v).

(** profile.py 241-244 *)
Definition sync_interval (v : str) : N := (py_int v * 60)%N.
(** profile.py 246-253 *)
Definition cleanup_period (v : str) : option N :=
  if startswith [c_dash] v then None else Some (py_int v * 60 * 60 * 24)%N.
(** profile.py 255-258 *)
Definition priority_half_life (v : str) : N := (py_int v * 60 ^ 2)%N.

(** * Specification *)

(** A text without surrounding blanks. *)
Definition stripped (x : str) : Prop := strip x = x.
(** A text within one line. *)
Definition one_line (x : str) : Prop := 10%N ∉ x ∧ 13%N ∉ x.

(** What the manual says a storage limit is: digits, blanks, a prefix letter
    and a unit, letters in any case. *)
Inductive limit_unit : str → N → Prop :=
| unit_none : limit_unit [] 1024
| unit_B b : lower_char b = 98%N → limit_unit [b] 1000
| unit_iB i b : lower_char i = 105%N → lower_char b = 98%N → limit_unit [i; b] 1024.
Inductive limit_prefix : char → N → Prop :=
| prefix_K c : lower_char c = 107%N → limit_prefix c 1
| prefix_M c : lower_char c = 109%N → limit_prefix c 2
| prefix_G c : lower_char c = 103%N → limit_prefix c 3.
Definition limit_denotes (v : str) (bytes : N) : Prop :=
  ∃ ds sp p u base e,
    v = ds ++ sp ++ p :: u ∧ ds ≠ [] ∧ Forall (λ c, is_digit c = true) ds
    ∧ Forall (λ c, is_space c = true) sp ∧ limit_prefix p e ∧ limit_unit u base
    ∧ bytes = (parse_N ds * base ^ e)%N.

(** What the manual says about the other options. *)
Definition int_syntax (v : str) : Prop := v ≠ [] ∧ Forall (λ c, is_digit c = true) v.
Definition bool_syntax (v : str) : Prop :=
  v = [] ∨ lower v = lit "yes" ∨ lower v = lit "true" ∨ lower v = lit "no" ∨ lower v = lit "false".
Definition abs_syntax (v : str) : Prop := ∃ r, v = c_slash :: r ∨ v = 126%N :: c_slash :: r.

(** Letters compared without regard to case, as Unicode (and the program)
    does: U+212A is a capital K, U+0130 and U+0131 are letters i. *)
Definition limit_syntax (v : str) : Prop :=
  ∃ ds sp p u,
    v = ds ++ sp ++ p :: u ∧ ds ≠ [] ∧ Forall (λ c, is_digit c = true) ds
    ∧ Forall (λ c, is_space c = true) sp
    ∧ p ∈ [75; 107; 8490; 77; 109; 71; 103]%N
    ∧ (u = [] ∨ (∃ b, b ∈ [66; 98]%N ∧ u = [b])
       ∨ ∃ i b, i ∈ [73; 105; 304; 305]%N ∧ b ∈ [66; 98]%N ∧ u = [i; b]).

(** The documented syntax of the value of an option. *)
Definition value_syntax (k v : str) : Prop :=
  (k ∈ bool_keys → bool_syntax v)
  ∧ (k = lit "LocalDir" ∨ k = lit "RemoteDir" → abs_syntax v)
  ∧ (k = lit "StorageLimit" → limit_syntax v)
  ∧ (k = lit "SyncInterval" ∨ k = lit "PriorityHalfLife" → int_syntax v)
  ∧ (k = lit "TrashCleanupPeriod" → int_syntax v ∨ ∃ r, v = c_dash :: r ∧ int_syntax r).

(** A line that gives option [k] the value [v]: not a comment, the text before
    the first "=" is [k] and the text after it is [v], up to blanks. *)
Definition comment_line (line : str) : Prop :=
  ∃ sp r, line = sp ++ c_hash :: r ∧ Forall (λ c, is_space c = true) sp.
Definition assigns (line k v : str) : Prop :=
  ¬ comment_line line
  ∧ ∃ a b, line = a ++ c_eq :: b ∧ c_eq ∉ a ∧ strip a = k ∧ strip b = v.
(** The file gives [k] the value [v]: its last line about [k] does. *)
Definition file_assigns (lines : list str) (k v : str) : Prop :=
  ∃ pre line post, lines = pre ++ line :: post ∧ assigns line k v
    ∧ ∀ l' v', l' ∈ post → ¬ assigns l' k v'.
Definition file_mentions (lines : list str) (k : str) : Prop :=
  ∃ line v, line ∈ lines ∧ assigns line k v.
