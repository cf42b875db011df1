(** /repo/zielen/utils.py 259-357, class [BoxTable]. *)
From Verif Require Export Str.
From stdpp Require Import options.

(** utils.py 281, ANSI_REGEX: [\x1b\[[0-9;]+m] at the start of a text; the
    rest behind the match. *)
Definition is_param (c : N) : bool := (bool_decide (48 <= c <= 57) || bool_decide (c = 59))%N.
Fixpoint ansi_body (s : str) (some : bool) : option str :=
  match s with
  | [] => None
  | c :: r => if is_param c then ansi_body r true
              else if bool_decide (c = 109%N) && some then Some r else None
  end.
Definition ansi_match (s : str) : option str :=
  match s with
  | e :: b :: r => if bool_decide (e = 27%N) && bool_decide (b = 91%N) then ansi_body r false else None
  | _ => None
  end.
(** [ANSI_REGEX.sub("", text)], from left to right; [n] bounds the steps. *)
Fixpoint ansi_sub (n : nat) (s : str) : str :=
  match n, s with
  | S n', c :: r => match ansi_match s with Some r' => ansi_sub n' r' | None => c :: ansi_sub n' r end
  | _, _ => []
  end.
Definition visible (s : str) : str := ansi_sub (length s) s.

(** utils.py 270-280 *)
Definition ch_h : N := 9472. Definition ch_v : N := 9474.
Definition ch_tr : N := 9488. Definition ch_tl : N := 9484.
Definition ch_br : N := 9496. Definition ch_bl : N := 9492.
Definition ch_cross : N := 9532. Definition ch_tt : N := 9516.
Definition ch_bt : N := 9524. Definition ch_lt : N := 9500. Definition ch_rt : N := 9508.

(** [sep.join(l)] *)
Fixpoint join_with (sep : str) (l : list str) : str :=
  match l with
  | [] => []
  | [x] => x
  | x :: r => x ++ sep ++ join_with sep r
  end.
(** utils.py 290-297, [_get_column_lengths]: [zip( *data)] are the columns, all
    rows have the length of the first. *)
Definition column_lengths (data : list (list str)) : list nat :=
  map (λ i, max_list (map (λ r : list str, length (visible (nth i r []))) data)) (seq 0 (length (hd [] data))).
(** utils.py 299-322: the separators. *)
Definition separator (lens : list nat) : list str := map (λ n, replicate (n + 2) ch_h) lens.
Definition top_separator (lens : list nat) : str := [ch_tl] ++ join_with [ch_tt] (separator lens) ++ [ch_tr].
Definition bottom_separator (lens : list nat) : str := [ch_bl] ++ join_with [ch_bt] (separator lens) ++ [ch_br].
Definition inside_separator (lens : list nat) : str := [ch_lt] ++ join_with [ch_cross] (separator lens) ++ [ch_rt].
(** utils.py 324-341, [_format_row], one row.  [" " * n] is empty for n <= 0. *)
Definition any_text (row : list str) : bool := existsb (λ t : str, negb (bool_decide (t = []))) row.
Definition format_row (lens : list nat) (row : list str) : str :=
  if any_text row then
    let inside := join_with (lit " " ++ [ch_v] ++ lit " ")
      (zip_with (λ (t : str) n, t ++ replicate (n - length (visible t)) 32%N) row lens) in
    [ch_v] ++ lit " " ++ inside ++ lit " " ++ [ch_v]
  else inside_separator lens.
(** utils.py 282-288 and 343-357, [BoxTable(data).format()] before the lines are
    joined.  [None]: rows of different lengths (ValueError) or no row at all
    (StopIteration). *)
Definition header_on : str := 27%N :: lit "[1m".
Definition header_off : str := 27%N :: lit "[0m".
Definition table_lines (data : list (list str)) : option (list str) :=
  match data with
  | [] => None
  | first :: rows =>
      if forallb (λ r : list str, bool_decide (length r = length first)) data then
        let lens := column_lengths data in
        Some ([top_separator lens; header_on ++ format_row lens first ++ header_off; inside_separator lens]
              ++ map (format_row lens) rows ++ [bottom_separator lens])
      else None
  end.
