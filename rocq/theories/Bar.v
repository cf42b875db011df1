(** The progress bar: /repo/zielen/utils.py 200-256 and its use in
    /repo/zielen/fstools.py 30, 88-113.

    Simplification: the fractions are exact; Python computes them as floats. *)
From Verif Require Export Str.
From stdpp Require Import options.

(** [int(round(n / d))]: half to even. *)
Definition round_div (n d : nat) : nat :=
  let q := n / d in
  let r := n mod d in
  if 2 * r <? d then q else if d <? 2 * r then S q else if Nat.even q then q else S q.
(** [s.rjust(n)] for an integer [n] that may be negative *)
Definition rjust (n : Z) (s : str) : str := replicate (Z.to_nat n - length s) 32%N ++ s.
(** [s[:n]]: a negative [n] counts from the end. *)
Definition slice_to (n : Z) (s : str) : str :=
  if (0 <=? n)%Z then take (Z.to_nat n) s else take (length s - Z.to_nat (- n)) s.
(** fstools.py 30: PROGRESS_BAR_LENGTH is 0.35. *)
Definition coverage : nat * nat := (35, 100).
Definition full_char : N := 9608.
Definition empty_char : N := 9617.
(** utils.py 214-256 with the default arguments of [ProgressBar] and a terminal of
    [width] columns, for the fraction [a/b]; [None] is the ValueError. *)
Definition bar_line (width : nat) (message : str) (a b : nat) : option str :=
  if b <? a then None
  else
    let bar_length := round_div (width * coverage.1) coverage.2 in
    let filled := round_div (bar_length * a) b in
    let percent := rjust 3 (show_N (N.of_nat (round_div (100 * a) b))) in
    let bar := (replicate filled full_char ++ replicate (bar_length - filled) empty_char) ++ [32%N] ++ percent ++ lit "%" in
    let trunc := slice_to (Z.of_nat width - Z.of_nat (length bar) - 1) message in
    Some (trunc ++ rjust (Z.of_nat width - Z.of_nat (length trunc)) bar).
(** fstools.py 88-92, 107-113: the fractions shown while files of the given sizes
    are transferred; a total of 0 gives a ZeroDivisionError and the bar shows 1. *)
Fixpoint updates_from (total sofar : nat) (sizes : list nat) : list (nat * nat) :=
  match sizes with
  | [] => []
  | s :: r => (if total =? 0 then (1, 1) else (sofar + s, total)) :: updates_from total (sofar + s) r
  end.
Definition updates (sizes : list nat) : list (nat * nat) := updates_from (sum_list sizes) 0 sizes.
