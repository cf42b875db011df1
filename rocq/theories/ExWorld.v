(** A concrete world for the examples beside the theorems. *)
From Coq Require Import QArith Qcanon.
From Verif Require Export FMProofs Sync DBInv.
From stdpp Require Import options.

Definition e (s : String.string) : path := [lit s].
#[global] Arguments e _%string_scope.
Definition pL : path := e "h".
Definition pR : path := e "r".
(** Patterns are single names here. *)
Definition ex_glob (c : list N) (m : fs) (s : path) : pset :=
  if bool_decide (is_Some (m !! (s ++ [c]))) then {[ [c] ]} else ∅.
Definition ex_dt : datetime :=
  {| dt_year := 2018; dt_month := 1; dt_day := 2; dt_hour := 3; dt_min := 4; dt_sec := 5 |}.
Definition exC : conf := {|
  c_L := pL; c_R := pR; c_limit := 100000; c_account := true; c_inflate := true; c_trash := true;
  c_cleanup := Some 8%Z; c_id := lit "me"; c_patterns := lit "x"; c_glob := ex_glob;
  c_block := 4096; c_blocks := λ _ n, match n with File c _ => Z.of_nat (length c) * 512 | Link _ _ => 0 | Dir _ => 4096 end%Z;
  c_now := 20; c_end := 21; c_dt := ex_dt; c_iter := id; c_rows := id; c_tty := false |}.
Definition known (local : bool) (p : path) : path * ldata := (p, LData false 1%Qc local).
Definition ex_ldb : lmap := list_to_map
  [(e "d", LData true 1%Qc true); known true (e "d" ++ e "a"); known false (e "b"); known true (e "m"); known false (e "rm");
   known false (e "del"); known true (e "del2"); known true (e "gl")].
Definition ex_rdb : rmap := list_to_map
  ((e "d", RData true 9) :: map (λ p, (p, RData false 9)) [e "d" ++ e "a"; e "b"; e "m"; e "rm"; e "del"; e "del2"])%Z.
Definition ex_fs0 : fs := list_to_map (
  [(pL, Dir 1); (pR, Dir 1)]
  ++ map (λ qn, (pL ++ qn.1, qn.2))
  [(e "d", Dir 4); (e "d" ++ e "a", File (lit "a") 5); (e "b", Link (lit "/r/b") 6); (e "new", File (lit "new") 15);
   (e "x", File (lit "x") 15); (e "u", Link (lit "/etc") 3); (e "s", Link (lit "d/a") 3); (e "m", File (lit "m2") 15);
   (e "rm", Link (lit "/r/rm") 6); (e "gl", File (lit "gl") 5)]
  ++ map (λ qn, (pR ++ qn.1, qn.2))
  [(zielen_dir, Dir 1); (zielen_dir ++ e "exclude", Dir 1); (zielen_dir ++ e "Trash", Dir 1);
   (zielen_dir ++ e "Trash" ++ e "old", File (lit "old") 11); (zielen_dir ++ e "Trash" ++ e "del", File (lit "older") 15);
   (e "d", Dir 4); (e "d" ++ e "a", File (lit "a") 5); (e "b", File (lit "bb") 5); (e "m", File (lit "m") 5);
   (e "rm", File (lit "rm2") 16); (e "n2", File (lit "n2") 14); (e "del", File (lit "del") 5); (e "del2", File (lit "del2") 5)])%Z.
Definition exW : world := World ex_fs0 ex_ldb ex_rdb (Some 10%Z) ex_ldb ex_rdb ∅ ∅ None.
Lemma ex_mounted : mounted exC ex_fs0.
Proof. split; [| | |done]; apply (bool_decide_unpack _); vm_compute; exact I. Qed.
Lemma ex_current : current exC exW.
Proof. apply fresh_current. done. Qed.
Definition set_is (X : pset) (l : list path) : bool := bool_decide (X = list_to_set l).
