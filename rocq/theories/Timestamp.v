(** Times in the info file: /repo/zielen/profile.py 143-157
    ([_convert_epoch] and [_convert_timestamp]).

    An instant is a natural number of microseconds since 1970-01-01T00:00:00Z.
    Simplification: Python uses a float number of seconds, which
    [utcfromtimestamp] rounds to the nearest microsecond. *)
From Verif Require Export Str Utils.
From stdpp Require Import options.
Local Open Scope N_scope.

(** ** The calendar of CPython's datetime module ([_ord2ymd], [_ymd2ord]) *)
Definition is_leap (y : N) : bool :=
  (y mod 4 =? 0) && (negb (y mod 100 =? 0) || (y mod 400 =? 0)).
Definition days_before_year (y : N) : N :=
  let y := y - 1 in y * 365 + y / 4 - y / 100 + y / 400.
Definition days_in_month_tbl (m : N) : N :=
  match m with
  | 1 => 31 | 2 => 28 | 3 => 31 | 4 => 30 | 5 => 31 | 6 => 30
  | 7 => 31 | 8 => 31 | 9 => 30 | 10 => 31 | 11 => 30 | 12 => 31
  | _ => 0
  end.
Definition days_before_month_tbl (m : N) : N :=
  match m with
  | 1 => 0 | 2 => 31 | 3 => 59 | 4 => 90 | 5 => 120 | 6 => 151
  | 7 => 181 | 8 => 212 | 9 => 243 | 10 => 273 | 11 => 304 | 12 => 334
  | _ => 0
  end.
Definition days_in_month (y m : N) : N :=
  if (m =? 2) && is_leap y then 29 else days_in_month_tbl m.
Definition days_before_month (y m : N) : N :=
  days_before_month_tbl m + (if (2 <? m) && is_leap y then 1 else 0).
Definition ymd2ord (y m d : N) : N :=
  days_before_year y + days_before_month y m + d.

Definition ord2ymd (n : N) : N * N * N :=
  let n := n - 1 in
  let n400 := n / 146097 in let n := n mod 146097 in
  let year := n400 * 400 + 1 in
  let n100 := n / 36524 in let n := n mod 36524 in
  let n4 := n / 1461 in let n := n mod 1461 in
  let n1 := n / 365 in let n := n mod 365 in
  let year := year + (n100 * 100 + n4 * 4 + n1) in
  if (n1 =? 4) || (n100 =? 4) then (year - 1, 12, 31)
  else
    let leapyear := (n1 =? 3) && (negb (n4 =? 24) || (n100 =? 3)) in
    let month := (n + 50) / 32 in
    let preceding := days_before_month_tbl month + (if (2 <? month) && leapyear then 1 else 0) in
    if n <? preceding then
      let month := month - 1 in
      let preceding := preceding - (days_in_month_tbl month + (if (month =? 2) && leapyear then 1 else 0)) in
      (year, month, n - preceding + 1)
    else (year, month, n - preceding + 1).

(** ** Broken-down times *)
Record utc := {
  u_year : N; u_month : N; u_day : N; u_hour : N; u_min : N; u_sec : N; u_micro : N }.

(** The ordinal of 1970-01-01. *)
Definition epoch_ord : N := 719163.

(** [datetime.utcfromtimestamp(us)] *)
Definition utcfromtimestamp (us : N) : utc :=
  let secs := us / 1000000 in
  let '(y, m, d) := ord2ymd (secs / 86400 + epoch_ord) in
  let r := secs mod 86400 in
  {| u_year := y; u_month := m; u_day := d;
     u_hour := r / 3600; u_min := r mod 3600 / 60; u_sec := r mod 60;
     u_micro := us mod 1000000 |}.

(** [dt.replace(tzinfo=utc).timestamp()], in microseconds *)
Definition utc_timestamp (u : utc) : N :=
  ((ymd2ord (u_year u) (u_month u) (u_day u) - epoch_ord) * 86400
   + u_hour u * 3600 + u_min u * 60 + u_sec u) * 1000000 + u_micro u.

(** ** Text *)
Definition pad6 (n : N) : str :=
  [digit (n / 100000); digit (n / 10000); digit (n / 1000); digit (n / 100); digit (n / 10); digit n].

(** [strftime("%Y-%m-%dT%H:%M:%S.%f")]; simplification: years with four
    digits *)
Definition strftime_iso (u : utc) : str :=
  pad4 (u_year u) ++ [45] ++ pad2 (u_month u) ++ [45] ++ pad2 (u_day u) ++ [84]
  ++ pad2 (u_hour u) ++ [58] ++ pad2 (u_min u) ++ [58] ++ pad2 (u_sec u) ++ [46] ++ pad6 (u_micro u).

(** A fixed-width number; [None] when a character is not a digit. *)
Definition num (l : list N) : option N :=
  if forallb is_digit l then Some (parse_N l) else None.

(** [strptime(text, "%Y-%m-%dT%H:%M:%S.%f")]; [None] is ValueError.
    Simplification: only the zero-padded form (CPython also accepts fields
    without leading zeros, which the program never writes) and no leap second
    (%S accepts 60 and 61, which [datetime] then rejects). *)
Definition strptime_iso (x : str) : option utc :=
  match x with
  | [y1; y2; y3; y4; s1; m1; m2; s2; d1; d2; s3; h1; h2; s4; i1; i2; s5; c1; c2; s6;
     f1; f2; f3; f4; f5; f6] =>
      if (s1 =? 45) && (s2 =? 45) && (s3 =? 84) && (s4 =? 58) && (s5 =? 58) && (s6 =? 46) then
        y ← num [y1; y2; y3; y4]; mo ← num [m1; m2]; d ← num [d1; d2];
        h ← num [h1; h2]; mi ← num [i1; i2]; s ← num [c1; c2];
        f ← num [f1; f2; f3; f4; f5; f6];
        if (1 <=? y) && (1 <=? mo) && (mo <=? 12) && (1 <=? d) && (d <=? days_in_month y mo)
           && (h <=? 23) && (mi <=? 59) && (s <=? 59)
        then Some {| u_year := y; u_month := mo; u_day := d; u_hour := h; u_min := mi;
                     u_sec := s; u_micro := f |}
        else None
      else None
  | _ => None
  end.

(** profile.py 143-148 *)
Definition convert_epoch (x : str) : option N := utc_timestamp <$> strptime_iso x.
(** profile.py 150-157 *)
Definition convert_timestamp (us : N) : str := strftime_iso (utcfromtimestamp us).

(** The first microsecond of the year 10000. *)
Definition end_of_time : N := 253402300800 * 1000000.

(** * Proofs *)

(** A valid date. *)
Definition ymd_ok (t : N * N * N) : bool :=
  let '(y, m, d) := t in
  (1 <=? y) && (1 <=? m) && (m <=? 12) && (1 <=? d) && (d <=? days_in_month y m).

(** Month and day from the zero-based day of the year. *)
Definition md_of (leapyear : bool) (n : N) : N * N :=
  let month := (n + 50) / 32 in
  let preceding := days_before_month_tbl month + (if (2 <? month) && leapyear then 1 else 0) in
  if n <? preceding then
    let month := month - 1 in
    let preceding := preceding - (days_in_month_tbl month + (if (month =? 2) && leapyear then 1 else 0)) in
    (month, n - preceding + 1)
  else (month, n - preceding + 1).
Definition md_good (leapyear : bool) (n : N) : bool :=
  let '(m, d) := md_of leapyear n in
  (1 <=? m) && (m <=? 12) && (1 <=? d)
  && (d <=? (if (m =? 2) && leapyear then 29 else days_in_month_tbl m))
  && (days_before_month_tbl m + (if (2 <? m) && leapyear then 1 else 0) + d =? n + 1).
Fixpoint md_sweep (fuel : nat) (n : N) : bool :=
  match fuel with
  | O => true
  | S f => md_good true n && md_good false n && md_sweep f (n + 1)
  end.
Lemma md_sweep_ok : md_sweep 365 0 = true.
Proof. vm_compute. reflexivity. Qed.
Lemma md_sweep_spec fuel lp : ∀ n k, md_sweep fuel n = true → k < N.of_nat fuel → md_good lp (n + k) = true.
Proof.
  induction fuel as [|f IH]; intros n k H Hk; [lia|].
  cbn [md_sweep] in H. apply andb_true_iff in H as [H0 H].
  apply andb_true_iff in H0 as [Ht Hf].
  destruct (N.eq_dec k 0) as [->|Hk0].
  - rewrite N.add_0_r. by destruct lp.
  - specialize (IH (n + 1) (k - 1) H ltac:(lia)).
    by replace (n + 1 + (k - 1)) with (n + k) in IH by lia.
Qed.
Lemma md_good_all lp n : n < 365 → md_good lp n = true.
Proof. intros Hn. apply (md_sweep_spec 365 lp 0 n md_sweep_ok). lia. Qed.

Ltac nlia := zify; Z.to_euclidean_division_equations; lia.

Lemma is_leap_abc a b c : a <= 3 → b <= 24 → c <= 3 →
  is_leap (1 + (a * 100 + b * 4 + c)) = (c =? 3) && (negb (b =? 24) || (a =? 3)).
Proof.
  intros Ha Hb Hc. unfold is_leap.
  assert ((1 + (a * 100 + b * 4 + c)) mod 4 = (c + 1) mod 4) as ->.
  { replace (1 + (a * 100 + b * 4 + c)) with (c + 1 + (a * 25 + b) * 4) by lia.
    by rewrite N.mod_add. }
  assert (c = 0 ∨ c = 1 ∨ c = 2 ∨ c = 3) as [->|[->|[->| ->]]] by lia; [done..|].
  change ((3 + 1) mod 4 =? 0) with true. change (3 =? 3) with true. cbn [andb].
  destruct (N.eqb_spec b 24) as [->|Hb'].
  - replace (1 + (a * 100 + 24 * 4 + 3)) with (0 + (a + 1) * 100) by lia.
    rewrite N.mod_add by lia. change (0 mod 100 =? 0) with true. cbn [negb orb].
    destruct (N.eqb_spec a 3) as [->|Ha']; [done|].
    apply N.eqb_neq. rewrite N.mod_small by lia. lia.
  - replace (1 + (a * 100 + b * 4 + 3)) with (b * 4 + 4 + a * 100) by lia.
    rewrite N.mod_add by lia. rewrite (N.mod_small _ 100) by lia.
    replace (b * 4 + 4 =? 0) with false by (symmetry; apply N.eqb_neq; lia). done.
Qed.
Lemma dby_abc a b c : a <= 3 → b <= 24 → c <= 3 →
  days_before_year (1 + (a * 100 + b * 4 + c)) = 36524 * a + 1461 * b + 365 * c.
Proof.
  intros Ha Hb Hc. unfold days_before_year.
  replace (1 + (a * 100 + b * 4 + c) - 1) with (a * 100 + b * 4 + c) by lia.
  replace ((a * 100 + b * 4 + c) / 4) with (25 * a + b).
  2:{ replace (a * 100 + b * 4 + c) with (c + (25 * a + b) * 4) by lia.
      rewrite N.div_add, N.div_small by lia. lia. }
  replace ((a * 100 + b * 4 + c) / 100) with a.
  2:{ replace (a * 100 + b * 4 + c) with (b * 4 + c + a * 100) by lia.
      rewrite N.div_add, N.div_small by lia. lia. }
  rewrite N.div_small by lia. lia.
Qed.

(** The first 400-year cycle. *)
Lemma ord2ymd_cycle k : k < 146097 →
  let '(y, m, d) := ord2ymd (1 + k) in
  ymd2ord y m d = 1 + k ∧ ymd_ok (y, m, d) = true ∧ y <= 400.
Proof.
  intros Hk. unfold ord2ymd.
  replace (1 + k - 1) with k by lia.
  rewrite (N.div_small k 146097), (N.mod_small k 146097) by lia.
  pose proof (N.div_mod k 36524 ltac:(lia)) as D1. pose proof (N.mod_lt k 36524 ltac:(lia)) as L1.
  pose proof (N.div_mod (k mod 36524) 1461 ltac:(lia)) as D2.
  pose proof (N.mod_lt (k mod 36524) 1461 ltac:(lia)) as L2.
  pose proof (N.div_mod (k mod 36524 mod 1461) 365 ltac:(lia)) as D3.
  pose proof (N.mod_lt (k mod 36524 mod 1461) 365 ltac:(lia)) as L3.
  revert D1 L1 D2 L2 D3 L3.
  generalize (k mod 36524 mod 1461 mod 365) as r. generalize (k mod 36524 mod 1461 / 365) as c.
  generalize (k mod 36524 mod 1461) as k3. generalize (k mod 36524 / 1461) as b.
  generalize (k mod 36524) as k2. generalize (k / 36524) as a.
  intros a k2 b k3 c r D1 L1 D2 L2 D3 L3.
  assert (a <= 4) as Ha by lia. assert (b <= 24) as Hb by lia. assert (c <= 4) as Hc by lia.
  replace (0 * 400 + 1) with 1 by lia.
  destruct (N.eqb_spec a 4) as [->|Ha4].
  { rewrite orb_true_r. assert (b = 0 ∧ c = 0 ∧ r = 0) as (-> & -> & ->) by lia.
    assert (k = 146096) as -> by lia. vm_compute. done. }
  destruct (N.eqb_spec c 4) as [->|Hc4].
  { cbn [orb]. assert (r = 0) as -> by lia. assert (b <= 23) as Hb' by lia.
    replace (1 + (a * 100 + b * 4 + 4) - 1) with (1 + (a * 100 + b * 4 + 3)) by lia.
    assert (is_leap (1 + (a * 100 + b * 4 + 3)) = true) as Hl.
    { rewrite is_leap_abc by lia. change (3 =? 3) with true. cbn [andb].
      replace (b =? 24) with false by (symmetry; apply N.eqb_neq; lia). done. }
    split; [|split].
    - unfold ymd2ord, days_before_month. rewrite Hl, dby_abc by lia.
      change (days_before_month_tbl 12) with 334. change ((2 <? 12) && true) with true. cbn iota. lia.
    - unfold ymd_ok, days_in_month. rewrite Hl.
      change ((12 =? 2) && true) with false. change (days_in_month_tbl 12) with 31.
      rewrite !andb_true_iff, !N.leb_le. lia.
    - lia. }
  cbn [orb].
  pose proof (md_good_all ((c =? 3) && (negb (b =? 24) || (a =? 3))) r L3) as Hg.
  rewrite <-is_leap_abc in * by lia.
  set (y := 1 + (a * 100 + b * 4 + c)) in *.
  assert (days_before_year y = 36524 * a + 1461 * b + 365 * c) as Hd by (apply dby_abc; lia).
  set (lp := is_leap y) in *.
  unfold md_good in Hg. destruct (md_of lp r) as [m d] eqn:E. unfold md_of in E.
  assert ((if r <? days_before_month_tbl ((r + 50) / 32) + (if (2 <? (r + 50) / 32) && lp then 1 else 0)
           then (y, (r + 50) / 32 - 1,
            r - (days_before_month_tbl ((r + 50) / 32) + (if (2 <? (r + 50) / 32) && lp then 1 else 0)
              - (days_in_month_tbl ((r + 50) / 32 - 1) + (if ((r + 50) / 32 - 1 =? 2) && lp then 1 else 0))) + 1)
           else (y, (r + 50) / 32, r - (days_before_month_tbl ((r + 50) / 32) + (if (2 <? (r + 50) / 32) && lp then 1 else 0)) + 1))
          = (y, m, d)) as ->.
  { destruct (r <? _); by simplify_eq. }
  rewrite !andb_true_iff, !N.leb_le, N.eqb_eq in Hg. destruct Hg as ((((G1 & G2) & G3) & G4) & G5).
  split; [|split].
  - unfold ymd2ord, days_before_month. fold lp. rewrite Hd. lia.
  - unfold ymd_ok, days_in_month. fold lp. rewrite !andb_true_iff, !N.leb_le.
    split; [|done]. lia.
  - lia.
Qed.

Lemma ord2ymd_shift n q : 1 <= n → n <= 146097 →
  ord2ymd (n + q * 146097) = let '(y, m, d) := ord2ymd n in (y + q * 400, m, d).
Proof.
  intros H1 H2. unfold ord2ymd.
  replace (n + q * 146097 - 1) with (n - 1 + q * 146097) by lia.
  rewrite N.div_add, N.mod_add by lia.
  rewrite (N.div_small (n - 1) 146097), (N.mod_small (n - 1) 146097) by lia.
  set (a := (n - 1) / 36524). set (b := (n - 1) mod 36524 / 1461).
  set (c := (n - 1) mod 36524 mod 1461 / 365).
  destruct ((c =? 4) || (a =? 4)) eqn:E.
  - f_equal. f_equal. apply orb_true_iff in E as [E|E]; apply N.eqb_eq in E; lia.
  - destruct (_ <? _); f_equal; f_equal; lia.
Qed.

Lemma is_leap_shift y q : is_leap (y + q * 400) = is_leap y.
Proof.
  unfold is_leap.
  replace (y + q * 400) with (y + (q * 100) * 4) at 1 by lia. rewrite N.mod_add by lia.
  replace (y + q * 400) with (y + (q * 4) * 100) at 1 by lia. rewrite N.mod_add by lia.
  rewrite N.mod_add by lia. done.
Qed.
Lemma days_before_year_shift y q : 1 <= y →
  days_before_year (y + q * 400) = days_before_year y + q * 146097.
Proof.
  intros Hy. unfold days_before_year.
  replace (y + q * 400 - 1) with (y - 1 + q * 400) by lia. set (z := y - 1).
  replace (z + q * 400) with (z + (q * 100) * 4) at 2 by lia. rewrite N.div_add by lia.
  replace (z + q * 400) with (z + (q * 4) * 100) at 2 by lia. rewrite N.div_add by lia.
  rewrite N.div_add by lia.
  assert (z / 100 <= z) as Hz by (apply N.div_le_upper_bound; lia). revert Hz.
  generalize (z / 100) (z / 4) (z / 400). lia.
Qed.
Lemma ymd2ord_shift y m d q : 1 <= y → ymd2ord (y + q * 400) m d = ymd2ord y m d + q * 146097.
Proof.
  intros Hy. unfold ymd2ord, days_before_month. rewrite days_before_year_shift, is_leap_shift by done. lia.
Qed.
Lemma days_in_month_shift y m q : days_in_month (y + q * 400) m = days_in_month y m.
Proof. unfold days_in_month. by rewrite is_leap_shift. Qed.

(** The calendar conversions are inverse, for every day. *)
Lemma ord2ymd_correct n : 1 <= n →
  let '(y, m, d) := ord2ymd n in
  ymd2ord y m d = n ∧ ymd_ok (y, m, d) = true ∧ y <= 400 * ((n - 1) / 146097 + 1).
Proof.
  intros Hn.
  pose proof (N.div_mod (n - 1) 146097 ltac:(lia)) as Hdm.
  pose proof (N.mod_lt (n - 1) 146097 ltac:(lia)) as Hlt.
  set (q := (n - 1) / 146097) in *. set (k := (n - 1) mod 146097) in *.
  pose proof (ord2ymd_cycle k Hlt) as Hs.
  replace n with (1 + k + q * 146097) by lia.
  rewrite ord2ymd_shift by lia.
  destruct (ord2ymd (1 + k)) as [[y m] d] eqn:E. destruct Hs as (H1 & H2 & H3).
  assert (1 <= y) as Hy.
  { unfold ymd_ok in H2. rewrite !andb_true_iff, !N.leb_le in H2. tauto. }
  split; [|split].
  - rewrite ymd2ord_shift by done. lia.
  - unfold ymd_ok in *. rewrite days_in_month_shift.
    rewrite !andb_true_iff, !N.leb_le in *. repeat split; try tauto; lia.
  - lia.
Qed.

(** Decimal fields *)
Lemma parse_cons_digit n l : parse_N (digit n :: l) = (n mod 10) * 10 ^ N.of_nat (length l) + parse_N l.
Proof.
  unfold parse_N at 1. cbn [fold_left]. rewrite fold_parse_acc.
  replace (10 * 0 + digit_val (digit n)) with (n mod 10); [done|].
  unfold digit_val, digit. generalize (n mod 10). lia.
Qed.
Lemma digits_2 n : n < 100 → (n / 10) mod 10 * 10 + n mod 10 = n.
Proof.
  intros H. pose proof (N.div_mod n 10 ltac:(lia)).
  rewrite (N.mod_small (n / 10)); [lia|]. apply N.div_lt_upper_bound; lia.
Qed.
Lemma num_pad2 n : n < 100 → num (pad2 n) = Some n.
Proof.
  intros H. unfold num, pad2. cbn [forallb]. rewrite !digit_is_digit. cbn [andb].
  rewrite !parse_cons_digit. change (parse_N []) with 0. cbn [length].
  change (10 ^ N.of_nat 1) with 10. change (10 ^ N.of_nat 0) with 1.
  f_equal. pose proof (digits_2 n H). lia.
Qed.
Lemma num_pad4 n : n < 10000 → num (pad4 n) = Some n.
Proof.
  intros H. unfold num, pad4. cbn [forallb]. rewrite !digit_is_digit. cbn [andb].
  rewrite !parse_cons_digit. change (parse_N []) with 0. cbn [length].
  change (10 ^ N.of_nat 3) with 1000. change (10 ^ N.of_nat 2) with 100.
  change (10 ^ N.of_nat 1) with 10. change (10 ^ N.of_nat 0) with 1. f_equal.
  replace (n / 1000) with (n / 10 / 10 / 10) by (rewrite !N.div_div by lia; done).
  replace (n / 100) with (n / 10 / 10) by (rewrite !N.div_div by lia; done).
  set (a := n / 10). pose proof (N.div_mod n 10 ltac:(lia)) as H0.
  set (b := a / 10). pose proof (N.div_mod a 10 ltac:(lia)) as H1.
  set (c := b / 10). pose proof (N.div_mod b 10 ltac:(lia)) as H2.
  fold a in H0. fold b in H1. fold c in H2.
  pose proof (N.mod_lt n 10 ltac:(lia)) as M0. pose proof (N.mod_lt a 10 ltac:(lia)) as M1.
  pose proof (N.mod_lt b 10 ltac:(lia)) as M2.
  revert H0 H1 H2 M0 M1 M2. clearbody a b c.
  generalize (n mod 10) (a mod 10) (b mod 10). intros x0 x1 x2 H0 H1 H2 M0 M1 M2.
  assert (c < 10) by lia. rewrite (N.mod_small c) by lia. lia.
Qed.
Lemma num_pad6 n : n < 1000000 → num (pad6 n) = Some n.
Proof.
  intros H. unfold num, pad6. cbn [forallb]. rewrite !digit_is_digit. cbn [andb].
  rewrite !parse_cons_digit. change (parse_N []) with 0. cbn [length].
  change (10 ^ N.of_nat 5) with 100000. change (10 ^ N.of_nat 4) with 10000.
  change (10 ^ N.of_nat 3) with 1000. change (10 ^ N.of_nat 2) with 100.
  change (10 ^ N.of_nat 1) with 10. change (10 ^ N.of_nat 0) with 1. f_equal.
  replace (n / 100000) with (n / 10 / 10 / 10 / 10 / 10) by (rewrite !N.div_div by lia; done).
  replace (n / 10000) with (n / 10 / 10 / 10 / 10) by (rewrite !N.div_div by lia; done).
  replace (n / 1000) with (n / 10 / 10 / 10) by (rewrite !N.div_div by lia; done).
  replace (n / 100) with (n / 10 / 10) by (rewrite !N.div_div by lia; done).
  set (a := n / 10). pose proof (N.div_mod n 10 ltac:(lia)) as H0.
  set (b := a / 10). pose proof (N.div_mod a 10 ltac:(lia)) as H1.
  set (c := b / 10). pose proof (N.div_mod b 10 ltac:(lia)) as H2.
  set (d := c / 10). pose proof (N.div_mod c 10 ltac:(lia)) as H3.
  set (e := d / 10). pose proof (N.div_mod d 10 ltac:(lia)) as H4.
  fold a in H0. fold b in H1. fold c in H2. fold d in H3. fold e in H4.
  pose proof (N.mod_lt n 10 ltac:(lia)) as M0. pose proof (N.mod_lt a 10 ltac:(lia)) as M1.
  pose proof (N.mod_lt b 10 ltac:(lia)) as M2. pose proof (N.mod_lt c 10 ltac:(lia)) as M3.
  pose proof (N.mod_lt d 10 ltac:(lia)) as M4.
  revert H0 H1 H2 H3 H4 M0 M1 M2 M3 M4. clearbody a b c d e.
  generalize (n mod 10) (a mod 10) (b mod 10) (c mod 10) (d mod 10).
  intros x0 x1 x2 x3 x4 H0 H1 H2 H3 H4 M0 M1 M2 M3 M4.
  assert (e < 10) by lia. rewrite (N.mod_small e) by lia. lia.
Qed.

(** Reading back what was written. *)
Lemma strptime_strftime u :
  1 <= u_year u → u_year u < 10000 → 1 <= u_month u → u_month u <= 12 →
  1 <= u_day u → u_day u <= days_in_month (u_year u) (u_month u) →
  u_hour u <= 23 → u_min u <= 59 → u_sec u <= 59 → u_micro u < 1000000 →
  strptime_iso (strftime_iso u) = Some u.
Proof.
  intros Hy1 Hy Hm1 Hm Hd1 Hd Hh Hi Hs Hf.
  assert (days_in_month (u_year u) (u_month u) <= 31).
  { unfold days_in_month. destruct (_ && _); [lia|]. unfold days_in_month_tbl.
    repeat (destruct (u_month u) as [|[?|?|]]; try lia; repeat match goal with |- context [match ?p with _ => _ end] => destruct p; try lia end). }
  assert (num (pad4 (u_year u)) = Some (u_year u)) as E1 by (apply num_pad4; lia).
  assert (num (pad2 (u_month u)) = Some (u_month u)) as E2 by (apply num_pad2; lia).
  assert (num (pad2 (u_day u)) = Some (u_day u)) as E3 by (apply num_pad2; lia).
  assert (num (pad2 (u_hour u)) = Some (u_hour u)) as E4 by (apply num_pad2; lia).
  assert (num (pad2 (u_min u)) = Some (u_min u)) as E5 by (apply num_pad2; lia).
  assert (num (pad2 (u_sec u)) = Some (u_sec u)) as E6 by (apply num_pad2; lia).
  assert (num (pad6 (u_micro u)) = Some (u_micro u)) as E7 by (apply num_pad6; lia).
  unfold pad4, pad2, pad6 in *.
  unfold strftime_iso, pad4, pad2, pad6. cbn [app]. unfold strptime_iso.
  cbn [N.eqb andb Pos.eqb].
  rewrite E1, E2, E3, E4, E5, E6, E7. cbn [mbind option_bind].
  assert (((1 <=? u_year u) && (1 <=? u_month u) && (u_month u <=? 12) && (1 <=? u_day u)
    && (u_day u <=? days_in_month (u_year u) (u_month u)) && (u_hour u <=? 23) && (u_min u <=? 59)
    && (u_sec u <=? 59)) = true) as ->.
  { rewrite !andb_true_iff, !N.leb_le. repeat split; lia. }
  by destruct u.
Qed.

Lemma utc_roundtrip us : utc_timestamp (utcfromtimestamp us) = us.
Proof.
  unfold utcfromtimestamp, utc_timestamp.
  pose proof (ord2ymd_correct (us / 1000000 / 86400 + epoch_ord) ltac:(unfold epoch_ord; generalize (us / 1000000 / 86400); lia)) as H.
  destruct (ord2ymd _) as [[y m] d]. destruct H as (H1 & _). cbn [u_year u_month u_day u_hour u_min u_sec u_micro].
  rewrite H1.
  pose proof (N.div_mod us 1000000 ltac:(lia)) as D1.
  set (s := us / 1000000) in *. set (f := us mod 1000000) in *.
  pose proof (N.div_mod s 86400 ltac:(lia)) as D2.
  set (q := s / 86400) in *. set (r := s mod 86400) in *.
  pose proof (N.div_mod r 3600 ltac:(lia)) as D3.
  set (h := r / 3600) in *. set (r' := r mod 3600) in *.
  pose proof (N.div_mod r' 60 ltac:(lia)) as D4.
  assert (r mod 60 = r' mod 60) as ->.
  { rewrite D3. replace (3600 * h + r') with (r' + (60 * h) * 60) by lia. by rewrite N.mod_add by lia. }
  set (i := r' / 60) in *. set (c := r' mod 60) in *. lia.
Qed.

Lemma timestamp_roundtrip us : us < end_of_time → convert_epoch (convert_timestamp us) = Some us.
Proof.
  intros Hus. unfold convert_epoch, convert_timestamp.
  rewrite strptime_strftime; [simpl; by rewrite utc_roundtrip|..].
  all: unfold utcfromtimestamp.
  all: assert (us / 1000000 / 86400 < 2932897) as Hq
    by (apply N.div_lt_upper_bound; [lia|]; apply N.div_lt_upper_bound; [lia|]; unfold end_of_time in Hus; lia).
  all: pose proof (ord2ymd_correct (us / 1000000 / 86400 + epoch_ord) ltac:(unfold epoch_ord; generalize (us / 1000000 / 86400); lia)) as H.
  all: destruct (ord2ymd _) as [[y m] d] eqn:Eo; destruct H as (H1 & H2 & H3).
  all: unfold ymd_ok in H2; rewrite !andb_true_iff, !N.leb_le in H2; destruct H2 as [[[[? ?] ?] ?] ?].
  all: cbn [u_year u_month u_day u_hour u_min u_sec u_micro]; try lia.
  - (* year < 10000: otherwise the ordinal would be too large *)
    destruct (N.lt_ge_cases y 10000) as [|Hge]; [done|]. exfalso.
    assert (3652059 <= days_before_year y) as Hmono.
    { unfold days_before_year.
      pose proof (N.div_mod (y - 1) 4 ltac:(lia)) as D1. pose proof (N.mod_lt (y - 1) 4 ltac:(lia)) as M1.
      pose proof (N.div_mod (y - 1) 100 ltac:(lia)) as D2. pose proof (N.mod_lt (y - 1) 100 ltac:(lia)) as M2.
      pose proof (N.div_mod (y - 1) 400 ltac:(lia)) as D3. pose proof (N.mod_lt (y - 1) 400 ltac:(lia)) as M3.
      revert D1 M1 D2 M2 D3 M3.
      generalize ((y - 1) / 4) ((y - 1) / 100) ((y - 1) / 400)
        ((y - 1) mod 4) ((y - 1) mod 100) ((y - 1) mod 400). lia. }
    unfold ymd2ord in H1. unfold epoch_ord in H1. lia.
  - assert (us / 1000000 mod 86400 / 3600 < 24); [|lia].
    apply N.div_lt_upper_bound; [lia|]. apply N.mod_lt. lia.
  - assert (us / 1000000 mod 86400 mod 3600 / 60 < 60); [|lia].
    apply N.div_lt_upper_bound; [lia|]. apply N.mod_lt. lia.
  - pose proof (N.mod_lt (us / 1000000 mod 86400) 60 ltac:(lia)). lia.
  - apply N.mod_lt. lia.
Qed.

(** The calendar is the Gregorian one: consecutive ordinals are consecutive
    days. *)
Definition next_day (t : N * N * N) : N * N * N :=
  let '(y, m, d) := t in
  if d <? days_in_month y m then (y, m, d + 1)
  else if m <? 12 then (y, m + 1, 1) else (y + 1, 1, 1).
(** The number of days of a year, and of the months before a month. *)
Lemma dby_succ y : 1 <= y →
  days_before_year (y + 1) = days_before_year y + (if is_leap y then 366 else 365).
Proof.
  intros Hy. unfold days_before_year, is_leap.
  replace (y + 1 - 1) with y by lia.
  destruct (N.eqb_spec (y mod 4) 0), (N.eqb_spec (y mod 100) 0), (N.eqb_spec (y mod 400) 0);
    cbn [andb orb negb]; nlia.
Qed.
Lemma dbm_succ y m : 1 <= m → m < 12 →
  days_before_month y (m + 1) = days_before_month y m + days_in_month y m.
Proof.
  intros H1 H2. unfold days_before_month, days_in_month.
  assert (m = 1 ∨ m = 2 ∨ m = 3 ∨ m = 4 ∨ m = 5 ∨ m = 6 ∨ m = 7 ∨ m = 8 ∨ m = 9 ∨ m = 10 ∨ m = 11)
    as Hm by lia.
  destruct (is_leap y); repeat (destruct Hm as [->|Hm]; [done|]); by subst.
Qed.
Lemma dbm_bound y m d : 1 <= m → m <= 12 → d <= days_in_month y m →
  days_before_month y m + d <= if is_leap y then 366 else 365.
Proof.
  intros H1 H2. unfold days_before_month, days_in_month.
  assert (m = 1 ∨ m = 2 ∨ m = 3 ∨ m = 4 ∨ m = 5 ∨ m = 6 ∨ m = 7 ∨ m = 8 ∨ m = 9 ∨ m = 10 ∨ m = 11 ∨ m = 12)
    as Hm by lia.
  destruct (is_leap y); repeat (destruct Hm as [->|Hm]; [cbn; lia|]); subst; cbn; lia.
Qed.
Lemma dby_mono y y' : 1 <= y → y < y' →
  days_before_year y + (if is_leap y then 366 else 365) <= days_before_year y'.
Proof.
  intros Hy Hlt. rewrite <-dby_succ by done.
  remember (N.to_nat (y' - (y + 1))) as k eqn:Ek.
  assert (y' = y + 1 + N.of_nat k) as -> by lia. clear Ek Hlt.
  induction k as [|k IH]; [rewrite N.add_0_r; lia|].
  replace (y + 1 + N.of_nat (S k)) with (y + 1 + N.of_nat k + 1) by lia.
  rewrite (dby_succ (y + 1 + N.of_nat k)) by lia. destruct (is_leap _); lia.
Qed.
Lemma dbm_mono y m m' : 1 <= m → m < m' → m' <= 12 →
  days_before_month y m + days_in_month y m <= days_before_month y m'.
Proof.
  intros Hm Hlt Hm'. rewrite <-dbm_succ by lia.
  remember (N.to_nat (m' - (m + 1))) as k eqn:Ek.
  assert (m' = m + 1 + N.of_nat k) as -> by lia. clear Ek Hlt.
  induction k as [|k IH]; [rewrite N.add_0_r; lia|].
  replace (m + 1 + N.of_nat (S k)) with (m + 1 + N.of_nat k + 1) by lia.
  rewrite (dbm_succ y (m + 1 + N.of_nat k)) by lia.
  etrans; [apply IH; lia|]. lia.
Qed.
Lemma ymd2ord_inj t t' :
  ymd_ok t = true → ymd_ok t' = true →
  (let '(y, m, d) := t in ymd2ord y m d) = (let '(y, m, d) := t' in ymd2ord y m d) → t = t'.
Proof.
  destruct t as [[y m] d], t' as [[y' m'] d']. unfold ymd_ok, ymd2ord.
  rewrite !andb_true_iff, !N.leb_le. intros ((((A1 & A2) & A3) & A4) & A5) ((((B1 & B2) & B3) & B4) & B5) E.
  pose proof (dbm_bound y m d A2 A3 A5). pose proof (dbm_bound y' m' d' B2 B3 B5).
  assert (y = y') as <-.
  { destruct (N.lt_trichotomy y y') as [Hl|[->|Hl]]; [|done|].
    - pose proof (dby_mono y y' A1 Hl). lia.
    - pose proof (dby_mono y' y B1 Hl). lia. }
  assert (m = m') as <-.
  { destruct (N.lt_trichotomy m m') as [Hl|[->|Hl]]; [|done|].
    - pose proof (dbm_mono y m m' A2 Hl B3). lia.
    - pose proof (dbm_mono y m' m B2 Hl A3). lia. }
  f_equal. lia.
Qed.
Lemma next_day_ok t : ymd_ok t = true → ymd_ok (next_day t) = true
  ∧ (let '(y, m, d) := next_day t in ymd2ord y m d) = (let '(y, m, d) := t in ymd2ord y m d) + 1.
Proof.
  destruct t as [[y m] d]. unfold ymd_ok at 1. rewrite !andb_true_iff, !N.leb_le.
  intros ((((A1 & A2) & A3) & A4) & A5). unfold next_day.
  destruct (N.ltb_spec d (days_in_month y m)).
  { unfold ymd_ok, ymd2ord. cbv beta iota. rewrite !andb_true_iff, !N.leb_le. split; [|lia]. repeat split; lia. }
  destruct (N.ltb_spec m 12).
  { assert (1 <= days_in_month y (m + 1)) as Hd.
    { unfold days_in_month.
      assert (m = 1 ∨ m = 2 ∨ m = 3 ∨ m = 4 ∨ m = 5 ∨ m = 6 ∨ m = 7 ∨ m = 8 ∨ m = 9 ∨ m = 10 ∨ m = 11)
        as Hm by lia.
      destruct (is_leap y); repeat (destruct Hm as [->|Hm]; [by vm_compute|]); subst; by vm_compute. }
    unfold ymd_ok, ymd2ord. cbv beta iota. rewrite !andb_true_iff, !N.leb_le. rewrite dbm_succ by lia.
    split; [|lia]. repeat split; lia. }
  assert (m = 12) as -> by lia.
  unfold ymd_ok, ymd2ord. cbv beta iota. rewrite dby_succ by lia. rewrite !andb_true_iff, !N.leb_le.
  replace (days_in_month (y + 1) 1) with 31 by done.
  replace (days_before_month (y + 1) 1) with 0 by done.
  replace (days_in_month y 12) with 31 in * by done.
  split; [repeat split; lia|]. unfold days_before_month.
  change (days_before_month_tbl 12) with 334. change (2 <? 12) with true.
  destruct (is_leap y); cbn [andb]; lia.
Qed.
Lemma ord2ymd_next n : 1 <= n → ord2ymd (n + 1) = next_day (ord2ymd n).
Proof.
  intros Hn. pose proof (ord2ymd_correct n Hn) as H1.
  pose proof (ord2ymd_correct (n + 1) ltac:(lia)) as H2.
  destruct (ord2ymd n) as [[y m] d]. destruct H1 as (E1 & O1 & _).
  destruct (next_day_ok _ O1) as [O1' E1'].
  destruct (ord2ymd (n + 1)) as [[y2 m2] d2]. destruct H2 as (E2 & O2 & _).
  apply ymd2ord_inj; [done|done|]. rewrite E1', E1, E2. done.
Qed.
