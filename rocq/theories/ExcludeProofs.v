(** The paths that all clients exclude (userdata.py 212-236). *)
From Coq Require Import QArith Qcanon.
From Verif Require Export CutProofs Merge.
From stdpp Require Import options.

Lemma read_all_each m l cs : read_all m l = Ok cs → ∀ p c, p ∈ l → read_file m p = Ok c → c ∈ cs.
Proof.
  revert cs. induction l as [|q l IH]; intros cs Hr p c Hp Hc; [by apply elem_of_nil in Hp|]. simpl in Hr.
  destruct (read_file m q) as [c'|] eqn:E; [|done]. destruct (read_all m l) as [r|]; [|done]. injection Hr as <-.
  apply elem_of_cons in Hp as [->|Hp]; [rewrite E in Hc; injection Hc as ->; left|]. right. by eapply IH.
Qed.
Lemma read_all_only m l cs : read_all m l = Ok cs → ∀ c, c ∈ cs → ∃ p, p ∈ l ∧ read_file m p = Ok c.
Proof.
  revert cs. induction l as [|q l IH]; intros cs Hr c Hc; simpl in Hr; [injection Hr as <-; by apply elem_of_nil in Hc|].
  destruct (read_file m q) as [c'|] eqn:E; [|done]. destruct (read_all m l) as [r|]; [|done]. injection Hr as <-.
  apply elem_of_cons in Hc as [->|Hc]; [exists q; split; [left|done]|]. destruct (IH r eq_refl c Hc) as (p & ? & ?).
  exists p. split; [by right|done].
Qed.
Lemma read_file_at m p c t : wf_fs m → m !! p = Some (File c t) → read_file m p = Ok c.
Proof.
  intros Hwf Hp. destruct (Hwf p _ Hp) as (Hne & Hv & Hd). unfold read_file, stat.
  rewrite resolve_follow; [|done..|by rewrite Hp]. by rewrite node_at_ne, Hp.
Qed.
Lemma scandir_has m d es x n : wf_fs m → scandir m d = Ok es → dir_at m d → m !! (d ++ [x]) = Some n → x ∈ map fst es.
Proof.
  intros Hwf Hs Hd Hx. unfold scandir in Hs. rewrite resolve_dir in Hs by done. destruct Hd as [t Ht]. rewrite Ht in Hs.
  injection Hs as <-. rewrite elem_of_list_fmap. exists (x, n). split; [done|]. by apply elem_of_entries.
Qed.
Lemma check_excluded_spec C m paths : wf_fs m → dir_at m (exclude_dir C) →
  (∀ x n, m !! (exclude_dir C ++ [x]) = Some n → ∃ c t, n = File c t) →
  ∃ X, check_excluded C m paths = Ok X ∧ ∀ p, p ∈ X ↔ p ∈ paths ∧ agreed C m p.
Proof.
  intros Hwf Hex Hfiles.
 unfold check_excluded. destruct (scandir m (exclude_dir C)) as [es|] eqn:Es.
  2:{ unfold scandir in Es. rewrite resolve_dir in Es by done. destruct Hex as [t Ht]. by rewrite Ht in Es. }
  assert (∀ x n, (x, n) ∈ es ↔ m !! (exclude_dir C ++ [x]) = Some n) as Hes.
  { unfold scandir in Es. rewrite resolve_dir in Es by done. destruct Hex as [t Ht]. rewrite Ht in Es. injection Es as <-.
    intros x n. apply elem_of_entries. }
  destruct (decide _) as [He|Hne]; [exists ∅; split; [done|set_solver]|].
  assert (∃ cs, read_all m (map (λ xn, exclude_dir C ++ [xn.1]) es) = Ok cs) as [cs Hcs].
  { clear Es. assert (∀ x n, (x, n) ∈ es → m !! (exclude_dir C ++ [x]) = Some n) as Hes' by (intros; by apply Hes). clear Hes.
    induction es as [|[x n] es IH]; [by exists []|]. cbn [map fst read_all].
    assert (m !! (exclude_dir C ++ [x]) = Some n) as Hx by (apply Hes'; left).
    destruct (Hfiles x n Hx) as (c & t & ->). rewrite (read_file_at _ _ c t) by done.
    destruct IH as [cs ->]; [|eauto]. intros y k Hy. apply Hes'. by right. }
  rewrite Hcs. eexists. split; [done|]. intros p. rewrite elem_of_filter, Forall_forall. split; intros [H1 H2]; (split; [done|]) || split; try done.
  - intros x c t Hx. apply H1. eapply read_all_each; [done| |by eapply read_file_at].
    apply elem_of_list_fmap. exists (x, File c t). split; [done|]. by apply Hes.
  - intros c Hc. destruct (read_all_only _ _ _ Hcs c Hc) as (q & Hq & Hr). apply elem_of_list_fmap in Hq as ([x n] & -> & Hx).
    apply Hes in Hx. destruct (Hfiles x n Hx) as (c' & t & ->). cbn [fst] in Hr. rewrite (read_file_at _ _ c' t) in Hr by done.
    injection Hr as <-. by eapply H2.
Qed.
