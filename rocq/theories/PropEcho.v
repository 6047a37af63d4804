(** * C37: the client-echo whitelists. *)
From Coq Require Import Ascii.
From Verif Require Import Base BaseLemmas Echo.

(** A pattern matches an account: it is the account, or it is '*' followed by an ending of it. *)
Definition pattern_matches (pat a : string) : Prop :=
  pat = a \/ exists pre suf, pat = String.append "*" suf /\ a = String.append pre suf.
Definition listed (wl : gset string) (a : string) : Prop := exists pat, pat ∈ wl /\ pattern_matches pat a.

Lemma ends_with_spec s suf : ends_with s suf = true <-> exists pre, s = String.append pre suf.
Proof.
  induction s as [|c s IH].
  - cbn [ends_with]. split.
    + intros H. apply orb_true_iff in H as [H|H]; [|done]. apply String.eqb_eq in H. subst. now exists EmptyString.
    + intros [[|c pre] H]; [|done]. change (EmptyString = suf) in H. now subst.
  - cbn [ends_with]. rewrite orb_true_iff, String.eqb_eq, IH. split.
    + intros [<-|[pre ->]]; [now exists EmptyString|]. now exists (String c pre).
    + intros [[|c' pre] H]; cbn in H; [now left|right]. injection H as <- ->. now exists pre.
Qed.

Lemma matches_spec wl a : matches_wildcard_pattern wl a = true <-> listed wl a.
Proof.
  unfold matches_wildcard_pattern, listed, pattern_matches.
  rewrite orb_true_iff, bool_decide_eq_true, existsb_exists. split.
  - intros [H|(pat & Hin & H)]; [eauto|].
    apply elem_of_list_In, elem_of_elements in Hin. destruct pat as [|c suf]; [done|].
    apply andb_true_iff in H as [Hc H]. apply Ascii.eqb_eq in Hc. subst c. apply ends_with_spec in H as [pre ->].
    exists (String.append "*" suf). split; [exact Hin|]. right. now exists pre, suf.
  - intros (pat & Hin & [->|(pre & suf & -> & ->)]); [now left|right].
    eexists. split; [apply elem_of_list_In, elem_of_elements, Hin|]. cbn. apply ends_with_spec. now exists pre.
Qed.

Theorem C37_client_echo_exact l token sender :
  assert_client_echo_valid l token sender = Some tt <->
  listed (el_secure l) sender \/ (listed (el_tokens l) token /\ listed (el_senders l) sender).
Proof.
  unfold assert_client_echo_valid. rewrite <- !matches_spec.
  destruct (matches_wildcard_pattern (el_secure l) sender); [intuition|].
  destruct (matches_wildcard_pattern (el_tokens l) token), (matches_wildcard_pattern (el_senders l) sender);
    cbn; intuition congruence.
Qed.
Print Assumptions C37_client_echo_exact.

(** Extending a list adds exactly the given patterns, each of them new; where dots are required every
    wildcard among them begins with "*.". *)
Lemma starts_with_spec s p : starts_with s p = true <-> exists r, s = String.append p r.
Proof.
  unfold starts_with. revert s; induction p as [|c p IH]; intros s; cbn [String.prefix].
  - split; [|by destruct s]. intros _. now exists s.
  - destruct s as [|c' s]; cbn. { split; [done|]. intros [r H]. done. }
    destruct (ascii_dec c c') as [<-|Hne].
    + rewrite IH. split; [intros [r ->]; now exists r|]. intros [r H]. injection H as ->. now exists r.
    + split; [done|]. intros [r H]. injection H. congruence.
Qed.

Theorem C37_extend_exact dotted wl l wl' :
  wl_extend dotted wl l = Some wl' <->
  NoDup l /\ (forall p, p ∈ l -> p ∉ wl) /\ wl' = list_to_set l ∪ wl /\
  (dotted = true -> forall r, String.append "*" r ∈ l -> exists r', r = String.append "." r').
Proof.
  revert wl. induction l as [|p l IH]; intros wl; cbn [wl_extend].
  - split.
    + intros [= <-]. split_and!; [constructor|set_solver|set_solver|set_solver].
    + intros (_ & _ & -> & _). f_equal. set_solver.
  - assert (Hdot : (negb (dotted && starts_with p "*") || starts_with p "*.") = true <->
       (dotted = true -> forall r, p = String.append "*" r -> exists r', r = String.append "." r')).
    { rewrite orb_true_iff, negb_true_iff, andb_false_iff, starts_with_spec. split.
      - intros [[->|H]|[r ->]] Hd r0 E; [done| |].
        + assert (starts_with p "*" = true) by (apply starts_with_spec; eauto). congruence.
        + cbn in E. injection E as <-. now exists r.
      - intros H. destruct dotted; [|auto]. destruct (starts_with p "*") eqn:E; [|auto].
        apply starts_with_spec in E as [r ->]. destruct (H eq_refl r eq_refl) as [r' ->]. right. now exists r'. }
    split.
    + intros H. apply bind_Some in H as ([] & H1 & H). apply ensure_Some in H1. rewrite Hdot in H1.
      apply bind_Some in H as ([] & H2 & H). apply ensure_Some, bool_decide_eq_true in H2.
      apply IH in H as (Hnd & Hnew & -> & Hd). split_and!.
      * constructor; [|done]. intros Hin. apply (Hnew p Hin). set_solver.
      * intros q [->|Hin]%elem_of_cons; [done|]. specialize (Hnew q Hin). set_solver.
      * set_solver.
      * intros E r [Hr|Hin]%elem_of_cons; [apply (H1 E); auto|eauto].
    + intros (Hnd & Hnew & -> & Hd). apply NoDup_cons in Hnd as [Hp Hnd].
      rewrite (proj2 Hdot) by (intros E r ->; apply (Hd E); left). cbn [ensure mbind option_bind].
      rewrite bool_decide_true by (apply Hnew; left). cbn [ensure mbind option_bind].
      apply IH. split_and!; auto; [|set_solver|].
      * intros q Hq. assert (q <> p) by congruence. assert (q ∉ wl) by (apply Hnew; now right). set_solver.
      * intros E r Hin. apply (Hd E). now right.
Qed.
Print Assumptions C37_extend_exact.

Theorem C37_remove_exact wl l wl' :
  wl_remove wl l = Some wl' <-> NoDup l /\ (forall p, p ∈ l -> p ∈ wl) /\ wl' = wl ∖ list_to_set l.
Proof.
  revert wl. induction l as [|p l IH]; intros wl; cbn [wl_remove].
  - split; [intros [= <-]; split_and!; [constructor|set_solver|set_solver]|]. intros (_ & _ & ->). f_equal. set_solver.
  - split.
    + intros H. apply bind_Some in H as ([] & H1 & H). apply ensure_Some, bool_decide_eq_true in H1.
      apply IH in H as (Hnd & Hin & ->). split_and!.
      * constructor; [|done]. intros Hp. specialize (Hin p Hp). set_solver.
      * intros q [->|Hq]%elem_of_cons; [done|]. specialize (Hin q Hq). set_solver.
      * set_solver.
    + intros (Hnd & Hin & ->). apply NoDup_cons in Hnd as [Hp Hnd].
      rewrite bool_decide_true by (apply Hin; left). cbn [ensure mbind option_bind].
      apply IH. split_and!; auto; [|set_solver].
      intros q Hq. assert (q <> p) by congruence. assert (q ∈ wl) by (apply Hin; now right). set_solver.
Qed.
Print Assumptions C37_remove_exact.

Theorem C37_whitelisted_token_exact wl pf t :
  is_whitelisted_token wl pf t = true <-> t ∈ wl \/ exists p pre, p ∈ pf /\ t = String.append pre p.
Proof.
  unfold is_whitelisted_token. rewrite orb_true_iff, bool_decide_eq_true, existsb_exists. split.
  - intros [H|(p & Hin & H)]; [auto|right]. apply ends_with_spec in H as [pre ->].
    apply elem_of_list_In, elem_of_elements in Hin. eauto.
  - intros [H|(p & pre & Hin & ->)]; [auto|right]. exists p.
    split; [now apply elem_of_list_In, elem_of_elements|]. apply ends_with_spec. eauto.
Qed.
Print Assumptions C37_whitelisted_token_exact.

(** The cases of the contract's own tests and a few more. *)
Definition ex_lists : EchoLists := mkEchoLists {["wrap.near"; "*.swap.near"]} {["alice.near"; "*"]} {["*.omni"]}.
Example C37_ex :
  assert_client_echo_valid ex_lists "ref.swap.near" "bob" = Some tt /\
  assert_client_echo_valid ex_lists "swap.near" "bob" = None /\
  assert_client_echo_valid ex_lists "usdt.near" "bob.omni" = Some tt /\
  assert_client_echo_valid ex_lists "usdt.near" "omni" = None /\
  (exists w, wl_extend true {["a.near"]} ["*.near"; "b.near"] = Some w) /\
  wl_extend true ∅ ["*near"] = None /\ wl_extend true {["a"]} ["a"] = None /\
  is_whitelisted_token ∅ {[".bridge.near"]} "x.bridge.near" = true.
Proof. split_and!; try (eexists; vm_compute; reflexivity); vm_compute; reflexivity. Qed.
