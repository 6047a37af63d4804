(** * Names of pool shares: C62 *)
From Coq Require Import Ascii.
From stdpp Require Import pretty.
From Verif Require Import Base BaseLemmas Exchange.

(** Spec: strings of decimal digits and their values. *)
Definition digit_value (ch : ascii) : option N :=
  match ch with
  | "0" => Some 0 | "1" => Some 1 | "2" => Some 2 | "3" => Some 3 | "4" => Some 4
  | "5" => Some 5 | "6" => Some 6 | "7" => Some 7 | "8" => Some 8 | "9" => Some 9
  | _ => None
  end%char.
Fixpoint decimal_from (acc : N) (s : string) : option N :=
  match s with
  | EmptyString => Some acc
  | String ch r => match digit_value ch with Some d => decimal_from (10 * acc + d) r | None => None end
  end.
(** The value of a non-empty string of decimal digits. *)
Definition decimal (s : string) : option N := match s with EmptyString => None | _ => decimal_from 0 s end.

Lemma digit_of_value ch : digit_of ch = digit_value ch.
Proof. destruct ch as [[] [] [] [] [] [] [] []]; vm_compute; reflexivity. Qed.

Lemma decimal_from_ge acc s v : decimal_from acc s = Some v -> acc <= v.
Proof.
  revert acc; induction s as [|ch s IH]; intros acc H; cbn [decimal_from] in H; [injection H; lia|].
  destruct (digit_value ch); [|done]. apply IH in H. lia.
Qed.
Lemma parse_digits_spec acc s v : parse_digits acc s = Some v <-> decimal_from acc s = Some v /\ (v < 2 ^ 64 \/ s = EmptyString).
Proof.
  revert acc; induction s as [|ch s IH]; intros acc; cbn [parse_digits decimal_from].
  - split; [intros H; split; [done|now right]|tauto].
  - rewrite digit_of_value. destruct (digit_value ch) as [d|]; cbn [mbind option_bind]; [|split; [done|intros []; done]].
    split.
    + intros H. apply bind_Some in H as (x & Hx & H). apply bind_Some in H as (y & Hy & H).
      apply cmul_Some in Hx as [-> _]. apply cadd_Some in Hy as [-> HW]. apply IH in H as [H1 H2].
      replace (10 * acc + d) with (acc * 10 + d) by lia. split; [done|]. left.
      destruct H2 as [?|E]; [done|]. subst s. cbn [decimal_from] in H1. injection H1 as <-. exact HW.
    + intros [H Hv]. destruct Hv as [Hv|]; [|done]. pose proof (decimal_from_ge _ _ _ H) as Hge.
      change (2 ^ 64) with W64 in Hv.
      rewrite cmul_intro by lia. cbn [mbind option_bind]. rewrite cadd_intro by lia. cbn [mbind option_bind].
      apply IH. replace (acc * 10 + d) with (10 * acc + d) by lia. auto.
Qed.

(** ** Printing *)
Lemma digit_char d : d < 10 -> digit_value (pretty_N_char d) = Some d.
Proof.
  intros H. assert (d = 0 \/ d = 1 \/ d = 2 \/ d = 3 \/ d = 4 \/ d = 5 \/ d = 6 \/ d = 7 \/ d = 8 \/ d = 9) as Hd by lia.
  repeat destruct Hd as [->|Hd]; try reflexivity. subst. reflexivity.
Qed.
Lemma decimal_go x s : decimal_from 0 (pretty_N_go x s) = decimal_from x s.
Proof.
  revert s. induction (N.lt_wf_0 x) as [x _ IH]; intros s.
  destruct (N.eq_0_gt_0_cases x) as [->|Hx]; [now rewrite pretty_N_go_0|].
  rewrite pretty_N_go_step by done. rewrite IH by (now apply N.div_lt).
  cbn [decimal_from]. rewrite digit_char by (apply N.mod_lt; lia).
  f_equal. pose proof (N.div_mod x 10). lia.
Qed.
Lemma decimal_pretty n : decimal_from 0 (pretty n) = Some n.
Proof.
  unfold pretty, pretty_N. destruct (decide (n = 0)) as [->|]; [reflexivity|]. now rewrite decimal_go.
Qed.

Fixpoint all_digits (s : string) : Prop :=
  match s with EmptyString => True | String ch r => is_Some (digit_value ch) /\ all_digits r end.
Lemma decimal_digits acc s v : decimal_from acc s = Some v -> all_digits s.
Proof.
  revert acc; induction s as [|ch s IH]; intros acc H; cbn [all_digits decimal_from] in *; [done|].
  destruct (digit_value ch); [|done]. split; [eauto|eapply IH; eauto].
Qed.
Lemma pretty_nonempty (n : N) : pretty n <> EmptyString.
Proof.
  intros E. pose proof (decimal_pretty n) as H. rewrite E in H. injection H as <-. vm_compute in E. discriminate E.
Qed.
Lemma until_dash_digits s : all_digits s -> until_dash s = s.
Proof.
  induction s as [|ch s IH]; intros H; cbn [until_dash all_digits] in *; [done|]. destruct H as [[d Hd] H].
  destruct (Ascii.eqb_spec ch (ascii_of_N 45)) as [->|_]; [vm_compute in Hd; discriminate Hd|]. now rewrite IH.
Qed.

(** ** What parses *)
Lemma parse_u64_digits s v :
  s <> EmptyString -> all_digits s -> parse_u64 s = Some v <-> decimal_from 0 s = Some v /\ v < 2 ^ 64.
Proof.
  intros Hne Hd. unfold parse_u64. cbv zeta. destruct s as [|ch s]; [done|].
  destruct (Ascii.eqb_spec ch (ascii_of_N 43)) as [->|_].
  - destruct Hd as [[d Hd] _]. vm_compute in Hd. discriminate Hd.
  - rewrite parse_digits_spec. intuition discriminate.
Qed.
Lemma parse_u64_spec s v :
  parse_u64 s = Some v <-> v < 2 ^ 64 /\ (decimal s = Some v \/ exists r, s = String "+" r /\ decimal r = Some v).
Proof.
  unfold parse_u64. cbv zeta. destruct s as [|ch s].
  - split; [done|]. intros [_ [H|(r & H & _)]]; discriminate.
  - destruct (Ascii.eqb_spec ch (ascii_of_N 43)) as [->|Hne].
    + change (ascii_of_N 43) with "+"%char. split.
      * intros H. destruct s as [|ch s]; [done|]. apply parse_digits_spec in H as [H Hv].
        assert (v < 2 ^ 64) by (destruct Hv; [done|discriminate]). split; [done|]. right. exists (String ch s). auto.
      * intros [Hv [H|(r & E & H)]]; [vm_compute in H; discriminate H|]. injection E as <-.
        destruct s as [|ch s]; [discriminate H|]. apply parse_digits_spec. auto.
    + split.
      * intros H. apply parse_digits_spec in H as [H Hv].
        assert (v < 2 ^ 64) by (destruct Hv; [done|discriminate]). auto.
      * intros [Hv [H|(r & E & H)]]; [apply parse_digits_spec; auto|]. injection E as -> ->. done.
Qed.

(** ** C62 *)
(** The id under which the shares of pool [n] are listed names exactly that pool. *)
Theorem C62_share_id (n : N) : n < 2 ^ 64 -> mft_pool_of (String ":" (pretty n)) = Some n.
Proof.
  intros H. unfold mft_pool_of. change (Ascii.eqb ":" (ascii_of_N 58)) with true. cbv iota.
  apply parse_u64_digits; [apply pretty_nonempty|eapply decimal_digits, decimal_pretty|]. split; [apply decimal_pretty|done].
Qed.
Print Assumptions C62_share_id.

(** Farming and lending contracts are told the shadow id of a pool; the id they send back is read as
    the same pool. *)
Theorem C62_shadow_id (n : N) : n < 2 ^ 64 -> shadow_id_to_pool_id (pool_id_to_shadow_id n) = Some n.
Proof.
  intros H. unfold shadow_id_to_pool_id, pool_id_to_shadow_id.
  change (after_dash ("shadow_ref_v1-" +:+ pretty n)) with (Some (pretty n)). cbn [mbind option_bind].
  assert (Hd : all_digits (pretty n)) by (eapply decimal_digits, decimal_pretty).
  rewrite until_dash_digits by exact Hd.
  apply parse_u64_digits; [apply pretty_nonempty|exact Hd|]. split; [apply decimal_pretty|done].
Qed.
Print Assumptions C62_shadow_id.

Theorem C62_ids_distinct (n m : N) :
  n < 2 ^ 64 -> m < 2 ^ 64 ->
  (String ":" (pretty n) = String ":" (pretty m) \/ pool_id_to_shadow_id n = pool_id_to_shadow_id m) -> n = m.
Proof.
  intros Hn Hm [E|E].
  - pose proof (C62_share_id n Hn) as H1. rewrite E, (C62_share_id m Hm) in H1. now injection H1.
  - pose proof (C62_shadow_id n Hn) as H1. rewrite E, (C62_shadow_id m Hm) in H1. now injection H1.
Qed.
Print Assumptions C62_ids_distinct.

(** Exactly the ids ":" or ":+" followed by decimal digits of a 64-bit number are read as pools; all
    others are tokens.  So no account id, which has no colon, is mistaken for shares. *)
Theorem C62_ids_read (id : string) (n : N) :
  mft_pool_of id = Some n <->
  n < 2 ^ 64 /\ exists r, (id = String ":" r \/ id = String ":" (String "+" r)) /\ decimal r = Some n.
Proof.
  destruct id as [|ch id]; cbn [mft_pool_of].
  - split; [done|]. intros (_ & r & [E|E] & _); discriminate.
  - destruct (Ascii.eqb_spec ch (ascii_of_N 58)) as [->|Hne].
    + change (ascii_of_N 58) with ":"%char. rewrite parse_u64_spec. split.
      * intros [Hn [H|(r & -> & H)]]; eauto.
      * intros (Hn & r & [E|E] & H); injection E as ->; eauto.
    + split; [done|]. intros (_ & r & [E|E] & _); injection E as -> ->; done.
Qed.
Print Assumptions C62_ids_read.

(** The converse of [C62_share_id] fails: different ids name the shares of the same pool. *)
Theorem C62_id_unique_refuted : exists id id', id <> id' /\ mft_pool_of id = Some 7 /\ mft_pool_of id' = Some 7.
Proof. exists ":007"%string, ":+7"%string. split; [discriminate|]. split; vm_compute; reflexivity. Qed.
Print Assumptions C62_id_unique_refuted.

Example C62_ex :
  mft_pool_of ":4294967296" = Some 4294967296 /\ mft_pool_of ":18446744073709551616" = None /\
  mft_pool_of "7.token.near" = None /\ pool_id_to_shadow_id 79 = "shadow_ref_v1-79" /\
  shadow_id_to_pool_id "shadow_ref_v1-79" = Some 79.
Proof. split_and!; vm_compute; reflexivity. Qed.
