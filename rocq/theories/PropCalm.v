(** * C108: the invariant per share of a stable pool falls over any history by no more than the rounding of its operations.
    Vocabulary: SpecCalm.v, SpecExact.v, SpecStable.v. *)
From Verif Require Import Base BaseLemmas SimplePool SpecSimple SimplePoolProofs SimpleFacts StableMath
  StableMathProofs StablePool SpecStable StablePoolProofs StablePoolInv StableFacts SpecExact StableExact StablePrecise SpecCalm CalmProofs
  PropStable PropExact PropPrecise.

(** After any operations by anyone - trades, deposits, withdrawals of shares or of tokens, transfers, new fees - at one amplification and with balances
    that stay even, the exact invariant per share is at least what it was, less [k / M]: [M] is the smallest number of shares in the meantime (the first
    provider gets one for every [10^-18] of a token) and [k] adds up at most 2 for a trade or a deposit, 1 for a withdrawal of shares and [2 + Q] for a
    withdrawal of tokens.  The shares which trades and deposits give to the exchange for its part of the fees are counted. *)
Theorem C108_value A B E Q M now p now' p' k d :
  let n := N.of_nat (length (st_tokens p)) in
  st_reachable now p -> st_kind p = KStable -> st_tokens p <> [] -> 0 < M ->
  B * geometric B (length (st_tokens p) - 2) <= A * n ^ n * n ^ n ->
  calm A B E Q M now p now' p' k -> at_most_D A (st_c p) d ->
  exists d', at_most_D A (st_c p') d' /\ d * st_supply p' * M <= d' * st_supply p * M + k * st_supply p * st_supply p'.
Proof. intros n Hr Hk Hne HM HB H Hd. now destruct (calm_worth A B E Q M now p now' p' k d Hr Hk Hne HM HB H Hd) as (_ & d' & H1 & H2); exists d'. Qed.
Print Assumptions C108_value.

(** The same for the invariants which the contract computes, before and after, when the balances are even at the start too. *)
Theorem C108_computed A B E Q M now p now' p' k t t' D D' :
  let n := N.of_nat (length (st_tokens p)) in
  st_reachable now p -> st_kind p = KStable -> st_tokens p <> [] -> 0 < M ->
  B * geometric B (length (st_tokens p) - 2) <= A * n ^ n * n ^ n ->
  calm A B E Q M now p now' p' k -> even_balances A E (st_c p) ->
  now <= t -> t < 2 ^ 64 -> st_get_amp p t = A -> st_D p t (map (fun _ => PRECISION) (st_tokens p)) (st_c p) = Some D ->
  now' <= t' -> t' < 2 ^ 64 -> st_get_amp p' t' = A -> st_D p' t' (map (fun _ => PRECISION) (st_tokens p')) (st_c p') = Some D' ->
  (D - 1) * st_supply p' * M <= D' * st_supply p * M + k * st_supply p * st_supply p'.
Proof.
  intros n Hr Hk Hne HM HB H He Ht1 Ht2 HA HD Ht1' Ht2' HA' HD'.
  pose proof (st_reachable_wf _ _ Hr) as (_ & _ & Hlc & HcW & _).
  assert (Hcne : st_c p <> []) by (intros E0; rewrite E0 in Hlc; destruct (st_tokens p); done).
  assert (H0 : at_most_D A (st_c p) (D - 1)).
  { rewrite <- HA in He |- *. refine (proj1 (C66_computed_exact now p t (map (fun _ => PRECISION) (st_tokens p)) (st_c p) (st_c p) D E Hr Ht1 Ht2 Hcne _ HD He)).
    apply rate_balances_unit; [clear - Hlc; lia|done]. }
  destruct (calm_worth A B E Q M now p now' p' k (D - 1) Hr Hk Hne HM HB H H0) as (Hr' & d' & H1 & H2).
  pose proof (st_reachable_wf _ _ Hr') as (_ & _ & Hlc' & HcW' & _).
  assert (Ht : length (st_c p') = length (st_c p)).
  { rewrite Hlc', Hlc. clear - H. induction H; [done|]. match goal with H : st_exec _ _ _ = Some _ |- _ => apply st_exec_frame in H as (_ & -> & _) end. done. }
  assert (Hcne' : st_c p' <> []) by (intros E0; rewrite E0 in Ht; destruct (st_c p); done).
  assert (Hd' : d' <= D').
  { rewrite <- HA' in H1. eapply (C59_computed_not_below_exact now' p' t'); [exact Hr'|exact Ht1'|exact Ht2'|exact Hcne'| |exact HD'|exact H1].
    apply rate_balances_unit; [lia|done]. }
  unfold worth in H2. etransitivity; [exact H2|]. apply N.add_le_mono_r, N.mul_le_mono_r, N.mul_le_mono_r. exact Hd'.
Qed.
Print Assumptions C108_computed.

(** A trade, a deposit, a withdrawal of given tokens and one of shares, in the pool of three tokens of [C16_ex] *)
Definition calm_opb (A B E Q : N) (p : StablePool) (e : PoolEnv) (o : st_op) (p' : StablePool) : bool :=
  match st_D p (pe_now e) (map (fun _ => PRECISION) (st_tokens p)) (st_c p) with
  | None => false
  | Some D =>
      match o with
      | StSwap ti _ to _ f =>
          forallb (fun t => String.eqb t ti || (D + B * (st_kept p t * st_fee p / FEE_DIVISOR) <=? B * st_kept p' t)) (st_tokens p) &&
          (FEE_DIVISOR <=? (st_kept p to - st_kept p' to) * st_fee p) && (admin_fee_bps f <? FEE_DIVISOR) && even_balancesb A E (st_c p')
      | StAdd _ _ _ f => (admin_fee_bps f <=? FEE_DIVISOR) && even_balancesb A E (st_c p')
      | StRemoveTokens _ _ _ f => (admin_fee_bps f <=? FEE_DIVISOR) && even_balancesb A E (st_c p') && (D <=? Q * st_supply p)
      | _ => true
      end
  end.
Lemma calm_opb_sound A B E Q p e o p' : calm_opb A B E Q p e o p' = true -> calm_op A B E Q p e o p'.
Proof.
  unfold calm_opb. destruct (st_D _ _ _ _) as [D|] eqn:HD; [|done]. destruct o; cbn [calm_op]; try done; intros H; rewrite ?andb_true_iff in H.
  - destruct H as [H1 H2]. apply N.leb_le in H1. apply even_balancesb_spec in H2. done.
  - destruct H as [[H1 H2] H3]. apply N.leb_le in H1, H3. apply even_balancesb_spec in H2. rewrite HD. split_and!; try done. intros ? [= <-]. done.
  - destruct H as [[[H1 H2] H3] H4]. apply N.leb_le in H2. apply N.ltb_lt in H3. apply even_balancesb_spec in H4. split_and!; try done.
    exists D. split; [done|]. intros t Ht Hne. rewrite forallb_forall in H1. apply elem_of_list_In, H1, orb_true_iff in Ht as [Ht|Ht]; [now apply String.eqb_eq in Ht|].
    now apply N.leb_le in Ht.
Qed.
Definition calm_run (A B E Q M : N) : N -> StablePool -> N -> list (PoolEnv * st_op) -> option (N * StablePool * N) :=
  fix go now p k os := match os with
  | [] => Some (now, p, k)
  | (e, o) :: r =>
      p' ← st_exec p e o;
      if (now <=? pe_now e) && (pe_now e <? 2 ^ 64) && (st_get_amp p (pe_now e) =? A) && (M <=? st_supply p') && calm_opb A B E Q p e o p'
      then go (pe_now e) p' (k + rounding Q o) r else None
  end.
Lemma calm_run_sound A B E Q M now0 p0 os : forall now p k r, calm A B E Q M now0 p0 now p k -> calm_run A B E Q M now p k os = Some r ->
  calm A B E Q M now0 p0 (fst (fst r)) (snd (fst r)) (snd r).
Proof.
  induction os as [|[e o] os IH]; intros now p k r Hc H; cbn [calm_run] in H; [now injection H as <-|].
  apply bind_Some in H as (p' & Ho & H). destruct (_ && _) eqn:Hb; [|done]. rewrite !andb_true_iff in Hb. destruct Hb as [[[[H1 H2] H3] H4] H5].
  apply N.leb_le in H1, H4. apply N.ltb_lt in H2. apply N.eqb_eq in H3. eapply IH; [|exact H]. eapply calm_step; eauto. now apply calm_opb_sound.
Qed.

Definition C108_ops : list (PoolEnv * st_op) :=
  [(ex_env (3 * DAY), StSwap "A" 70000000001 "B" 1 ex_st_fees);
   (ex_env (3 * DAY + 5), StAdd "carol" [50000000; 10 ^ 16; 777777] 0 ex_st_fees);
   (ex_env (3 * DAY + 5), StRemoveTokens "bob" [10 ^ 9; 3 * 10 ^ 15; 12345678] (10 ^ 40) ex_st_fees);
   (ex_env (3 * DAY + 9), StRemoveShares "bob" (10 ^ 23) [1; 1; 1])].
Definition C108_summary : option (N * N * N * N) :=
  p ← ex_st_pre KStable; r ← calm_run 15 100 3 2 (10 ^ 24) (2 * DAY) p 0 C108_ops;
  let '(_, p', k) := r in D ← st_D p (3 * DAY) (map (fun _ => PRECISION) (st_tokens p)) (st_c p);
  D' ← st_D p' (3 * DAY + 9) (map (fun _ => PRECISION) (st_tokens p)) (st_c p'); Some (k, D * 10 ^ 12 / st_supply p, D' * 10 ^ 12 / st_supply p', st_supply p').
Definition last_time (now : N) (os : list (PoolEnv * st_op)) : N := foldl (fun _ x => pe_now (fst x)) now os.
Lemma run_reachable_at now p os p' : st_reachable now p -> times_ok now os = true -> st_run p os = Some p' -> st_reachable (last_time now os) p'.
Proof.
  revert now p; induction os as [|[e o] os IH]; intros now p Hp Ht H; cbn [st_run times_ok] in *; [now injection H as <-|].
  apply bind_Some in H as (p1 & H1 & H). apply andb_true_iff in Ht as [Ht1 Ht2]. apply andb_true_iff in Ht1 as [Ht0 Ht1].
  apply N.leb_le in Ht0. apply N.ltb_lt in Ht1. change (last_time now ((e, o) :: os)) with (last_time (pe_now e) os). eapply IH; [|exact Ht2|exact H]. eapply st_reach_step; eauto.
Qed.
Lemma C108_summary_is : C108_summary = Some (9, 1000347171440, 1000384783867, 4396153494048008666319292).
Proof. vm_compute. reflexivity. Qed.
Definition C108_start : option (N * StableKind * nat * bool) := p ← ex_st_pre KStable; Some (st_supply p, st_kind p, length (st_tokens p), even_balancesb 15 3 (st_c p)).
Lemma C108_start_is : C108_start = Some (4497061752649316204600020, KStable, 3%nat, true).
Proof. vm_compute. reflexivity. Qed.
Example C108_ex :
  C108_summary = Some (9, 1000347171440, 1000384783867, 4396153494048008666319292) /\
  exists p now' p', st_reachable (2 * DAY) p /\ st_kind p = KStable /\ length (st_tokens p) = 3%nat /\ 100 * geometric 100 1 <= 15 * 3 ^ 3 * 3 ^ 3 /\
    even_balances 15 3 (st_c p) /\ calm 15 100 3 2 (10 ^ 24) (2 * DAY) p now' p' 9.
Proof.
  split; [exact C108_summary_is|]. pose proof C108_summary_is as E. unfold C108_summary in E.
  apply bind_Some in E as (p & Hp & E). apply bind_Some in E as ([[now' p'] k] & Hr & E). cbv beta iota in E.
  apply bind_Some in E as (D & _ & E). apply bind_Some in E as (D' & _ & E).
  assert (Hk : k = 9) by (clear - E; injection E as E _ _ _; exact E). clear E. subst k. exists p, now', p'. split.
  - clear Hr. unfold ex_st_pre, ex_st_pool0 in Hp. apply bind_Some in Hp as (p0 & H0 & Hp).
    replace (2 * DAY) with (last_time 0 (take 4 ex_st_ops)) by (vm_compute; reflexivity). eapply run_reachable_at; [|vm_compute; reflexivity|exact Hp].
    eapply st_reach_new; [| | |exact H0]; [|done|done]. clear. repeat constructor; set_solver.
  - pose proof C108_start_is as S. unfold C108_start in S. rewrite Hp in S. cbn [mbind option_bind] in S. injection S as S1 S2 S3 S4.
    split_and!; [exact S2|exact S3|vm_compute; discriminate|now apply even_balancesb_spec|].
    refine (calm_run_sound 15 100 3 2 (10 ^ 24) (2 * DAY) p C108_ops _ _ _ _ (calm_start _ _ _ _ _ _ _ _) Hr). rewrite S1. vm_compute. discriminate.
Qed.
