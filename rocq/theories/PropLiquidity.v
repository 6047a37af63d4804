(** * C92: predicted changes of liquidity execute *)
From Verif Require Import Base BaseLemmas SimplePool SimplePoolProofs SpecSimple SimplePoolInv SimpleFacts StableMath StablePool
  SpecStable StablePoolProofs StablePoolInv StableFacts Rates Echo Twap SpecTwap PropTwap.
From Verif Require Import Account Pool Exchange SpecExchange AccountProofs PoolFacts
  ExchangeProofs ExchangeInv ExchangeEffect ExchangeFrames SpecWorld WorldProofs ExExample PropWorld SpecHistory HistoryProofs
  TwapInv SpecRecords PropRecords SpecExit ExitProofs PropExit Views ViewProofs PropViews LiquidityLive.

(** ** Specification *)
(** [a] makes a call that pays for the storage it needs, at a possible time, while the exchange is running. *)
Definition paying (w : World) (e : Env) (a : AccountId) : Prop :=
  e_caller e = a /\ 0 < e_attached e /\ e_grow e <= e_attached e /\ a <> ex_self (w_ex w) /\
  w_now w <= e_now e < 2 ^ 32 * 10 ^ 9 /\ cf_running (ex_cfg (w_ex w)) = true.
(** [a] holds the amounts [xs] of the tokens [ts], recorded in the present way, and has paid for the storage it uses. *)
Definition holds (w : World) (a : AccountId) (ts : list AccountId) (xs : list N) : Prop :=
  exists acc, ex_account (w_ex w) a = Some acc /\ (forall t, t ∈ ts -> ac_legacy acc !! t = None) /\
    ac_storage_usage acc <= ac_near acc /\ forall t, beside t ts xs <= held_by (w_ex w) a t.
(** The pool is one of the exchange, its tokens are standard and not frozen, and its average record, if any, can be kept. *)
Definition workable (w0 w : World) (pid : N) (p : Pool) : Prop :=
  ex_pool (w_ex w) pid = Some p /\ (forall t, t ∈ pl_tokens p -> standard t w0 w) /\ (forall t, t ∈ pl_tokens p -> ~ frozen w t) /\
  (is_Some (ex_twap (w_ex w) !! pid) -> one_share p < pl_supply p -> leaves_enough p (one_share p)).
(** Every minimum beside an amount is met. *)
Definition reaches (xs ms : list N) : Prop := forall i x m, xs !! i = Some x -> ms !! i = Some m -> m <= x.

(** ** Proofs *)
Lemma mins_met_intro xs : forall ms, reaches xs ms -> mins_met xs ms = Some tt.
Proof.
  intros ms H. unfold mins_met. apply ensure_intro. revert ms H. induction xs as [|x xs IH]; intros [|m ms] H; try reflexivity.
  cbn [zip zip_with forallb]. apply andb_true_iff. split; [apply N.leb_le; exact (H 0%nat x m eq_refl eq_refl)|].
  apply IH. intros i y n Hy Hn. exact (H (S i) y n Hy Hn).
Qed.
Lemma paying_call w e a x c' ps :
  paying w e a -> ex_call (w_ex w) e x = Some (c', ps) -> w_step w (EvCall e x) = Some (w_queue w c' (w_hold w) (w_flights w) ps (e_now e)).
Proof.
  intros (Ha & _ & _ & Hs & [Hn HW] & _) H. unfold w_step. cbv zeta. rewrite next_time_intro. 2: { split; [done|]. etransitivity; [exact HW|]. vm_compute. reflexivity. }
  cbn [mbind option_bind]. rewrite ensure_intro. 2: { subst a. apply negb_true_iff. now apply String.eqb_neq. }
  cbn [mbind option_bind]. rewrite H. reflexivity.
Qed.
Lemma check_storage_intro e : e_grow e <= e_attached e -> exists ps, check_storage e = Some ps.
Proof. intros H. unfold check_storage. rewrite csub_intro by done. cbn [mbind option_bind]. eauto. Qed.
Lemma w_queue_exchange w c h m ps now : w_ex (w_queue w c h m ps now) = c.
Proof. apply w_queue_ex. Qed.
Lemma later_wf w e : w_ok w -> w_now w <= e_now e -> ex_wf (e_now e) (w_ex w).
Proof. intros Hok Hn. eapply ex_wf_later; [exact Hn|apply Hok]. Qed.

(** ** C92 *)
(** In every execution: if [predict_add_simple_liquidity] shows that the amounts offered give [sh] shares for the amounts [need],
    which reach the minimums and which the caller holds, then [add_liquidity] succeeds and does that. *)
Theorem C92_add w0 w e a pid p am mins need sh :
  w_start w0 -> records_sound w0 -> w_reach w0 w -> workable w0 w pid p -> paying w e a ->
  v_predict_add_simple (w_ex w) pid am = Some (mkPrediction need sh) ->
  (forall ms, mins = Some ms -> reaches need ms) -> holds w a (pl_tokens p) need ->
  exists w1, w_step w (EvCall e (CAddLiquidity pid am mins)) = Some w1 /\
    shares_at (w_ex w1) pid a = shares_at (w_ex w) pid a + sh /\
    forall t, held_by (w_ex w1) a t + beside t (pl_tokens p) need = held_by (w_ex w) a t.
Proof.
  intros H0 Hrec0 Hreach (Hp & Hstd & Hfr & Hobs) Hpay Hv Hm (acc & Hacc & Hleg & Hcov & Hh).
  pose proof (w_reach_ok _ _ (w_start_ok _ H0) Hreach) as Hok. pose proof (C63_history _ _ (w_start_ok _ H0) Hrec0 Hreach) as Hrec.
  pose proof Hpay as (Ha & Hy & Hg & Hself & Hn & Hrun). subst a.
  assert (Hex : forall t, t ∈ pl_tokens p -> pl_exact p t).
  { intros t Ht. apply Hstd in Ht as [_ Hx]. eapply Forall_lookup_1 in Hx; [exact Hx|]. exact Hp. }
  pose proof (ex_wf_pool _ _ _ _ (proj1 Hok) Hp) as Hwf. apply pl_reachable_wf in Hwf.
  pose proof (ex_wf_account _ _ _ _ (proj1 Hok) Hacc) as Hdj.
  destruct (ex_update_twap_intro w e pid p) as [c1 Hc1]; auto.
  assert (exists q, pl_add_liquidity p "@view" am true = Some (q, need, sh)) as [q Hq].
  { unfold v_predict_add_simple in Hv. rewrite Hp in Hv. cbn [mbind option_bind] in Hv. bnd Hv z Hz. destruct z as [[q tk] x]. injection Hv as <- <-. eauto. }
  destruct (pl_add_quoted p (e_caller e) am q need sh Hwf Hq) as [p' Hp'].
  pose proof (pl_add_spec p (ex_rates (w_ex w)) (e_now e) _ _ _ _ _ Hwf Hp') as (Hst & _ & _ & _ & _ & Hlen & _).
  pose proof (pl_step_same _ _ _ _ Hwf Hst) as (_ & Htok & _).
  destruct (ac_withdraw_all_intro (pl_tokens p) acc need) as (acc' & Hacc' & Hu & Hnear); auto.
  { now apply pl_wf_nodup. }
  { intros t. rewrite <- (held_by_account _ _ _ t Hacc). apply Hh. }
  destruct (check_storage_intro e Hg) as [ps Hps].
  assert (exists c', ex_add_liquidity (w_ex w) e pid am mins = Some (c', ps, sh)) as [c' Hc'].
  { unfold ex_add_liquidity. rewrite running_intro by done. cbn [mbind option_bind]. rewrite ensure_intro by now apply N.ltb_lt. cbn [mbind option_bind].
    rewrite Hc1. cbn [mbind option_bind]. apply ex_update_twap_frame in Hc1 as (tw & ->).
    change (ex_pool (ex_set_twap (w_ex w) tw) pid) with (ex_pool (w_ex w) pid). rewrite Hp. cbn [mbind option_bind].
    rewrite no_frozen_intro by exact Hfr. cbn [mbind option_bind]. rewrite Hp'. cbn [mbind option_bind].
    assert (E : match mins with Some ms => mins_met need ms | None => Some tt end = Some tt) by (destruct mins; [apply mins_met_intro; auto|done]).
    rewrite E. cbn [mbind option_bind].
    change (ex_account (ex_set_twap (w_ex w) tw) (e_caller e)) with (ex_account (w_ex w) (e_caller e)). rewrite Hacc. cbn [mbind option_bind].
    rewrite Htok, Hacc'. cbn [mbind option_bind]. rewrite ex_save_intro by congruence. cbn [mbind option_bind]. rewrite Hps. cbn [mbind option_bind]. eauto. }
  pose proof (C57_add_simple _ _ _ _ _ _ _ _ (later_wf w e Hok (proj1 Hn)) Hc') as (p2 & need2 & Hp2 & Hv2 & Hsh & Hheld).
  rewrite Hp in Hp2. injection Hp2 as <-. rewrite Hv in Hv2. injection Hv2 as <-.
  eexists. split; [eapply paying_call; [exact Hpay|]; cbn [ex_call]; rewrite Hc'; reflexivity|]. rewrite w_queue_exchange. auto.
Qed.
Print Assumptions C92_add.

(** If [predict_add_stable_liquidity] shows that the amounts give [sh] shares, at least the minimum asked for, and the caller holds
    the amounts, then [add_stable_liquidity] succeeds and gives as many, in a pool without a value limit. *)
Theorem C92_add_stable w0 w e a pid p am mn sh :
  w_start w0 -> records_sound w0 -> w_reach w0 w -> workable w0 w pid p -> paying w e a ->
  cf_limits (ex_cfg (w_ex w)) !! pid = None ->
  v_predict_add_stable (w_ex w) (e_now e) pid am = Some sh -> mn <= sh -> holds w a (pl_tokens p) am ->
  exists w1, w_step w (EvCall e (CAddStableLiquidity pid am mn)) = Some w1 /\
    shares_at (w_ex w1) pid a = shares_at (w_ex w) pid a + sh /\
    forall t, held_by (w_ex w1) a t + beside t (pl_tokens p) am = held_by (w_ex w) a t.
Proof.
  intros H0 Hrec0 Hreach (Hp & Hstd & Hfr & Hobs) Hpay Hlim Hv Hm (acc & Hacc & Hleg & Hcov & Hh).
  pose proof (w_reach_ok _ _ (w_start_ok _ H0) Hreach) as Hok. pose proof (C63_history _ _ (w_start_ok _ H0) Hrec0 Hreach) as Hrec.
  pose proof Hpay as (Ha & Hy & Hg & Hself & Hn & Hrun). subst a.
  assert (Hex : forall t, t ∈ pl_tokens p -> pl_exact p t).
  { intros t Ht. apply Hstd in Ht as [_ Hx]. eapply Forall_lookup_1 in Hx; [exact Hx|]. exact Hp. }
  pose proof (ex_wf_pool _ _ _ _ (proj1 Hok) Hp) as Hwf. apply pl_reachable_wf in Hwf.
  pose proof (ex_wf_account _ _ _ _ (proj1 Hok) Hacc) as Hdj.
  destruct (ex_update_twap_intro w e pid p) as [c1 Hc1]; auto.
  assert (exists q, pl_add_stable_liquidity p (ex_rates (w_ex w)) (e_now e) "@view" am 0 (ex_fees (w_ex w)) true = Some (q, sh)) as [q Hq].
  { unfold v_predict_add_stable in Hv. rewrite Hp in Hv. cbn [mbind option_bind] in Hv. bnd Hv z Hz. destruct z as [q x]. injection Hv as <-. eauto. }
  destruct (pl_add_stable_quoted p (ex_rates (w_ex w)) (e_now e) (e_caller e) am mn (ex_fees (w_ex w)) q sh Hwf eq_refl Hm Hq) as [p' Hp'].
  pose proof (pl_add_stable_spec p (ex_rates (w_ex w)) (e_now e) _ _ _ _ _ _ Hwf Hp') as (Hst & _ & _ & Hlen & _).
  pose proof (pl_step_same _ _ _ _ Hwf Hst) as (_ & Htok & _).
  destruct (ac_withdraw_all_intro (pl_tokens p) acc am) as (acc' & Hacc' & Hu & Hnear); auto.
  { now apply pl_wf_nodup. }
  { intros t. rewrite <- (held_by_account _ _ _ t Hacc). apply Hh. }
  destruct (check_storage_intro e Hg) as [ps Hps].
  assert (exists tw, ex_add_stable_liquidity (w_ex w) e pid am mn = Some (ex_put_pool (ex_put (ex_set_twap (w_ex w) tw) (e_caller e) acc') pid p', ps, sh)) as [tw Hc'].
  { unfold ex_add_stable_liquidity. rewrite running_intro by done. cbn [mbind option_bind]. rewrite ensure_intro by now apply N.ltb_lt. cbn [mbind option_bind].
    rewrite Hc1. cbn [mbind option_bind]. apply ex_update_twap_frame in Hc1 as (tw & ->).
    change (ex_pool (ex_set_twap (w_ex w) tw) pid) with (ex_pool (w_ex w) pid). rewrite Hp. cbn [mbind option_bind].
    rewrite no_frozen_intro by exact Hfr. cbn [mbind option_bind].
    change (ex_rates (ex_set_twap (w_ex w) tw)) with (ex_rates (w_ex w)). change (ex_fees (ex_set_twap (w_ex w) tw)) with (ex_fees (w_ex w)).
    rewrite Hp'. cbn [mbind option_bind]. change (cf_limits (ex_cfg (ex_set_twap (w_ex w) tw))) with (cf_limits (ex_cfg (w_ex w))). rewrite Hlim.
    assert (E : pl_assert_tvl p' (ex_rates (w_ex w)) (e_now e) None = Some tt) by (destruct p'; reflexivity). rewrite E. cbn [mbind option_bind].
    change (ex_account (ex_set_twap (w_ex w) tw) (e_caller e)) with (ex_account (w_ex w) (e_caller e)). rewrite Hacc. cbn [mbind option_bind].
    rewrite Htok, Hacc'. cbn [mbind option_bind]. rewrite ex_save_intro by congruence. cbn [mbind option_bind]. rewrite Hps. cbn [mbind option_bind]. eauto. }
  pose proof (C57_add_stable _ _ _ _ _ _ _ _ Hc') as [_ Hsh].
  eexists. split; [eapply paying_call; [exact Hpay|]; cbn [ex_call]; rewrite Hc'; reflexivity|]. rewrite w_queue_exchange. split; [auto|].
  intros t. change (held_by (ex_put_pool (ex_put (ex_set_twap (w_ex w) tw) (e_caller e) acc') pid p') (e_caller e) t) with (held_by (ex_put (ex_set_twap (w_ex w) tw) (e_caller e) acc') (e_caller e) t).
  rewrite held_by_put, String.eqb_refl, (held_by_account _ _ _ _ Hacc).
  apply ac_withdraw_all_spec in Hacc' as (_ & E & _); [apply E|done|now apply pl_wf_nodup].
Qed.
Print Assumptions C92_add_stable.

(** If [predict_remove_liquidity_by_tokens] shows that taking the amounts out burns [burn] shares, no more than allowed and no more
    than the caller has staked nowhere, then [remove_liquidity_by_tokens] succeeds and pays the amounts. *)
Theorem C92_remove_by_tokens w0 w e a pid p am mx burn :
  w_start w0 -> records_sound w0 -> w_reach w0 w -> workable w0 w pid p -> ready w e a -> e_now e < 2 ^ 32 * 10 ^ 9 ->
  room_for (w_ex w) a (pl_tokens p) ->
  v_predict_remove_by_tokens (w_ex w) (e_now e) pid am = Some burn -> burn <= mx -> 0 < burn <= free_shares (w_ex w) pid a ->
  exists w1, w_step w (EvCall e (CRemoveByTokens pid am mx)) = Some w1 /\
    shares_at (w_ex w1) pid a + burn = shares_at (w_ex w) pid a /\
    forall t, held_by (w_ex w1) a t = held_by (w_ex w) a t + beside t (pl_tokens p) am.
Proof.
  intros H0 Hrec0 Hreach (Hp & Hstd & Hfr & Hobs) Hr HW (acc & Hacc & Hroom) Hv Hm [Hb0 Hb].
  pose proof (w_reach_ok _ _ (w_start_ok _ H0) Hreach) as Hok. pose proof (C63_history _ _ (w_start_ok _ H0) Hrec0 Hreach) as Hrec.
  pose proof Hr as (Ha & Hy & Hself & [Hn HW64] & Hrun). subst a.
  assert (Hex : forall t, t ∈ pl_tokens p -> pl_exact p t).
  { intros t Ht. apply Hstd in Ht as [_ Hx]. eapply Forall_lookup_1 in Hx; [exact Hx|]. exact Hp. }
  pose proof (ex_wf_pool _ _ _ _ (proj1 Hok) Hp) as Hwf. apply pl_reachable_wf in Hwf.
  pose proof (ex_wf_account _ _ _ _ (proj1 Hok) Hacc) as Hdj.
  assert (Hsh : burn <= pl_share_of p (e_caller e)). { unfold free_shares, shares_at in Hb. rewrite Hp in Hb. lia. }
  destruct (ex_update_twap_intro w e pid p) as [c1 Hc1]; auto.
  assert (exists q, pl_remove_by_tokens p (ex_rates (w_ex w)) (e_now e) "@view" am (W128 - 1) (ex_fees (w_ex w)) true = Some (q, burn)) as [q Hq].
  { unfold v_predict_remove_by_tokens in Hv. rewrite Hp in Hv. cbn [mbind option_bind] in Hv. bnd Hv z Hz. destruct z as [q x]. injection Hv as <-. eauto. }
  destruct (pl_remove_tokens_quoted p (ex_rates (w_ex w)) (e_now e) (e_caller e) am mx (ex_fees (w_ex w)) q burn Hwf eq_refl Hm (conj Hb0 Hsh) Hq) as [p' Hp'].
  pose proof (pl_remove_tokens_spec p (ex_rates (w_ex w)) (e_now e) _ _ _ _ _ _ Hwf Hp') as (Hst & _ & _ & Hlen & Hres & _).
  pose proof (pl_step_same _ _ _ _ Hwf Hst) as (_ & Htok & _).
  destruct (ac_deposit_all_intro (pl_tokens p) acc am) as (acc' & Hacc' & Hnear & Husage); auto.
  { now apply pl_wf_nodup. }
  { intros t Ht. destruct (Hstd t Ht) as [Hbk Hx]. pose proof (C01_solvent_partial _ _ _ H0 Hbk Hx) as Hsolv.
    destruct (w_backed_sound _ _ _ H0 Hbk) as (_ & _ & Hh & _). pose proof (held_by_le (w_ex w) (e_caller e) t) as Hd.
    rewrite (held_by_account _ _ _ _ Hacc) in Hd. pose proof (pl_reserve_le _ _ _ t Hp). specialize (Hres t (Hex t Ht)). unfold owed in Hsolv. lia. }
  assert (E : match ac_shadow acc !! pid with Some r => sh_free r (pl_share_balance p (e_caller e)) | None => Some (pl_share_balance p (e_caller e)) end = Some (free_shares (w_ex w) pid (e_caller e))).
  { rewrite pl_share_balance_of. unfold free_shares, farm_at, burrow_at, shadow_at, shares_at in *. rewrite Hp, Hacc in *.
    destruct (ac_shadow acc !! pid) as [r|]; cbn [default from_option Datatypes.id] in *; [|f_equal; cbn [sh_farm sh_burrow]; lia].
    unfold sh_free. rewrite csub_intro by lia. reflexivity. }
  assert (exists tw, ex_remove_by_tokens (w_ex w) e pid am mx = Some (ex_put (ex_put_pool (ex_set_twap (w_ex w) tw) pid p') (e_caller e) acc', burn)) as [tw Hc'].
  { unfold ex_remove_by_tokens. rewrite one_yocto_intro by done. cbn [mbind option_bind]. rewrite running_intro by done. cbn [mbind option_bind].
    rewrite Hc1. cbn [mbind option_bind]. apply ex_update_twap_frame in Hc1 as (tw & ->).
    change (ex_pool (ex_set_twap (w_ex w) tw) pid) with (ex_pool (w_ex w) pid). rewrite Hp. cbn [mbind option_bind].
    change (ex_account (ex_set_twap (w_ex w) tw) (e_caller e)) with (ex_account (w_ex w) (e_caller e)). rewrite Hacc. cbn [mbind option_bind].
    rewrite E. cbn [mbind option_bind]. rewrite no_frozen_intro by exact Hfr. cbn [mbind option_bind].
    change (ex_rates (ex_set_twap (w_ex w) tw)) with (ex_rates (w_ex w)). change (ex_fees (ex_set_twap (w_ex w) tw)) with (ex_fees (w_ex w)).
    rewrite Hp'. cbn [mbind option_bind]. rewrite ensure_intro by now apply N.leb_le. cbn [mbind option_bind].
    rewrite Htok, Hacc'. cbn [mbind option_bind]. rewrite ex_save_intro by (rewrite Hnear; lia). cbn [mbind option_bind]. eauto. }
  eexists. split; [eapply ready_call; [exact Hr|]; cbn [ex_call]; rewrite Hc'; reflexivity|]. rewrite w_queue_exchange. split.
  - change (shares_at (ex_put (ex_put_pool (ex_set_twap (w_ex w) tw) pid p') (e_caller e) acc') pid (e_caller e)) with (shares_at (ex_put_pool (ex_set_twap (w_ex w) tw) pid p') pid (e_caller e)).
    apply pl_remove_tokens_burns in Hp'; [|exact Hself|done]. rewrite (shares_at_put (ex_set_twap (w_ex w) tw) pid p p' pid (e_caller e) Hp), decide_True by done.
    rewrite (shares_at_pool _ _ _ _ Hp), <- !pl_share_of_get. exact Hp'.
  - intros t. rewrite held_by_put, String.eqb_refl, (held_by_account _ _ _ _ Hacc).
    apply ac_deposit_all_spec in Hacc' as (_ & E2 & _); [apply E2|done|now apply pl_wf_nodup].
Qed.
Print Assumptions C92_remove_by_tokens.

(** ** Example: alice adds to the pools 0 and 1 and takes tokens out of pool 1 again *)
Definition kept_exactly (p : Pool) : bool := match p with PSimple _ => true | PStable q => forallb (fun d => d <=? kept_decimals (st_kind q)) (st_decimals q) end.
Lemma beside_bound k t ts : forall xs, forallb (fun d => d <=? k) xs = true -> beside t ts xs <= k.
Proof.
  induction ts as [|u ts IH]; intros [|x xs] H; try (unfold beside; cbn; lia). rewrite beside_cons. cbn [forallb] in H. apply andb_true_iff in H as [H1 H2].
  apply N.leb_le in H1. destruct (String.eqb u t); auto.
Qed.
Lemma kept_exact c t : forallb kept_exactly (ex_pools c) = true -> exact_token c t.
Proof.
  unfold exact_token. induction (ex_pools c) as [|p l IH]; intros H; constructor; cbn [forallb] in H; apply andb_true_iff in H as [A B]; [|auto].
  destruct p; [exact I|]. cbn [pl_exact kept_exactly] in *. now apply beside_bound.
Qed.
Lemma rich_standard t : standard t w_fresh w_rich.
Proof. split; [eapply w_run_backed; [|apply (live_standard t)|exact w_rich_runs]; reflexivity|apply kept_exact; vm_compute; reflexivity]. Qed.
Lemma rich_reach : w_reach w_fresh w_rich.
Proof. eapply w_run_reach; [exact live_reach|exact w_rich_runs]. Qed.
Definition rich_pool (i : N) : Pool := default no_pool (ex_pool (w_ex w_rich) i).
Definition unrecorded (w : World) (i : N) : bool :=
  match ex_pool (w_ex w) i with Some _ => true | None => false end && (match ex_twap (w_ex w) !! i with None => true | _ => false end) && bool_decide (cf_frozen (ex_cfg (w_ex w)) = ∅).
Lemma unrecorded_workable i : unrecorded w_rich i = true -> workable w_fresh w_rich i (rich_pool i).
Proof.
  unfold unrecorded, rich_pool. generalize rich_standard. generalize w_rich. intros w Hw H. apply andb_true_iff in H as [H Hf]. apply andb_true_iff in H as [Hp Ht]. apply bool_decide_eq_true in Hf. unfold workable.
  destruct (ex_pool (w_ex w) i) as [p|]; [|discriminate]. cbv [default from_option Datatypes.id]. split; [reflexivity|]. split; [intros t _; apply Hw|]. split; [intros t _; unfold frozen; rewrite Hf; apply not_elem_of_empty|].
  destruct (ex_twap (w_ex w) !! i); [discriminate|]. intros [? [=]].
Qed.
Definition al_pays : Env := mkEnv 200 "al" (10 ^ 22) (5 * 10 ^ 21) 0 true.
Definition can_call (w : World) (e : Env) : bool :=
  (0 <? e_attached e) && (e_grow e <=? e_attached e) && negb (String.eqb (e_caller e) (ex_self (w_ex w))) && (w_now w <=? e_now e) && (e_now e <? 2 ^ 32 * 10 ^ 9) && cf_running (ex_cfg (w_ex w)).
Lemma can_call_paying w e : can_call w e = true -> paying w e (e_caller e).
Proof.
  unfold can_call. rewrite !andb_true_iff, negb_true_iff, N.ltb_lt, N.leb_le, String.eqb_neq, N.leb_le, N.ltb_lt. intros (((((A & B) & C) & D) & E) & F).
  unfold paying. split; [reflexivity|]. split; [exact A|]. split; [exact B|]. split; [exact C|]. split; [split; [exact D|exact E]|exact F].
Qed.
Lemma can_call_ready w e : can_call w e = true -> e_attached e = 1 -> ready w e (e_caller e).
Proof.
  intros H Hy. apply can_call_paying in H as (A & _ & _ & B & [C D] & E). unfold ready. split; [done|]. split; [done|]. split; [done|]. split; [split; [done|]|done].
  etransitivity; [exact D|]. vm_compute. reflexivity.
Qed.
Definition holds_b (w : World) (a : AccountId) (ts : list AccountId) (xs : list N) : bool :=
  match ex_account (w_ex w) a with
  | Some acc => forallb (fun t => match ac_legacy acc !! t with None => true | _ => false end) ts && (ac_storage_usage acc <=? ac_near acc) &&
                forallb (fun t => beside t ts xs <=? held_by (w_ex w) a t) ts
  | None => false
  end.
Lemma holds_b_sound w a ts xs : holds_b w a ts xs = true -> holds w a ts xs.
Proof.
  unfold holds_b, holds. destruct (ex_account (w_ex w) a) as [acc|]; [|discriminate]. rewrite !andb_true_iff, N.leb_le. intros [[H1 H2] H3]. exists acc. split; [done|].
  rewrite forallb_forall in H1, H3. split; [|split; [done|]].
  - intros t Ht. apply elem_of_list_In, H1 in Ht. now destruct (ac_legacy acc !! t).
  - intros t. destruct (decide (t ∈ ts)) as [Ht|Ht].
    + apply elem_of_list_In, H3 in Ht. now apply N.leb_le.
    + assert (E : beside t ts xs = 0) by now apply beside_notin_l. rewrite E. lia.
Qed.
Example C92_ex :
  w_start w_fresh /\ records_sound w_fresh /\ w_reach w_fresh w_rich /\ workable w_fresh w_rich 0 (rich_pool 0) /\ workable w_fresh w_rich 1 (rich_pool 1) /\
  paying w_rich al_pays "al" /\ ready w_rich (env 200 "al" 1) "al" /\
  v_predict_add_simple (w_ex w_rich) 0 [1000; 1000] = Some (mkPrediction [1000; 889] 1110000000000000000000) /\ holds w_rich "al" (pl_tokens (rich_pool 0)) [1000; 889] /\
  cf_limits (ex_cfg (w_ex w_rich)) !! 1 = None /\ v_predict_add_stable (w_ex w_rich) 200 1 [1000; 0] = Some 998891716199958 /\ holds w_rich "al" (pl_tokens (rich_pool 1)) [1000; 0] /\
  v_predict_remove_by_tokens (w_ex w_rich) 200 1 [1000; 0] = Some 1001510202991245 /\ 1001510202991245 <= free_shares (w_ex w_rich) 1 "al" /\
  room_for (w_ex w_rich) "al" (pl_tokens (rich_pool 1)).
Proof.
  split; [apply w_fresh_start|]. split; [apply fresh_records|]. split; [apply rich_reach|]. split; [apply unrecorded_workable; vm_compute; reflexivity|].
  split; [apply unrecorded_workable; vm_compute; reflexivity|]. split; [apply (can_call_paying w_rich al_pays); vm_compute; reflexivity|].
  split; [apply (can_call_ready w_rich (env 200 "al" 1)); vm_compute; reflexivity|]. split; [vm_compute; reflexivity|].
  split; [apply holds_b_sound; vm_compute; reflexivity|]. split; [vm_compute; reflexivity|]. split; [vm_compute; reflexivity|].
  split; [apply holds_b_sound; vm_compute; reflexivity|]. split; [vm_compute; reflexivity|]. split; [vm_compute; discriminate|].
  exists (default ac_new (ex_account (w_ex w_rich) "al")). split; [apply (run_default ac_new (ex_account (w_ex w_rich) "al")); vm_compute; reflexivity|vm_compute; discriminate].
Qed.
