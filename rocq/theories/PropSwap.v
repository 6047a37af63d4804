(** * C14, C15 multi-hop swaps, C39 volumes of a call, C40 instant swaps, C41 hot zap, C10 limits of swaps *)
From Verif Require Import Base BaseLemmas SimplePool SimplePoolProofs SpecSimple SimplePoolInv StableMath StablePool
  SpecStable StablePoolProofs StablePoolInv Rates Echo Twap Account Pool Exchange SpecExchange AccountProofs PoolFacts
  ExchangeProofs ExchangeInv ExchangeEffect ExchangeFrames SpecWorld WorldProofs ExExample PropWorld SpecSwap SwapProofs.

(** Everything but the pools, their averages and volumes, and the deposits of [a], is as before. *)
Definition only_account (a : AccountId) (c c' : Exchange) : Prop :=
  ex_self c' = ex_self c /\ ex_cfg c' = ex_cfg c /\ ex_lost c' = ex_lost c /\ ex_rates c' = ex_rates c /\
  forall b, b <> a -> ex_accounts c' !! b = ex_accounts c !! b.
Lemma put_only_account c c1 a acc : pool_frame c c1 -> only_account a c (ex_put c1 a acc).
Proof.
  intros (A & B & C & D & E). unfold only_account. ex_cbn. split_and!; auto. intros b Hb. rewrite lookup_insert_ne by done. now rewrite C.
Qed.
Lemma held_put_pools c c1 a acc t : pool_frame c c1 -> held_by (ex_put c1 a acc) a t = ac_held acc t.
Proof. intros _. rewrite held_by_put, String.eqb_refl. done. Qed.
Lemma traded_put e r c l ts c1 a acc : traded e r c l ts c1 -> traded e r c l ts (ex_put c1 a acc).
Proof.
  intros (T & V & O & R & E). split; [|split; [exact V|split; [exact O|split; [exact R|exact E]]]].
  clear -T. induction T; [now constructor|]. econstructor; eauto.
Qed.

(** ** The exchange of the examples *)
Definition rich : Exchange := w_ex w_rich.
Lemma rich_reach : w_reach w_fresh w_rich.
Proof. eapply w_run_reach; [|exact w_rich_runs]. eapply w_run_reach; [constructor|exact w_live_runs]. Qed.
Lemma rich_now : w_now w_rich = 117.
Proof. vm_compute. reflexivity. Qed.
Lemma rich_wf now : 117 <= now -> ex_wf now rich.
Proof.
  intros H. pose proof (w_reach_ok _ _ (w_start_ok _ w_fresh_start) rich_reach) as [Hw _]. rewrite rich_now in Hw.
  eapply ex_wf_mono; eauto.
Qed.

(** ** C14 *)
(** execute_actions: the trades are those asked for, each at the price of its pool; the caller's deposits
    change by exactly what the trades paid and got, the reserves by no more, and nothing else changes. *)
Theorem C14_execute_actions c e l r skip c' res :
  ex_wf (e_now e) c -> e_now e < 2 ^ 64 -> ex_execute_actions c e l r skip = Some (c', res) ->
  exists ts, trades e (ex_referral c r) c ts c' /\ Forall2 obeys l ts /\
    (forallb is_swap l = true /\ forward None l ts /\ res = td_got <$> last ts \/
     forallb is_output l = true /\ backward None l ts /\ res = td_paid <$> last ts) /\
    (forall t, held_by c' (e_caller e) t + paid ts t = held_by c (e_caller e) t + got ts t) /\
    (forall t, total_reserves c' t + got ts t <= total_reserves c t + paid ts t) /\
    (all_simple c -> forall t, total_reserves c' t + got ts t = total_reserves c t + paid ts t) /\
    volumes_grow c ts c' /\ only_account (e_caller e) c c'.
Proof.
  intros Hwf HW H. apply ex_execute_actions_inv in H as (acc & c1 & acc' & _ & _ & Ha & _ & Hx & _ & ->).
  pose proof (ex_execute_frame _ _ _ _ _ _ _ _ _ _ Hx) as Hf.
  apply (ex_execute_trades (e_now e)) in Hx as (ts & HT & Hh & Hc); [|done|lia|done|eapply ex_wf_account; eauto].
  apply (traded_put _ _ _ _ _ _ (e_caller e) acc') in HT as (T & V & O & R & E).
  exists ts. split; [done|]. split; [done|]. split; [done|]. split.
  { intros t. rewrite (held_put_pools _ _ _ _ _ Hf), (held_by_account _ _ _ _ Ha). apply Hh. }
  split; [done|]. split; [auto|]. split; [done|]. now apply put_only_account.
Qed.
Print Assumptions C14_execute_actions.

(** For every token, deposits plus reserves never grow, and stay the same without stable pools. *)
Theorem C14_conserved c e l r skip c' res t :
  ex_wf (e_now e) c -> e_now e < 2 ^ 64 -> ex_execute_actions c e l r skip = Some (c', res) ->
  held_by c' (e_caller e) t + total_reserves c' t <= held_by c (e_caller e) t + total_reserves c t /\
  (all_simple c -> held_by c' (e_caller e) t + total_reserves c' t = held_by c (e_caller e) t + total_reserves c t).
Proof.
  intros Hwf HW H. apply C14_execute_actions in H as (ts & _ & _ & _ & Hh & R & E & _); auto.
  specialize (Hh t). specialize (R t). split; [lia|]. intros Hs. specialize (E Hs t). lia.
Qed.
Print Assumptions C14_conserved.

(** swap and swap_by_output are execute_actions restricted to one kind of action and return the last amount. *)
Theorem C14_swap c e l r skip c' x :
  ex_wf (e_now e) c -> e_now e < 2 ^ 64 -> ex_swap c e l r skip = Some (c', x) ->
  exists ts, trades e (ex_referral c r) c ts c' /\ Forall2 obeys l ts /\ forward None l ts /\ Some x = td_got <$> last ts /\
    (forall t, held_by c' (e_caller e) t + paid ts t = held_by c (e_caller e) t + got ts t) /\
    (forall t, total_reserves c' t + got ts t <= total_reserves c t + paid ts t) /\
    only_account (e_caller e) c c'.
Proof.
  intros Hwf HW H. apply ex_swap_inv in H as [Hs H].
  apply C14_execute_actions in H as (ts & T & O & [(_ & F & Hr)|(Ho & B & Hr)] & Hh & R & _ & _ & Ha); auto.
  - exists ts. split_and!; auto.
  - destruct l as [|a l]; [inversion O; subst; done|]. cbn [forallb] in *. apply andb_true_iff in Hs as [Hs _], Ho as [Ho _].
    unfold is_output in Ho. now rewrite Hs in Ho.
Qed.
Print Assumptions C14_swap.

(** execute_actions_in_va: what is not used of the amounts taken from the deposits comes back. *)
Theorem C14_in_va c e use l r skip c' outs :
  ex_wf (e_now e) c -> e_now e < 2 ^ 64 -> ex_execute_in_va c e use l r skip = Some (c', outs) ->
  exists ts, trades e (ex_referral c r) c ts c' /\ Forall2 obeys l ts /\
    (forall t, held_by c' (e_caller e) t + paid ts t = held_by c (e_caller e) t + got ts t) /\
    (forall t, amount_in_list t outs + paid ts t = default 0 (use !! t) + got ts t) /\
    (forall t, total_reserves c' t + got ts t <= total_reserves c t + paid ts t) /\
    (all_simple c -> forall t, total_reserves c' t + got ts t = total_reserves c t + paid ts t) /\
    volumes_grow c ts c' /\ only_account (e_caller e) c c'.
Proof.
  intros Hwf HW H.
  apply ex_execute_in_va_inv in H as (acc & acc1 & va & c1 & va' & res & acc2 & _ & _ & Ha & Ht & Hx & -> & Hd2 & _ & ->).
  pose proof (ex_execute_frame _ _ _ _ _ _ _ _ _ _ Hx) as Hf.
  pose proof (ex_wf_account _ _ _ _ Hwf Ha) as Hd. pose proof (va_take_legacy _ _ _ _ _ Ht ac_new_legacy) as Hl.
  apply va_take_spec in Ht as (Hf1 & Hf2 & Hh1 & Hh2); [|done|apply ac_new_disjoint].
  pose proof (ex_execute_legacy _ _ _ _ _ _ _ _ _ _ Hx Hl) as Hl'.
  apply (ex_execute_trades (e_now e)) in Hx as (ts & HT & Hh & Hc); [|done|lia|done|apply Hf2].
  apply (traded_put _ _ _ _ _ _ (e_caller e) acc2) in HT as (T & V & O & R & E).
  apply ac_deposit_list_spec in Hd2 as (Hf3 & Hh3); [|apply Hf1].
  exists ts. split; [done|]. split; [done|]. split; [|split; [|split; [done|split; [auto|split; [done|now apply put_only_account]]]]].
  - intros t. rewrite (held_put_pools _ _ _ _ _ Hf), (held_by_account _ _ _ _ Ha), Hh3, (va_out_held _ _ Hl'), <- Hh1.
    specialize (Hh t). rewrite Hh2, ac_new_held in Hh. lia.
  - intros t. rewrite (va_out_held _ _ Hl'). specialize (Hh t). rewrite Hh2, ac_new_held, (amount_in_msum t use) in Hh by done. lia.
Qed.
Print Assumptions C14_in_va.

(** Bob goes from [a] over [b] and the stable pool to [c]. *)
Definition hops : list Action := [ASwap 0 "a" (Some 10000) "b" 8000; ASwap 1 "b" None "c" 8000; ASwap 2 "c" None "a" 1].
Example C14_ex : exists c' x, ex_wf 120 rich /\ ex_swap rich (env 120 "bo" 1) hops (Some "rf"%string) false = Some (c', x) /\
  held_by rich "bo" "a" = 50000 /\ held_by c' "bo" "a" = 50000 - 10000 + x /\ 10000 < x.
Proof.
  eexists _, _. split; [apply rich_wf; lia|]. split; [apply (run_pair (rich, 0)); vm_compute; reflexivity|].
  split; [vm_compute; reflexivity|]. split; vm_compute; reflexivity.
Qed.
Definition some_a : gmap AccountId N := list_to_map [("a"%string, 20000)].
Example C14_in_va_ex : exists c' outs, ex_execute_in_va rich (env 120 "bo" 1) some_a hops None true = Some (c', outs) /\
  20000 < amount_in_list "a" outs.
Proof.
  eexists _, _. split; [apply (run_pair (rich, [])); vm_compute; reflexivity|]. vm_compute. reflexivity.
Qed.

(** ** C15 *)
(** The requested outputs are credited and exactly the inputs computed for them are debited, in the same call. *)
Theorem C15_output_swaps_paid c e l r skip c' x :
  ex_wf (e_now e) c -> e_now e < 2 ^ 64 -> ex_swap_by_output c e l r skip = Some (c', x) ->
  exists ts, trades e (ex_referral c r) c ts c' /\ Forall2 obeys l ts /\ backward None l ts /\
    (forall t, held_by c' (e_caller e) t + chain_ends l ts t = held_by c (e_caller e) t + requested l t) /\
    (forall t, total_reserves c' t + requested l t = total_reserves c t + chain_ends l ts t).
Proof.
  intros Hwf HW H. apply ex_swap_by_output_inv in H as [Hs H]. pose proof H as H0.
  apply ex_execute_actions_inv in H0 as (acc & c1 & acc' & _ & Hne & Ha & _ & Hx & _ & ->).
  apply (ex_execute_trades (e_now e)) in Hx as (ts & HT & Hh & Hc); [|done|lia|done|eapply ex_wf_account; eauto].
  apply (traded_put _ _ _ _ _ _ (e_caller e) acc') in HT as (T & V & O & R & E).
  assert (B : backward None l ts).
  { destruct Hc as [(Hsw & _)|(_ & B & _)]; [|done]. destruct l as [|a l]; [done|]. cbn [forallb] in *.
    apply andb_true_iff in Hs as [Hs _], Hsw as [Hsw _]. now rewrite Hsw in Hs. }
  specialize (E (or_intror Hs)). exists ts. split; [done|]. split; [done|]. split; [done|].
  assert (Hcan : forall t, got ts t + chain_ends l ts t = requested l t + paid ts t).
  { intros t. pose proof (backward_cancel l None ts t O B) as HB. destruct (fresh_start l); lia. }
  split; intros t; specialize (Hcan t).
  - rewrite held_by_put, String.eqb_refl, (held_by_account _ _ _ _ Ha). specialize (Hh t). lia.
  - specialize (E t). lia.
Qed.
Print Assumptions C15_output_swaps_paid.

(** 1000 [c] are bought with [a], for which [b] is sold: a chain of two, and a separate purchase of [b]. *)
Definition backs : list Action :=
  [ASwapByOutput 2 "a" (Some 1000) "c" (Some 5000); ASwapByOutput 0 "b" None "a" None; ASwapByOutput 0 "a" (Some 70) "b" (Some 100)].
Example C15_ex : exists c' x, ex_swap_by_output rich (env 120 "al" 1) backs None true = Some (c', x) /\
  requested backs "c" = 1000 /\ held_by c' "al" "c" = held_by rich "al" "c" + 1000 /\
  held_by c' "al" "b" < held_by rich "al" "b" /\ 70 < x.
Proof.
  eexists _, _. split; [apply (run_pair (rich, 0)); vm_compute; reflexivity|].
  split; [vm_compute; reflexivity|]. split; [vm_compute; reflexivity|]. split; vm_compute; reflexivity.
Qed.

(** ** C40 *)
Lemma ex_direct_trades c e t x r l skip c' outs :
  ex_wf (e_now e) c -> e_now e < 2 ^ 64 -> ex_direct c e t x r l skip = Some (c', outs) ->
  exists ts, traded e (ex_referral c r) c l ts c' /\ pool_frame c c' /\
    (forallb is_swap l = true /\ forward (Some x) l ts \/ forallb is_output l = true /\ backward None l ts) /\
    (forall u, amount_in_list u outs + paid ts u = only t u x + got ts u) /\ Forall (fun o => 0 < o.2) outs.
Proof.
  intros Hwf HW H. unfold ex_direct in H. bnd H va Hd. bnd H a0 Ha0. bnd H s Hx. destruct s as [[c1 va'] res]. injection H as <- <-.
  pose proof (ex_execute_frame _ _ _ _ _ _ _ _ _ _ Hx) as Hf.
  pose proof (ac_deposit_legacy _ _ _ _ Hd ac_new_legacy) as Hl. pose proof (ex_execute_legacy _ _ _ _ _ _ _ _ _ _ Hx Hl) as Hl'.
  apply ac_deposit_spec in Hd as (Hfa & Hh & _); [|apply ac_new_disjoint].
  apply (ex_execute_trades (e_now e)) in Hx as (ts & HT & Hh2 & Hc); [|done|lia|done|apply Hfa].
  exists ts. split; [done|]. split; [done|]. split; [|split].
  - destruct l as [|a l]; [done|]. cbn in Ha0. injection Ha0 as ->.
    destruct Hc as [(Hs & F & _)|(Hs & B & _)]; [left|right; done]. split; [done|]. cbn [forallb] in Hs. apply andb_true_iff in Hs as [Hs _]. now rewrite Hs in F.
  - intros u. rewrite (va_out_held _ _ Hl'). specialize (Hh2 u). rewrite Hh, ac_new_held in Hh2. lia.
  - apply Forall_forall. intros o Ho. unfold va_out in Ho. apply elem_of_list_filter in Ho as [Ho _]. now apply N.ltb_lt in Ho.
Qed.
Lemma outs_receivers c s rc su echo outs : Forall (fun o => 0 < o.2) outs ->
  Forall (fun p => exists t y, transfers p = Some (t, if echo : bool then s else rc, y) /\ 0 < y)
    ((fun x : AccountId * N => if echo then PSendMsg x.1 s x.2 else ex_send c rc x.1 x.2 su) <$> outs).
Proof.
  intros H. apply Forall_fmap. eapply Forall_impl; [exact H|]. intros [t y] Hy. cbn [compose fst snd] in *. exists t, y. split; [|done].
  destruct echo; [done|]. unfold ex_send. destruct (_ && _); done.
Qed.

(** Everything the incoming tokens were traded for leaves again, to the sender (or the recipient they
    named), and no deposit or lost-and-found entry of anybody changes. *)
Theorem C40_instant_swap c e s x r l echo su rc skip c' ps :
  ex_wf (e_now e) c -> e_now e < 2 ^ 64 -> ex_ft_on_transfer c e s x (MsgExecute r l echo su rc skip) = Some (c', ps) ->
  ex_accounts c' = ex_accounts c /\ ex_lost c' = ex_lost c /\ ex_cfg c' = ex_cfg c /\
  Forall (fun p => exists t y, transfers p = Some (t, default s rc, y) /\ 0 < y) ps /\
  exists ts, trades e (ex_referral c r) c ts c' /\ Forall2 obeys l ts /\
    (forallb is_swap l = true /\ forward (Some x) l ts \/ forallb is_output l = true /\ backward None l ts) /\
    (forall t, promised_all t ps + paid ts t = only (e_caller e) t x + got ts t) /\
    (forall t, total_reserves c' t + got ts t <= total_reserves c t + paid ts t) /\
    (all_simple c -> forall t, total_reserves c' t + got ts t = total_reserves c t + paid ts t) /\
    volumes_grow c ts c'.
Proof.
  intros Hwf HW H. cbn [ex_ft_on_transfer] in H. grd H. grd H. grd H. grd H. bnd H u Hu. bnd H d Hd. destruct d as [c1 outs]. grd H.
  injection H as <- <-. apply ex_direct_trades in Hd as (ts & (T & V & O & R & E) & Hf & Hc & Hs & Hpos); auto.
  pose proof Hf as (_ & Hcfg & Hacc & Hlost & _). split; [done|]. split; [done|]. split; [done|]. split.
  - eapply Forall_impl; [apply (outs_receivers c1 s (default s rc) su echo outs Hpos)|].
    intros p (t & y & Hp & Hy). exists t, y. split; [|done]. rewrite Hp. destruct echo, rc; try done.
  - exists ts. split; [done|]. split; [done|]. split; [done|]. split; [|split; [done|split; [auto|done]]].
    intros t. rewrite promised_outs. apply Hs.
Qed.
Print Assumptions C40_instant_swap.

(** The deposits are not even read: with any other deposits the call does the same. *)
Definition with_accounts (m : gmap AccountId VAccount) {A} (x : option (Exchange * A)) : option (Exchange * A) :=
  (fun y => (ex_set_accounts y.1 m, y.2)) <$> x.
Lemma ex_update_twap_accounts m c e pid :
  ex_update_twap (ex_set_accounts c m) e pid = (fun y => ex_set_accounts y m) <$> ex_update_twap c e pid.
Proof.
  unfold ex_update_twap, ex_unit_amounts, ex_pool. ex_cbn. destruct (ex_twap c !! pid) as [i|]; [|done].
  destruct (ex_pools c !! N.to_nat pid) as [p|]; [|done]. cbn [mbind option_bind].
  destruct (_ <? _); [|done]. destruct (pl_remove_liquidity _ _ _ _ _) as [[p' am]|]; [|done]. cbn [mbind option_bind].
  destruct (twap_update _ _ _ _); done.
Qed.
Lemma ex_pool_swap_accounts m c e pid ti x to mn r :
  ex_pool_swap (ex_set_accounts c m) e pid ti x to mn r = with_accounts m (ex_pool_swap c e pid ti x to mn r).
Proof.
  unfold ex_pool_swap. rewrite ex_update_twap_accounts. destruct (ex_update_twap c e pid) as [c1|]; [|done].
  cbn [fmap option_fmap option_map mbind option_bind]. unfold ex_pool, ex_volumes_of, ex_fees_ref. ex_cbn.
  destruct (ex_pools c1 !! N.to_nat pid) as [p|]; [|done]. cbn [mbind option_bind].
  destruct (pl_swap _ _ _ _ _ _ _ _ _) as [[p' out]|]; [|done]. cbn [mbind option_bind].
  destruct (position ti (pl_tokens p')) as [ii|]; [|done]. cbn [mbind option_bind].
  destruct (match p' with PSimple _ => Some ii | PStable _ => position to (pl_tokens p') end) as [io|]; [|done]. cbn [mbind option_bind].
  destruct (vol_update _ _ _ _ _); done.
Qed.
Lemma ex_pool_swap_by_output_accounts m c e pid ti x to mx r :
  ex_pool_swap_by_output (ex_set_accounts c m) e pid ti x to mx r = with_accounts m (ex_pool_swap_by_output c e pid ti x to mx r).
Proof.
  unfold ex_pool_swap_by_output. rewrite ex_update_twap_accounts. destruct (ex_update_twap c e pid) as [c1|]; [|done].
  cbn [fmap option_fmap option_map mbind option_bind]. unfold ex_pool, ex_volumes_of, ex_fees_ref. ex_cbn.
  destruct (ex_pools c1 !! N.to_nat pid) as [p|]; [|done]. cbn [mbind option_bind].
  destruct (pl_swap_by_output _ _ _ _ _ _ _) as [[p' out]|]; [|done]. cbn [mbind option_bind].
  destruct (position ti (pl_tokens p')) as [ii|]; [|done]. cbn [mbind option_bind].
  destruct (match p' with PSimple _ => Some ii | PStable _ => position to (pl_tokens p') end) as [io|]; [|done]. cbn [mbind option_bind].
  destruct (vol_update _ _ _ _ _); done.
Qed.
Definition with_accounts2 (m : gmap AccountId VAccount) {A B} (x : option (Exchange * A * B)) : option (Exchange * A * B) :=
  (fun y => (ex_set_accounts y.1.1 m, y.1.2, y.2)) <$> x.
Lemma ex_exec_action_accounts m c e acc r a prev :
  ex_exec_action (ex_set_accounts c m) e acc r a prev = with_accounts2 m (ex_exec_action c e acc r a prev).
Proof.
  destruct a as [pid ti am to mn|pid ti am to mx]; cbn [ex_exec_action].
  - destruct (match am with Some x => Some x | None => prev end) as [x|]; [|done]. cbn [mbind option_bind].
    destruct (ac_withdraw acc ti x) as [a1|]; [|done]. cbn [mbind option_bind]. rewrite ex_pool_swap_accounts.
    destruct (ex_pool_swap _ _ _ _ _ _ _ _) as [[c' out]|]; [|done]. cbn [with_accounts fmap option_fmap option_map mbind option_bind fst snd].
    destruct (ac_deposit a1 to out); done.
  - destruct (match am with Some x => Some x | None => prev end) as [x|]; [|done]. cbn [mbind option_bind].
    rewrite ex_pool_swap_by_output_accounts. destruct (ex_pool_swap_by_output _ _ _ _ _ _ _ _) as [[c' out]|]; done.
Qed.
Lemma ex_swap_loop_accounts m e r l : forall c acc prev,
  ex_swap_loop (ex_set_accounts c m) e acc r l prev = with_accounts2 m (ex_swap_loop c e acc r l prev).
Proof.
  induction l as [|a l IH]; intros c acc prev; cbn [ex_swap_loop]; [done|].
  rewrite ex_exec_action_accounts. destruct (ex_exec_action _ _ _ _ _ _) as [[[c1 a1] x]|]; [|done].
  cbn [with_accounts2 fmap option_fmap option_map mbind option_bind fst snd]. apply IH.
Qed.
Lemma ex_output_loop_accounts m e r l : forall c acc pi prev,
  ex_output_loop (ex_set_accounts c m) e acc r l pi prev = with_accounts2 m (ex_output_loop c e acc r l pi prev).
Proof.
  induction l as [|a l IH]; intros c acc pi prev; cbn [ex_output_loop].
  - destruct (ex_finalize acc pi prev); done.
  - match goal with |- context [mbind _ ?x] => destruct x as [a1|] end; [|done]. cbn [mbind option_bind].
    rewrite ex_exec_action_accounts. destruct (ex_exec_action _ _ _ _ _ _) as [[[c1 a2] x]|]; [|done].
    cbn [with_accounts2 fmap option_fmap option_map mbind option_bind fst snd]. apply IH.
Qed.
Lemma ex_degen_tokens_accounts m c l : ex_degen_tokens (ex_set_accounts c m) l = ex_degen_tokens c l.
Proof. induction l as [|a l IH]; [done|]. cbn [ex_degen_tokens]. now rewrite IH. Qed.
Lemma ex_execute_accounts m c e acc r l prev skip :
  ex_execute (ex_set_accounts c m) e acc r l prev skip = with_accounts2 m (ex_execute c e acc r l prev skip).
Proof.
  unfold ex_execute. destruct (same_action_type l); [|done]. cbn [mbind option_bind].
  change (no_frozen (ex_set_accounts c m) (act_tokens l)) with (no_frozen c (act_tokens l)).
  destruct (no_frozen c (act_tokens l)); [|done]. cbn [mbind option_bind]. destruct (l !! 0%nat) as [a0|]; [|done]. cbn [mbind option_bind].
  rewrite ex_swap_loop_accounts, ex_output_loop_accounts.
  replace (if is_swap a0 then with_accounts2 m (ex_swap_loop c e acc r l prev) else with_accounts2 m (ex_output_loop c e acc r l None prev))
    with (with_accounts2 m (if is_swap a0 then ex_swap_loop c e acc r l prev else ex_output_loop c e acc r l None prev)) by now destruct (is_swap a0).
  destruct (if is_swap a0 then _ else _) as [[[c1 a1] x]|]; [|done].
  cbn [with_accounts2 fmap option_fmap option_map mbind option_bind fst snd]. rewrite ex_degen_tokens_accounts.
  change (ex_rates (ex_set_accounts c1 m)) with (ex_rates c1). destruct (if skip then _ else _); done.
Qed.
Theorem C40_deposits_not_read m c e s x r l echo su rc skip :
  ex_ft_on_transfer (ex_set_accounts c m) e s x (MsgExecute r l echo su rc skip) =
  with_accounts m (ex_ft_on_transfer c e s x (MsgExecute r l echo su rc skip)).
Proof.
  unfold ex_ft_on_transfer. cbv zeta. destruct (not_payable e); [|done]. cbn [mbind option_bind].
  change (running (ex_set_accounts c m)) with (running c). destruct (running c); [|done]. cbn [mbind option_bind].
  destruct (ensure (negb (echo && _))); [|done]. cbn [mbind option_bind]. destruct (ensure (match l with [] => false | _ => true end)); [|done]. cbn [mbind option_bind].
  change (cf_echo (ex_cfg (ex_set_accounts c m))) with (cf_echo (ex_cfg c)). destruct (if echo then assert_client_echo_valid _ _ _ else Some tt); [|done]. cbn [mbind option_bind].
  unfold ex_direct. destruct (ac_deposit ac_new (e_caller e) x) as [va|]; [|done]. cbn [mbind option_bind].
  destruct (l !! 0%nat) as [a0|]; [|done]. cbn [mbind option_bind]. rewrite ex_execute_accounts.
  change (ex_referral (ex_set_accounts c m) r) with (ex_referral c r).
  destruct (ex_execute _ _ _ _ _ _ _) as [[[c1 va'] res]|]; [|done].
  cbn [with_accounts2 fmap option_fmap option_map mbind option_bind fst snd].
  change (cf_burrow (ex_cfg (ex_set_accounts c m))) with (cf_burrow (ex_cfg c)). destruct (ensure _); done.
Qed.
Print Assumptions C40_deposits_not_read.

(** If anything fails, the state of the exchange is as before and the tokens go back. *)
Theorem C40_failure_returns w id e t s x m :
  w_now w <= e_now e -> e_now e < 2 ^ 64 -> e_caller e = t -> x <= w_hold w t ->
  w_flights w !! id = Some (Arriving t s x m) -> ex_ft_on_transfer (w_ex w) e s x m = None ->
  exists w', w_step w (EvNotify id e) = Some w' /\ w_ex w' = w_ex w /\ w_flights w' = delete id (w_flights w) /\
    forall u, w_hold w' u + only t u x = w_hold w u.
Proof.
  intros Hn HW Hc Hx Hf H. eexists. split.
  - cbn [w_step]. unfold next_time, ensure. rewrite (proj2 (N.leb_le _ _) Hn), (proj2 (N.ltb_lt _ _) HW). cbn [andb mbind option_bind].
    rewrite Hf. cbn [mbind option_bind]. rewrite Hc, String.eqb_refl, H. reflexivity.
  - cbn [w_ex w_flights w_hold]. split; [done|]. split; [done|]. intros u. unfold debit_hold, only.
    destruct (String.eqb_spec t u) as [<-|]; [|lia]. rewrite N.min_l by done. lia.
Qed.
Print Assumptions C40_failure_returns.

Example C40_ex : exists c' ps, ex_ft_on_transfer rich (env 120 "a" 0) "zoe" 10000
  (MsgExecute None [ASwap 0 "a" (Some 4000) "b" 1; ASwap 1 "b" None "c" 1] false None (Some "yan"%string) false) = Some (c', ps) /\
  promised_all "a" ps = 6000 /\ 3000 < promised_all "c" ps /\ promised_all "b" ps = 0.
Proof.
  eexists _, _. split; [apply (run_pair (rich, [])); vm_compute; reflexivity|]. split; [vm_compute; reflexivity|]. split; vm_compute; reflexivity.
Qed.
Example C40_fails_ex : ex_ft_on_transfer rich (env 120 "a" 0) "zoe" 10000 (MsgExecute None [ASwap 0 "a" (Some 4000) "b" 5000] false None None false) = None.
Proof. vm_compute. reflexivity. Qed.

(** ** C41 *)
Lemma ex_zap_one_exact c e s m i c' m' :
  ex_wf (e_now e) c -> e_now e < 2 ^ 64 -> ex_zap_one c e s m i = Some (c', m') ->
  (forall u, total_reserves c' u + default 0 (m' !! u) <= total_reserves c u + default 0 (m !! u)) /\
  (all_simple c -> all_simple c' /\ forall u, total_reserves c' u + default 0 (m' !! u) = total_reserves c u + default 0 (m !! u)).
Proof.
  intros Hwf HW H. apply ex_zap_one_inv in H as (p & p' & am & sh & Hp & Hadd & _ & Hs & ->).
  pose proof (pl_reachable_wf _ _ (ex_wf_pool _ _ _ _ Hwf Hp)) as Hpw.
  assert (pl_same p p' /\ (forall t, pl_reserve p' t <= pl_reserve p t + beside t (pl_tokens p) am) /\
    (is_simple p -> forall t, pl_reserve p' t = pl_reserve p t + beside t (pl_tokens p) am)) as (Hsm & Hr & Hre).
  { destruct Hadd as [(_ & Hadd & _)|(Hns & -> & mn & _ & Hadd)].
    - apply (pl_add_spec p (ex_rates c) (e_now e)) in Hadd as (Hst & _ & _ & Hr & _); [|done]. split; [eapply pl_step_same; eauto|].
      split; intros; rewrite Hr; lia.
    - apply pl_add_stable_spec in Hadd as (Hst & _ & _ & _ & Hr & _); [|done]. split; [eapply pl_step_same; eauto|]. split; [done|]. intros; done. }
  assert (Hsub : forall u, default 0 (m' !! u) + beside u (pl_tokens p) am = default 0 (m !! u)).
  { intros u. apply (tc_sub_all_spec _ u) in Hs. rewrite amount_in_zip in Hs by now apply pl_wf_nodup. done. }
  split.
  - intros u. specialize (Hr u). specialize (Hsub u). pose proof (total_reserves_put c (ai_pool i) p p' u Hp). lia.
  - intros Hall. pose proof (ex_pool_simple _ _ _ Hall Hp) as Hsp. split.
    + unfold all_simple. ex_cbn. apply Forall_insert; [done|]. destruct Hsm as (Hk & _). destruct p, p'; done.
    + intros u. specialize (Hre Hsp u). specialize (Hsub u). pose proof (total_reserves_put c (ai_pool i) p p' u Hp). lia.
Qed.
Lemma ex_zap_loop_exact e s l : forall c m c' m',
  ex_wf (e_now e) c -> e_now e < 2 ^ 64 -> ex_zap_loop c e s m l = Some (c', m') ->
  (forall u, total_reserves c' u + default 0 (m' !! u) <= total_reserves c u + default 0 (m !! u)) /\
  (all_simple c -> forall u, total_reserves c' u + default 0 (m' !! u) = total_reserves c u + default 0 (m !! u)) /\
  (forall u, default 0 (m' !! u) <= default 0 (m !! u)).
Proof.
  induction l as [|i l IH]; intros c m c' m' Hwf HW H; cbn [ex_zap_loop] in H.
  - injection H as <- <-. split_and!; intros; lia.
  - bnd H q Hq. destruct q as [c1 m1]. pose proof (ex_zap_one_exact _ _ _ _ _ _ _ Hwf HW Hq) as (A & B).
    assert (D : forall u, default 0 (m1 !! u) <= default 0 (m !! u)).
    { clear -Hq. apply ex_zap_one_inv in Hq as (p & p' & am & sh & _ & _ & _ & Hs & _). intros u. apply (tc_sub_all_spec _ u) in Hs. lia. }
    apply ex_zap_one_moved in Hq as [_ M]; auto. apply IH in H as (E & F & G); [|apply M|done]. split; [|split].
    + intros u. specialize (A u). specialize (E u). lia.
    + intros Hall u. destruct (B Hall) as [Hall' B']. specialize (B' u). specialize (F Hall' u). lia.
    + intros u. specialize (D u). specialize (G u). lia.
Qed.
(** A hot zap takes nothing from the sender's deposits, touches no other account, and deposits plus
    reserves grow by at most the incoming amount, exactly by it without stable pools. *)
Theorem C41_hot_zap c e s x r l infos skip c' ps :
  ex_wf (e_now e) c -> e_now e < 2 ^ 64 -> ex_ft_on_transfer c e s x (MsgHotZap r l infos skip) = Some (c', ps) ->
  ps = [] /\ only_account s c c' /\ (forall t, held_by c s t <= held_by c' s t) /\
  (forall t, held_by c' s t + total_reserves c' t <= held_by c s t + total_reserves c t + only (e_caller e) t x) /\
  (all_simple c -> forall t, held_by c' s t + total_reserves c' t = held_by c s t + total_reserves c t + only (e_caller e) t x).
Proof.
  intros Hwf HW H. cbn [ex_ft_on_transfer] in H. grd H. grd H. bnd H c2 Hz. injection H as <- <-. split; [done|].
  apply ex_hot_zap_inv in Hz as (acc & ts & c1 & outs & m & c3 & m' & acc' & _ & _ & Ha & _ & _ & _ & Hd & Hm & Hz & _ & Hl & _ & ->).
  pose proof (ex_direct_frame _ _ _ _ _ _ _ _ _ Hd) as Hf1. pose proof (ex_zap_loop_frame _ _ _ _ _ _ _ Hz) as Hf2.
  pose proof (ex_direct_moved _ _ _ _ _ _ _ _ _ Hwf HW Hd) as [Hsf M1].
  apply ex_direct_trades in Hd as (tr & (_ & _ & _ & R & E) & _ & _ & Hs & _); auto.
  apply ex_zap_loop_exact in Hz as (Z1 & Z2 & Z3); [|apply M1|done].
  apply ac_deposit_list_spec in Hl as [_ Hh3]; [|exact (ex_wf_account _ _ _ _ Hwf Ha)].
  split; [apply put_only_account; eapply pool_frame_trans; eauto|].
  assert (Hheld : forall t, held_by (ex_put c3 s acc') s t = held_by c s t + default 0 (m' !! t)).
  { intros t. rewrite held_by_put, String.eqb_refl, Hh3, (held_by_account _ _ _ t Ha), (amount_in_msum t m') by done. done. }
  assert (Hm' : forall t, default 0 (m !! t) = amount_in_list t outs).
  { intros t. apply (tc_add_all_spec _ t) in Hm. rewrite lookup_empty in Hm. dfl. lia. }
  split; [intros t; rewrite Hheld; lia|]. change (total_reserves (ex_put c3 s acc')) with (total_reserves c3). split.
  - intros t. rewrite Hheld. specialize (Z1 t). specialize (R t). specialize (Hs t). rewrite Hm' in Z1. lia.
  - intros Hall t. rewrite Hheld. specialize (Z2 (all_simple_frame _ _ Hsf Hall) t). specialize (E (or_introl Hall) t). specialize (Hs t). rewrite Hm' in Z2. lia.
Qed.
Print Assumptions C41_hot_zap.
Example C41_ex : exists c', ex_ft_on_transfer rich (env 120 "a" 0) "bo" 10000
  (MsgHotZap None [ASwap 0 "a" (Some 4000) "b" 1] [mkAddInfo 0 [5000; 3000] (Some [1; 1]) None] false) = Some (c', []) /\
  held_by c' "bo" "a" < held_by rich "bo" "a" + 6000 /\ held_by rich "bo" "a" + 1000 <= held_by c' "bo" "a" /\ 0 < held_by c' "bo" "b".
Proof.
  eexists. split; [match goal with |- ?x = _ => assert (E : done_ x = true /\ snd (default (rich, [PRetrieve "" "" 0]) x) = []) end; [split; vm_compute; reflexivity|]|].
  - destruct E as [E1 E2]. rewrite (run_pair (rich, [PRetrieve "" "" 0]) _ E1), E2. reflexivity.
  - split; [vm_compute; reflexivity|]. split; [vm_compute; discriminate|]. vm_compute; reflexivity.
Qed.
