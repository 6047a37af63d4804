(** * Property theorems about stable, rated and degen pools: C02, C10, C13, C16-C22.
    Vocabulary: SpecStable.v.  [st_reachable now p]: [p] is reachable at time [now] from creation
    by any history of successful operations by anyone, under arbitrary rates. *)
From Verif Require Import Base BaseLemmas SimplePool SpecSimple SimplePoolProofs StableMath
  StableMathProofs StablePool SpecStable StablePoolProofs StablePoolInv StableFacts.

(** ** Concrete pools used for the non-vacuity examples *)
Definition ex_st_fees : AdminFees := mkAdminFees 2000 "exchange" (Some ("ref", 1000)).
Definition ex_env (now : N) : PoolEnv :=
  mkPoolEnv now (fun t => if String.eqb t "B" then Some (12 * 10 ^ 23) else Some (10 ^ 24)) (fun _ => true).
(** the same rates, but expired *)
Definition ex_env_stale (now : N) : PoolEnv := mkPoolEnv now (pe_rate (ex_env now)) (fun _ => false).

Definition ex_st_ops : list (PoolEnv * st_op) :=
  [(ex_env 1, StAdd "alice" [10 ^ 12; 10 ^ 30; 10 ^ 30] 0 ex_st_fees);
   (ex_env 2, StRegister "ref");
   (ex_env (2 * DAY), StRamp 20 (4 * DAY));
   (ex_env (2 * DAY), StAdd "bob" [5 * 10 ^ 11; 10 ^ 30 + 7; 0] 1 ex_st_fees);
   (ex_env (3 * DAY), StSwap "A" 70000000001 "B" 1 ex_st_fees);
   (ex_env (3 * DAY), StRemoveShares "bob" (10 ^ 23) [1; 1; 1]);
   (ex_env (3 * DAY), StRemoveTokens "bob" [10 ^ 9; 3 * 10 ^ 27; 12345678] (10 ^ 40) ex_st_fees);
   (ex_env (3 * DAY), StTransfer "alice" "bob" (10 ^ 22))].
Definition ex_st_pool0 (k : StableKind) : option StablePool := st_new k ["A"; "B"; "C"] [6; 24; 24] 10 30.
Definition ex_st_pool (k : StableKind) : option StablePool := p ← ex_st_pool0 k; st_run p ex_st_ops.


(** the operations happen at non-decreasing times *)
Fixpoint times_ok (now : N) (os : list (PoolEnv * st_op)) : bool :=
  match os with
  | [] => true
  | (e, _) :: r => (now <=? pe_now e) && (pe_now e <? 2 ^ 64) && times_ok (pe_now e) r
  end.

Lemma st_run_reachable now p os p' :
  st_reachable now p -> times_ok now os = true -> st_run p os = Some p' -> exists now', st_reachable now' p'.
Proof.
  revert now p; induction os as [|[e o] os IH]; intros now p Hp Ht H; cbn [st_run times_ok] in *.
  - injection H as <-. eauto.
  - apply bind_Some in H as (p1 & H1 & H). apply andb_true_iff in Ht as [Ht1 Ht2]. apply andb_true_iff in Ht1 as [Ht0 Ht1].
    apply N.leb_le in Ht0. apply N.ltb_lt in Ht1. eapply IH; [|exact Ht2|exact H]. eapply st_reach_step; eauto.
Qed.

Example ex_st_pool_values :
  (p ← ex_st_pool KStable; Some (st_c p, st_supply p, st_shares p !! "alice", st_shares p !! "ref")) =
  Some ([1534088641557561771623884; 1884168691667270337778323; 977763465959607648508220],
        4393109929604558040388187, Some 2990000000000000000000000, Some 26292214561097530984) /\
  (p ← ex_st_pool KRated; Some (st_c p, st_supply p, st_shares p !! "alice", st_shares p !! "ref")) =
  Some ([1568999967929336967564661357822; 1938649967369025279202921984907; 999999979572189151328069927361],
        4890697996700491837255899826442, Some 3199866877673848595699995316303, Some 29018438860833917657500088).
Proof. split; vm_compute; reflexivity. Qed.

Example ex_st_pool_reachable k p : ex_st_pool k = Some p -> exists now, st_reachable now p.
Proof.
  unfold ex_st_pool, ex_st_pool0. intros H. apply bind_Some in H as (p0 & H0 & H).
  eapply (st_run_reachable 0); [| |exact H]; [|vm_compute; reflexivity].
  eapply st_reach_new; [| | |exact H0]; [|done|done]. repeat constructor; set_solver.
Qed.

(** The pool just before the trade of [ex_st_ops]. *)
Definition ex_st_pre (k : StableKind) : option StablePool := p ← ex_st_pool0 k; st_run p (take 4 ex_st_ops).
Example ex_st_pre_reachable k p : ex_st_pre k = Some p -> exists now, st_reachable now p.
Proof.
  unfold ex_st_pre, ex_st_pool0. intros H. apply bind_Some in H as (p0 & H0 & H).
  eapply (st_run_reachable 0); [| |exact H]; [|vm_compute; reflexivity].
  eapply st_reach_new; [| | |exact H0]; [|done|done]. repeat constructor; set_solver.
Qed.

(** ** C02 (stable, rated, degen pools) *)
Theorem C02_stable_supply_is_sum now p :
  st_reachable now p -> st_supply p = map_fold (fun _ s acc => s + acc) 0 (st_shares p).
Proof. intros H. apply st_reachable_wf in H as (_ & _ & _ & _ & _ & H & _). symmetry. exact H. Qed.
Print Assumptions C02_stable_supply_is_sum.

(** ** C10 *)
Theorem C10_stable_swap_min_out p e ti a to mn f v p' out :
  st_swap p e ti a to mn f v = Some (p', out) -> mn <= out.
Proof.
  intros H. now apply st_swap_inv in H as (? & ? & ? & ? & ? & ? & ? & ? & ? & ? & ? & ? & _ & _ & _ & _ & _ & _ & _ & _
    & _ & _ & _ & _ & _ & ? & _).
Qed.
Print Assumptions C10_stable_swap_min_out.

Theorem C10_stable_add_min_shares p e s am mn f p' sh :
  st_add_liquidity p e s am mn f false = Some (p', sh) ->
  mn <= sh /\ st_share_of p s + sh <= st_share_of p' s.
Proof.
  unfold st_add_liquidity. intros H.
  apply bind_Some in H as ([] & Hlen & H). apply bind_Some in H as (rates & Hr & H).
  apply bind_Some in H as ([sh' fee] & Hcalc & H). apply bind_Some in H as ([] & Hmn & H). apply ensure_Some, N.leb_le in Hmn.
  apply bind_Some in H as (cam & Hcam & H). apply bind_Some in H as (c' & Hc' & H).
  apply bind_Some in H as (p1 & H1 & H). apply bind_Some in H as (p2 & H2 & H). injection H as -> ->.
  split; [done|]. apply st_mint_inv in H1 as [-> _]. apply st_mint_fee_inv in H2 as (m & s2 & -> & _ & _ & _ & Hle & _).
  specialize (Hle s). unfold st_share_of. st_unfold. rewrite shares_get_credit in Hle.
  destruct (String.eqb_spec s s) as [_|]; [|done]. unfold shares_get in Hle. exact Hle.
Qed.
Print Assumptions C10_stable_add_min_shares.

Theorem C10_stable_remove_min_amounts now p s sh mins p' out :
  st_reachable now p -> st_remove_by_shares p s sh mins false = Some (p', out) ->
  Forall2 N.le mins out /\ st_share_of p' s + sh = st_share_of p s /\ sh <= st_share_of p s.
Proof.
  intros Hr H. apply st_reachable_wf in Hr.
  apply st_remove_shares_inv in H as (c' & m & Hlen & Hred & Hle & -> & prev & Hprev & Hsh & _ & Hm & _).
  apply st_redeem_all_Some in Hred as (L1 & L2 & L3 & L4 & Hall). split.
  - apply Forall2_same_length_lookup_2; [lia|]. intros i mn a Hmn Ha.
    destruct (lookup_lt_is_Some_2 (st_decimals p) i) as [d Hd]; [apply lookup_lt_Some in Ha; lia|].
    destruct (lookup_lt_is_Some_2 (st_c p) i) as [c Hc]; [apply lookup_lt_Some in Ha; lia|].
    destruct (Hall i d c Hd Hc) as (mn' & a' & l & Hmn' & Ha' & _ & Hr').
    rewrite Hmn in Hmn'; injection Hmn' as <-. rewrite Ha in Ha'; injection Ha' as <-.
    now apply st_redeem_Some in Hr' as (_ & _ & _ & _ & _ & ?).
  - unfold st_share_of. st_unfold. rewrite Hm, Hprev. cbn [default from_option Datatypes.id]. lia.
Qed.
Print Assumptions C10_stable_remove_min_amounts.

Theorem C10_stable_remove_tokens_max_burn p e s am mx f p' burn :
  st_remove_by_tokens p e s am mx f false = Some (p', burn) ->
  burn <= mx /\ st_share_of p s <= st_share_of p' s + burn /\
  (forall h, h <> s -> st_share_of p h <= st_share_of p' h).
Proof.
  intros H. apply st_remove_tokens_inv in H as (rates & cam & c' & fee & m & s2 & _ & _ & _ & _ & _ & _ & _ & _ & -> & _
    & (prev & _ & _ & Hmx & _ & Hne & Hs) & _).
  unfold st_share_of. st_unfold. unfold shares_get in *. auto.
Qed.
Print Assumptions C10_stable_remove_tokens_max_burn.

(** ** C13 *)
(** get_return quotes [out] exactly when the executed swap yields [out], whatever the referral.
    For an outgoing token with more decimals than the pool keeps (only possible in a stable pool)
    the execution additionally converts the fees for the log, see [C13_stable_execution_is_quoted]. *)
Theorem C13_stable_quote_equals_execution now p e ti a to bps exch ref out :
  st_reachable now p -> (forall rid rfee, ref = Some (rid, rfee) -> rfee <= 10000) ->
  st_dec p to <= kept_decimals (st_kind p) ->
  (exists q, st_swap p e ti a to 0 (mkAdminFees bps exch None) true = Some (q, out)) <->
  (exists p', st_swap p e ti a to 0 (mkAdminFees bps exch ref) false = Some (p', out)).
Proof.
  intros Hr Hf Hd. apply st_reachable_wf in Hr. split; intros [q H].
  - eapply (st_swap_indep _ _ _ _ _ _ _ _ _ _ 0 (mkAdminFees bps exch ref) false) in H as (p'' & H & _); eauto. lia.
  - eapply (st_swap_indep _ _ _ _ _ _ _ _ _ _ 0 (mkAdminFees bps exch None) true) in H as (p'' & H & _); eauto; [lia|].
    intros ? ? [=].
Qed.
Print Assumptions C13_stable_quote_equals_execution.

Theorem C13_stable_execution_is_quoted now p e ti a to mn bps exch ref p' out :
  st_reachable now p -> st_swap p e ti a to mn (mkAdminFees bps exch ref) false = Some (p', out) ->
  (exists q, st_swap p e ti a to 0 (mkAdminFees bps exch None) true = Some (q, out) /\
             st_c q = st_c p' /\ st_supply q = st_supply p') /\
  st_get_rated_return p e ti a to None (mkAdminFees bps exch None) = Some out.
Proof.
  intros Hr H. apply st_reachable_wf in Hr. split.
  - eapply (st_swap_indep _ _ _ _ _ _ _ _ _ _ 0 (mkAdminFees bps exch None) true) in H as (p'' & H & ?); eauto; [lia|].
    intros ? ? [=].
  - unfold st_swap in H. unfold st_get_rated_return, st_given_rates.
    apply bind_Some in H as ([] & Hne & H). rewrite Hne. cbn [mbind option_bind].
    apply bind_Some in H as (ix & Hix & H). rewrite Hix. cbn [mbind option_bind].
    apply bind_Some in H as (iy & Hiy & H). rewrite Hiy. cbn [mbind option_bind].
    apply bind_Some in H as ([] & Hval & H).
    apply bind_Some in H as (rates & Hrt & H). rewrite Hrt. cbn [mbind option_bind from_option id].
    apply bind_Some in H as (r & Hsw & H).
    change (st_internal_get_return p (pe_now e) rates ix a iy (mkAdminFees bps exch None))
      with (st_internal_get_return p (pe_now e) rates ix a iy (mkAdminFees bps exch ref)).
    rewrite Hsw. cbn [mbind option_bind].
    apply bind_Some in H as (amt & Hamt & H). rewrite Hamt.
    apply bind_Some in H as ([] & _ & H). apply bind_Some in H as ([] & _ & H). apply bind_Some in H as (c1 & _ & H).
    apply bind_Some in H as (c2 & _ & H). cbv zeta in H.
    apply bind_Some in H as ([] & _ & H). apply bind_Some in H as (p2 & _ & H). now injection H as -> ->.
Qed.
Print Assumptions C13_stable_execution_is_quoted.

Theorem C13_stable_add_is_predicted p e s am mn f f' p' sh :
  st_add_liquidity p e s am mn f false = Some (p', sh) -> admin_fee_bps f' = admin_fee_bps f ->
  st_predict_add p e am None f' = Some sh.
Proof.
  intros H Hb. apply st_add_inv in H as (rates & cam & c' & fee & m & s2 & Hlen & Hr & Hcalc & _).
  unfold st_predict_add, st_given_rates. rewrite ensure_intro by (apply Nat.eqb_eq; done). cbn [mbind option_bind].
  rewrite Hr. cbn [mbind option_bind from_option id]. unfold st_calc_add_liquidity, fees_new in Hcalc |- *. rewrite Hb, Hcalc. done.
Qed.
Print Assumptions C13_stable_add_is_predicted.

Theorem C13_stable_remove_tokens_is_predicted p e s am mx f f' p' burn :
  st_remove_by_tokens p e s am mx f false = Some (p', burn) -> admin_fee_bps f' = admin_fee_bps f ->
  st_predict_remove_by_tokens p e am None f' = Some burn.
Proof.
  intros H Hb. unfold st_remove_by_tokens in H. unfold st_predict_remove_by_tokens, st_given_rates.
  apply bind_Some in H as ([] & _ & H). apply bind_Some in H as (cam & Hcam & H). rewrite Hcam. cbn [mbind option_bind].
  apply bind_Some in H as (c' & Hc' & H). rewrite Hc'. cbn [mbind option_bind].
  apply bind_Some in H as ([] & Hmin & H). rewrite Hmin. cbn [mbind option_bind].
  apply bind_Some in H as ([] & _ & H). apply bind_Some in H as (rates & Hr & H). rewrite Hr. cbn [mbind option_bind from_option id].
  apply bind_Some in H as ([b fee] & Hlp & H). unfold fees_new in *. rewrite Hb, Hlp. cbn [mbind option_bind].
  apply bind_Some in H as (m & _ & H). apply bind_Some in H as (s' & _ & H). cbv zeta in H.
  apply bind_Some in H as (p2 & _ & H). now injection H as -> ->.
Qed.
Print Assumptions C13_stable_remove_tokens_is_predicted.

Theorem C13_stable_remove_shares_is_predicted p s sh mins p' out :
  st_remove_by_shares p s sh mins false = Some (p', out) ->
  exists q, st_remove_by_shares p s sh mins true = Some (q, out) /\ st_c q = st_c p' /\ st_supply q = st_supply p'.
Proof.
  intros H. apply st_remove_shares_inv in H as (c' & m & Hlen & Hred & Hle & -> & _).
  unfold st_remove_by_shares. rewrite ensure_intro by (apply Nat.eqb_eq; done). cbn [mbind option_bind].
  rewrite Hred. cbn [mbind option_bind]. rewrite csub_intro by done. cbn [mbind option_bind]. eexists. split; [reflexivity|].
  done.
Qed.
Print Assumptions C13_stable_remove_shares_is_predicted.

(** ** C16 *)
Theorem C16_add_conserves now p e s am mn f p' sh t :
  st_reachable now p -> st_add_liquidity p e s am mn f false = Some (p', sh) ->
  st_reserve p' t <= st_reserve p t + beside t (st_tokens p) am /\
  (st_dec p t <= kept_decimals (st_kind p) -> st_reserve p' t = st_reserve p t + beside t (st_tokens p) am).
Proof. intros Hr H. apply st_reachable_wf in Hr. eapply st_add_reserve; eauto. Qed.
Print Assumptions C16_add_conserves.

Theorem C16_remove_shares_conserves now p s sh mins p' out t :
  st_reachable now p -> st_remove_by_shares p s sh mins false = Some (p', out) ->
  st_reserve p' t + beside t (st_tokens p) out <= st_reserve p t.
Proof. intros Hr H. apply st_reachable_wf in Hr. eapply st_remove_shares_reserve; eauto. Qed.
Print Assumptions C16_remove_shares_conserves.

(** Withdrawal of given token amounts: the pool can lose at most the part of the amount asked for that is
    below its own precision. *)
Theorem C16_remove_tokens_rounding now p e s am mx f p' burn t :
  st_reachable now p -> st_remove_by_tokens p e s am mx f false = Some (p', burn) ->
  st_reserve p' t + beside t (st_tokens p) am
    <= st_reserve p t + beside t (st_tokens p) am mod 10 ^ (st_dec p t - kept_decimals (st_kind p)).
Proof. intros Hr H. apply st_reachable_wf in Hr. eapply st_remove_tokens_reserve; eauto. Qed.
Print Assumptions C16_remove_tokens_rounding.
(** ... which is nothing when the token has at most the kept decimals or the amount is a whole number of
    kept units. *)
Theorem C16_remove_tokens_conserves_partial now p e s am mx f p' burn t :
  st_reachable now p -> st_remove_by_tokens p e s am mx f false = Some (p', burn) ->
  (st_dec p t <= kept_decimals (st_kind p) \/
   beside t (st_tokens p) am mod 10 ^ (st_dec p t - kept_decimals (st_kind p)) = 0) ->
  st_reserve p' t + beside t (st_tokens p) am <= st_reserve p t.
Proof.
  intros Hr H Hc. pose proof (C16_remove_tokens_rounding _ _ _ _ _ _ _ _ _ t Hr H) as Hle.
  destruct Hc as [Hc|Hc]; [|lia]. rewrite (proj2 (N.sub_0_le _ _) Hc) in Hle. change (10 ^ 0) with 1 in Hle.
  rewrite N.mod_1_r in Hle. lia.
Qed.
Print Assumptions C16_remove_tokens_conserves_partial.

(** Otherwise the statement is false: the contract pays out the raw amounts asked for
    (lib.rs:523-560) but subtracts them rounded down to 18 decimals.  Here the withdrawer of a
    stable pool with a 24-decimals token receives 999999 units of it while the pool's reserve of the
    token does not change at all. *)
Theorem C16_remove_tokens_conserves_refuted :
  exists now p e s am mx f p' burn t,
    st_reachable now p /\ st_kind p = KStable /\ st_remove_by_tokens p e s am mx f false = Some (p', burn) /\
    st_reserve p' t = st_reserve p t /\ beside t (st_tokens p) am = 999999.
Proof.
  destruct (ex_st_pool KStable) as [p|] eqn:Hp; [|exfalso; vm_compute in Hp; discriminate Hp].
  destruct (ex_st_pool_reachable _ _ Hp) as [now Hr].
  destruct (st_remove_by_tokens p (ex_env (5 * DAY)) "alice" [10 ^ 9; 999999; 0] (10 ^ 40) ex_st_fees false)
    as [[p' burn]|] eqn:H.
  - exists now, p, (ex_env (5 * DAY)), "alice", [10 ^ 9; 999999; 0], (10 ^ 40), ex_st_fees, p', burn, "B".
    vm_compute in Hp. injection Hp as <-. split; [exact Hr|]. clear Hr. vm_compute in H. injection H as <- <-.
    split_and!; try (vm_compute; reflexivity).
  - exfalso. vm_compute in Hp. injection Hp as <-. vm_compute in H. discriminate H.
Qed.
Print Assumptions C16_remove_tokens_conserves_refuted.

Theorem C16_swap_conserves now p e ti a to mn f p' out :
  st_reachable now p -> st_swap p e ti a to mn f false = Some (p', out) ->
  st_reserve p' ti <= st_reserve p ti + a /\ st_reserve p' to + out <= st_reserve p to /\
  (forall t, t <> ti -> t <> to -> st_reserve p' t = st_reserve p t).
Proof. intros Hr H. apply st_reachable_wf in Hr. eapply st_swap_reserve; eauto. Qed.
Print Assumptions C16_swap_conserves.

Example C16_ex :
  (p ← ex_st_pre KStable; r ← st_swap p (ex_env (3 * DAY)) "A" 70000000001 "B" 1 ex_st_fees false;
   Some (st_reserve p "A", st_reserve (fst r) "A", st_reserve p "B", st_reserve (fst r) "B", snd r))
  = Some (1500000000000, 1570000000001, 2000000000000000000000000000000,
          1930087140058095703024857000000, 69912859941904296975143000000).
Proof. vm_compute. reflexivity. Qed.

(** ** C17 *)
(** In rated units (identical to kept units for a stable pool): [xr], [yr] are the balances of the
    two tokens, [gross] the output before the trading fee [fee].  However the iterative solver ended,
    the balance left after paying [gross] is on or above the curve. *)
Theorem C17_swap_not_past_curve now p e ti a to mn f v p' out :
  st_reachable now p -> now <= pe_now e -> pe_now e < 2 ^ 64 ->
  st_swap p e ti a to mn f v = Some (p', out) ->
  exists ix iy rates rated ri ro xr yr gross fee D,
    st_tokens p !! ix = Some ti /\ st_tokens p !! iy = Some to /\
    st_get_rates p e = Some rates /\ rates !! ix = Some ri /\ rates !! iy = Some ro /\
    rate_balances (st_c p) rates = Some rated /\ rated !! ix = Some xr /\ rated !! iy = Some yr /\
    st_D p (pe_now e) rates (st_c p) = Some D /\
    gross <= yr /\ fee = gross * st_fee p / FEE_DIVISOR /\ fee <= gross /\
    out = in_token_units (kept_decimals (st_kind p)) (st_dec p to) ((gross - fee) * PRECISION / ro) /\
    (0 < gross ->
     on_or_above_curve (st_get_amp p (pe_now e)) (N.of_nat (length rated)) D
       (xr + in_kept_units (kept_decimals (st_kind p)) (st_dec p ti) a * ri / PRECISION)
       (others ix iy rated) (yr - gross)).
Proof. apply st_swap_curve. Qed.
Print Assumptions C17_swap_not_past_curve.

(** For a stable pool: the recorded balances after the whole trade, with whatever fee was added back,
    are on or above the curve whenever anything was paid out. *)
Theorem C17_stable_reserves_above_curve now p e ti a to mn f v p' out :
  st_reachable now p -> now <= pe_now e -> pe_now e < 2 ^ 64 -> st_kind p = KStable ->
  st_swap p e ti a to mn f v = Some (p', out) -> 0 < out ->
  exists ix iy D,
    st_tokens p !! ix = Some ti /\ st_tokens p !! iy = Some to /\
    st_D p (pe_now e) (map (fun _ => PRECISION) (st_tokens p)) (st_c p) = Some D /\
    on_or_above_curve (st_get_amp p (pe_now e)) (N.of_nat (length (st_tokens p))) D
      (st_kept p' ti) (others ix iy (st_c p)) (st_kept p' to).
Proof. apply st_swap_final_curve. Qed.
Print Assumptions C17_stable_reserves_above_curve.

(** The trade of [C16_ex] at amplification 15: the reserve kept is above the curve; with 0.3
    percent of the traded amount (the fee) less it would lie below. *)
Definition aboveb (A n D x : N) (zs : list N) (y : N) : bool :=
  (Z.of_N (curve_c A n D x zs) <=? Z.of_N y * Z.of_N y + (Z.of_N (curve_b A n D x zs) - Z.of_N D) * Z.of_N y)%Z.
Example C17_ex :
  (p ← ex_st_pre KStable; r ← st_swap p (ex_env (3 * DAY)) "A" 70000000001 "B" 1 ex_st_fees false;
   D ← st_D p (3 * DAY) (map (fun _ => PRECISION) (st_tokens p)) (st_c p);
   let above := aboveb 15 3 D (st_kept (fst r) "A") (others 0 1 (st_c p)) in
   Some (above (st_kept (fst r) "B"), above (st_kept (fst r) "B" - 220 * 10 ^ 18)))
  = Some (true, false).
Proof. vm_compute. reflexivity. Qed.

(** ** C18 *)
(** 10^15 of 18 decimals in a stable pool, 10^21 of 24 decimals in a rated or degen pool. *)
Definition st_floor (k : StableKind) : N := match k with KStable => 10 ^ 15 | KRated | KDegen => 10 ^ 21 end.

Theorem C18_remove_shares_min_reserve now p s sh mins v p' out t :
  st_reachable now p -> st_remove_by_shares p s sh mins v = Some (p', out) -> t ∈ st_tokens p ->
  st_floor (st_kind p) <= st_kept p' t.
Proof.
  intros Hr H Ht. apply st_reachable_wf in Hr. eapply st_remove_shares_min in H; eauto.
Qed.
Print Assumptions C18_remove_shares_min_reserve.

Theorem C18_remove_tokens_min_reserve now p e s am mx f v p' burn t :
  st_reachable now p -> st_remove_by_tokens p e s am mx f v = Some (p', burn) -> t ∈ st_tokens p ->
  st_floor (st_kind p) <= st_kept p' t.
Proof.
  intros Hr H Ht. apply st_reachable_wf in Hr. eapply st_remove_tokens_min in H; eauto.
Qed.
Print Assumptions C18_remove_tokens_min_reserve.

Theorem C18_swap_min_reserve now p e ti a to mn f p' out :
  st_reachable now p -> st_swap p e ti a to mn f false = Some (p', out) ->
  st_floor (st_kind p) <= st_kept p' to.
Proof.
  intros Hr H. apply st_reachable_wf in Hr. apply st_swap_kept in H as (paid & _ & _ & _ & H & _); [|done].
  exact H.
Qed.
Print Assumptions C18_swap_min_reserve.

(** ** C19 *)
Theorem C19_amp_bounded now p t :
  st_reachable now p -> now <= t -> t < 2 ^ 64 ->
  N.min (st_init_amp p) (st_target_amp p) <= st_get_amp p t <= N.max (st_init_amp p) (st_target_amp p) /\
  1 <= st_get_amp p t <= 10 ^ 6.
Proof.
  intros Hr Hle HW. apply st_reachable_amp in Hr. pose proof (st_amp_value now p t [] Hr Hle HW) as HA.
  apply amp_between in HA. cbn [st_curve cv_init cv_target] in HA. split; [done|].
  destruct Hr as (Hi & Ht & _). unfold MIN_AMP, MAX_AMP in *. change (10 ^ 6) with 1000000. lia.
Qed.
Print Assumptions C19_amp_bounded.

(** Every computation of the pool at time [t] uses this value, whatever the rates. *)
Theorem C19_amp_is_used now p t rates :
  st_reachable now p -> now <= t -> t < 2 ^ 64 ->
  compute_amp_factor (st_curve p t rates) = Some (st_get_amp p t).
Proof. intros Hr Hle HW. apply st_reachable_amp in Hr. now apply (st_amp_value now). Qed.
Print Assumptions C19_amp_is_used.

Theorem C19_amp_monotone now p t1 t2 :
  st_reachable now p -> now <= t1 -> t1 <= t2 -> t2 < 2 ^ 64 ->
  (st_init_amp p <= st_target_amp p -> st_get_amp p t1 <= st_get_amp p t2) /\
  (st_target_amp p <= st_init_amp p -> st_get_amp p t2 <= st_get_amp p t1).
Proof.
  intros Hr H1 H2 HW. apply st_reachable_amp in Hr.
  pose proof (st_amp_value now p t1 [] Hr ltac:(lia) ltac:(rewrite W64_pow; lia)) as A1.
  pose proof (st_amp_value now p t2 [] Hr ltac:(lia) ltac:(rewrite W64_pow; lia)) as A2.
  exact (amp_monotone (st_curve p t1 []) t1 t2 _ _ H2 A1 A2).
Qed.
Print Assumptions C19_amp_monotone.

Theorem C19_amp_target_after_stop p t : st_stop_time p <= t -> st_get_amp p t = st_target_amp p.
Proof. intros H. unfold st_get_amp. rewrite amp_after_stop by done. done. Qed.
Print Assumptions C19_amp_target_after_stop.

(** A new ramp starts from the value in force, lasts at least a day, changes the value at most
    tenfold, targets a value below 10^6 and starts at least a day after the previous one. *)
Theorem C19_ramp now p e a t p' :
  st_reachable now p -> now <= pe_now e -> pe_now e < 2 ^ 64 -> st_ramp_amplification p e a t = Some p' ->
  st_init_time p + DAY <= pe_now e /\ pe_now e + DAY <= t /\
  st_get_amp p' (pe_now e) = st_get_amp p (pe_now e) /\
  st_init_amp p' = st_get_amp p (pe_now e) /\ st_target_amp p' = a /\
  st_init_time p' = pe_now e /\ st_stop_time p' = t /\
  1 <= a /\ a < 10 ^ 6 /\ a <= 10 * st_get_amp p (pe_now e) /\ st_get_amp p (pe_now e) <= 10 * a.
Proof.
  intros Hr Hle HW H. pose proof (st_reachable_amp _ _ Hr) as Ha.
  assert (Hr' : st_reachable (pe_now e) p') by (eapply (st_reach_step now p e (StRamp a t)); eauto).
  apply st_reachable_amp in Hr'.
  apply st_ramp_inv in H as (rates & amp & _ & Hamp & Hday & Hdur & H0 & HM & H1 & H2 & Hp').
  rewrite (st_amp_value now p (pe_now e) rates Ha Hle HW) in Hamp. injection Hamp as <-.
  assert (HD : MIN_RAMP_DURATION = DAY) by (vm_compute; reflexivity).
  assert (Hpos : 0 < DAY) by (vm_compute; reflexivity). rewrite HD in *.
  pose proof (st_amp_value (pe_now e) p' (pe_now e) [] Hr' ltac:(lia) HW) as A'.
  assert (E : st_get_amp p' (pe_now e) = st_init_amp p').
  { apply (amp_at_start _ _ A'); subst p'; st_unfold; cbn [st_curve cv_now cv_start cv_stop]; [done|].
    unfold st_set_amp; cbn [st_stop_time]. lia. }
  rewrite E. subst p'. st_unfold. unfold MAX_AMP_CHANGE, MAX_AMP in *. change (10 ^ 6) with 1000000.
  split_and!; auto; lia.
Qed.
Print Assumptions C19_ramp.

Theorem C19_stop_freezes now p e p' t :
  st_reachable now p -> now <= pe_now e -> pe_now e < 2 ^ 64 -> st_stop_ramp p e = Some p' -> pe_now e <= t ->
  st_get_amp p' t = st_get_amp p (pe_now e).
Proof.
  intros Hr Hle HW H Ht. apply st_reachable_amp in Hr. apply st_stop_inv in H as (rates & amp & _ & Hamp & ->).
  rewrite (st_amp_value now p (pe_now e) rates Hr Hle HW) in Hamp. injection Hamp as <-.
  rewrite C19_amp_target_after_stop by (st_unfold; done). done.
Qed.
Print Assumptions C19_stop_freezes.

(** No other operation touches the amplification. *)
Theorem C19_only_ramps_change_amp p e o p' t :
  st_exec p e o = Some p' -> (forall a s, o <> StRamp a s) -> o <> StStopRamp -> st_get_amp p' t = st_get_amp p t.
Proof.
  intros H H1 H2. apply st_exec_frame in H as (_ & _ & _ & H). unfold st_get_amp, st_curve.
  destruct o; try congruence; destruct H as (-> & -> & -> & ->); done.
Qed.
Print Assumptions C19_only_ramps_change_amp.

Lemma st_history_init now p now' p' :
  st_reachable now p -> st_history now p now' p' ->
  st_reachable now' p' /\ st_init_time p <= st_init_time p' /\ now <= now'.
Proof.
  intros Hr. induction 1 as [|now p now1 p1 e o p2 Hh IH Hle HW H]; [split_and!; auto; lia|].
  destruct (IH Hr) as (Hr1 & Hi & Hn).
  split; [eapply st_reach_step; eauto|]. pose proof (st_reachable_amp _ _ Hr1) as Ha.
  apply (st_exec_amp_ok _ _ _ _ _ Ha Hle HW) in H as [_ H]. lia.
Qed.

(** Two successful ramps of the same pool, with anything (including stops) in between, start at
    least a day apart. *)
Theorem C19_ramps_a_day_apart now p e a t p1 now2 p2 e2 a2 t2 p3 :
  st_reachable now p -> now <= pe_now e -> pe_now e < 2 ^ 64 ->
  st_ramp_amplification p e a t = Some p1 -> st_history (pe_now e) p1 now2 p2 ->
  now2 <= pe_now e2 -> st_ramp_amplification p2 e2 a2 t2 = Some p3 ->
  pe_now e + DAY <= pe_now e2.
Proof.
  intros Hr Hle HW H1 Hh Hle2 H2.
  assert (Hr1 : st_reachable (pe_now e) p1) by (eapply (st_reach_step now p e (StRamp a t)); eauto).
  destruct (st_history_init _ _ _ _ Hr1 Hh) as (_ & Hi & _).
  apply st_ramp_inv in H1 as (? & ? & _ & _ & _ & _ & _ & _ & _ & _ & ->).
  apply st_ramp_inv in H2 as (? & ? & _ & _ & Hd & _).
  assert (HD : MIN_RAMP_DURATION = DAY) by (vm_compute; reflexivity). rewrite HD in Hd.
  st_unfold. lia.
Qed.
Print Assumptions C19_ramps_a_day_apart.

(** The ramp of [ex_st_ops] (10 to 20 over two days) half way, and a stop there. *)
Example C19_ex :
  (p ← ex_st_pool KStable; p' ← st_stop_ramp p (ex_env (3 * DAY));
   Some (st_get_amp p (2 * DAY), st_get_amp p (3 * DAY), st_get_amp p (4 * DAY), st_get_amp p' (9 * DAY)))
  = Some (10, 15, 20, 15).
Proof. vm_compute. reflexivity. Qed.

(** ** C20 *)
(** Deposits: the shares minted, to the depositor and as admin fee together, are at most
    [supply * (D1 - D0) / D0]; so the invariant per share never falls. *)
Theorem C20_deposit_shares_bounded p e s am mn f v p' sh :
  st_add_liquidity p e s am mn f v = Some (p', sh) -> 0 < st_supply p -> admin_fee_bps f <= 10000 ->
  exists rates d0 d1,
    st_get_rates p e = Some rates /\ st_D p (pe_now e) rates (st_c p) = Some d0 /\
    st_D p (pe_now e) rates (st_c p') = Some d1 /\ 0 < d0 /\ d0 < d1 /\
    st_supply p' - st_supply p <= st_supply p * (d1 - d0) / d0 /\ sh <= st_supply p' - st_supply p /\
    st_supply p' * d0 <= st_supply p * d1.
Proof. apply st_add_D. Qed.
Print Assumptions C20_deposit_shares_bounded.

(** The first deposit mints exactly D. *)
Theorem C20_first_deposit p e s am mn f v p' sh :
  st_add_liquidity p e s am mn f v = Some (p', sh) -> st_supply p = 0 ->
  exists rates cam,
    st_get_rates p e = Some rates /\ st_amounts_to_c p am = Some cam /\
    st_D p (pe_now e) rates cam = Some sh /\ st_supply p' = sh.
Proof. apply st_add_first. Qed.
Print Assumptions C20_first_deposit.

(** Withdrawals of given amounts: the shares burned, even net of the admin fee shares minted, are at
    least the floor of [supply * (D0 - D1) / D0]. *)
Theorem C20_withdraw_shares_bounded p e s am mx f v p' burn :
  st_remove_by_tokens p e s am mx f v = Some (p', burn) -> admin_fee_bps f <= 10000 ->
  exists rates d0 d1,
    st_get_rates p e = Some rates /\ st_D p (pe_now e) rates (st_c p) = Some d0 /\
    st_D p (pe_now e) rates (st_c p') = Some d1 /\ d1 < d0 /\
    st_supply p * (d0 - d1) / d0 <= burn /\
    st_supply p * (d0 - d1) / d0 <= st_supply p - st_supply p' /\ st_supply p' <= st_supply p.
Proof. apply st_remove_tokens_D. Qed.
Print Assumptions C20_withdraw_shares_bounded.

(** Trades mint shares only for the admin's part of the fee, which is deposited: with [c_mid] the
    balances before that deposit (they differ from the final ones in the outgoing token only) the
    same bound holds. *)
Theorem C20_swap_admin_shares_bounded p e ti a to mn f v p' out :
  st_swap p e ti a to mn f v = Some (p', out) ->
  st_supply p' = st_supply p \/
  exists rates c_mid d0 d1,
    st_get_rates p e = Some rates /\ st_D p (pe_now e) rates c_mid = Some d0 /\
    st_D p (pe_now e) rates (st_c p') = Some d1 /\ 0 < d0 /\ d0 < d1 /\ length c_mid = length (st_c p') /\
    (forall i c, c_mid !! i = Some c -> st_tokens p !! i <> Some to -> st_c p' !! i = Some c) /\
    st_supply p' * d0 <= st_supply p * d1.
Proof. apply st_swap_D. Qed.
Print Assumptions C20_swap_admin_shares_bounded.

Example C20_ex :
  (p ← ex_st_pre KRated; rates ← st_get_rates p (ex_env (3 * DAY));
   r ← st_remove_by_tokens p (ex_env (3 * DAY)) "bob" [10 ^ 9; 3 * 10 ^ 27; 12345678] (10 ^ 40) ex_st_fees false;
   d0 ← st_D p (3 * DAY) rates (st_c p); d1 ← st_D p (3 * DAY) rates (st_c (fst r));
   Some (st_supply p, st_supply (fst r), d0, d1, snd r))
  = Some (4895245164271275017407869021461, 4890656646940049266017770413132,
          4897478547092671762952963318784, 4892890307079235445979189979689,
          4589109751092389983955373265).
Proof. vm_compute. reflexivity. Qed.

(** ** C21 (pool level; PropRates.v relates validity to the oracle timestamps) *)
Theorem C21_swap_needs_fresh_rates p e ti a to mn f v p' out :
  st_kind p <> KStable -> st_swap p e ti a to mn f v = Some (p', out) ->
  forall t, t ∈ st_tokens p -> pe_valid e t = true.
Proof.
  intros Hk H t Ht.
  apply st_swap_inv in H as (? & ? & ? & ? & ? & ? & ? & ? & ? & ? & ? & ? & _ & _ & _ & _ & H & _).
  unfold st_assert_rates_valid in H. destruct (st_kind p); [done| |]; apply ensure_Some in H;
    rewrite forallb_forall in H; apply H; now apply elem_of_list_In.
Qed.
Print Assumptions C21_swap_needs_fresh_rates.

Theorem C21_remove_tokens_needs_fresh_rates p e s am mx f v p' burn :
  st_kind p <> KStable -> st_remove_by_tokens p e s am mx f v = Some (p', burn) ->
  forall t, t ∈ st_tokens p -> pe_valid e t = true.
Proof.
  intros Hk H t Ht.
  apply st_remove_tokens_inv in H as (? & ? & ? & ? & ? & ? & _ & _ & _ & _ & H & _).
  unfold st_assert_rates_valid in H. destruct (st_kind p); [done| |]; apply ensure_Some in H;
    rewrite forallb_forall in H; apply H; now apply elem_of_list_In.
Qed.
Print Assumptions C21_remove_tokens_needs_fresh_rates.

(** Deposits: only the first one into a pool asserts the validity of the rates. *)
Theorem C21_first_deposit_needs_fresh_rates_partial p e s am mn f v p' sh :
  st_kind p <> KStable -> st_supply p = 0 -> st_add_liquidity p e s am mn f v = Some (p', sh) ->
  forall t, t ∈ st_tokens p -> pe_valid e t = true.
Proof.
  intros Hk HS H t Ht.
  apply st_add_inv in H as (rates & cam & c' & fee & m & s2 & _ & _ & Hcalc & _ & Hcam & _).
  unfold st_calc_add_liquidity in Hcalc. rewrite Hcam, HS in Hcalc. cbn [mbind option_bind N.eqb] in Hcalc.
  apply bind_Some in Hcalc as ([] & H & _).
  unfold st_assert_rates_valid in H. destruct (st_kind p); [done| |]; apply ensure_Some in H;
    rewrite forallb_forall in H; apply H; now apply elem_of_list_In.
Qed.
Print Assumptions C21_first_deposit_needs_fresh_rates_partial.

(** Any later deposit goes through with expired rates, in rated and in degen pools. *)
Theorem C21_deposit_needs_fresh_rates_refuted :
  forall k, k <> KStable ->
  exists now p e s am f p' sh,
    st_reachable now p /\ st_kind p = k /\ now <= pe_now e /\ (forall t, pe_valid e t = false) /\
    st_add_liquidity p e s am 1 f false = Some (p', sh).
Proof.
  assert (Hw : forall k, k <> KStable -> exists p0, ex_st_pool0 k = Some p0 /\ st_kind p0 = k /\
    exists p, st_exec p0 (ex_env 1) (StAdd "alice" [10 ^ 12; 10 ^ 30; 10 ^ 30] 0 ex_st_fees) = Some p /\ st_kind p = k /\
    exists p' sh, st_add_liquidity p (ex_env_stale (5 * DAY)) "bob" [10 ^ 12; 0; 0] 1 ex_st_fees false = Some (p', sh)).
  { intros k Hk. destruct k; [done| |]; (eexists; split; [vm_compute; reflexivity|]; split; [vm_compute; reflexivity|];
      eexists; split; [vm_compute; reflexivity|]; split; [vm_compute; reflexivity|];
      do 2 eexists; vm_compute; reflexivity). }
  intros k Hk. destruct (Hw k Hk) as (p0 & H0 & _ & p & Hp & Hpk & p' & sh & H).
  exists 1, p, (ex_env_stale (5 * DAY)), "bob", [10 ^ 12; 0; 0], ex_st_fees, p', sh.
  split_and!; auto; [|done].
  change 1 with (pe_now (ex_env 1)). eapply (st_reach_step 0 p0); [| | |exact Hp]; [|done|done].
  eapply st_reach_new; [| | |exact H0]; [|done|done]. repeat constructor; set_solver.
Qed.
Print Assumptions C21_deposit_needs_fresh_rates_refuted.

(** ** C22 *)
(** In the units in which the pool keeps its balances; [10 ^ (24 - decimals)] kept units are one unit
    of the token (rated and degen pools keep 24 decimals, so nothing is lost in that conversion). *)
Theorem C22_rated_swap_conserves now p e ti a to mn f p' out :
  st_reachable now p -> st_kind p <> KStable -> st_swap p e ti a to mn f false = Some (p', out) ->
  st_kept p' ti <= st_kept p ti + a * 10 ^ (24 - st_dec p ti) /\
  st_kept p' to + out * 10 ^ (24 - st_dec p to) <= st_kept p to /\
  (forall t, t <> ti -> t <> to -> st_kept p' t = st_kept p t).
Proof.
  intros Hr Hk H. apply st_reachable_wf in Hr.
  assert (HT : kept_decimals (st_kind p) = 24) by (now destruct (st_kind p)).
  assert (Hd : forall t, st_dec p t <= 24).
  { intros t. destruct (st_token_cases p t Hr) as [Hn|(i & d & c & Ht & Hd & _)].
    - unfold st_dec. rewrite beside_notin by done. lia.
    - rewrite (st_dec_idx p i t d Hr Ht Hd). destruct Hr as (_ & _ & _ & _ & _ & _ & HF & _).
      rewrite Forall_lookup in HF. specialize (HF _ _ Hd). unfold MAX_DECIMAL in HF. lia. }
  apply st_swap_kept in H as (paid & H1 & H2 & -> & _ & H3); [|done]. rewrite HT in *.
  unfold in_kept_units, in_token_units in *.
  pose proof (Hd ti) as Hti. pose proof (Hd to) as Hto. apply N.leb_le in Hti, Hto. rewrite Hti in H1. rewrite Hto.
  split_and!; auto. etransitivity; [|exact H2]. apply N.add_le_mono_l. apply div_mul_le, pow10_pos.
Qed.
Print Assumptions C22_rated_swap_conserves.

Example C22_ex :
  (p ← ex_st_pre KRated; r ← st_swap p (ex_env (3 * DAY)) "A" 70000000001 "B" 1 ex_st_fees false;
   Some (st_kept p "A", st_kept (fst r) "A", st_kept p "B", st_kept (fst r) "B", snd r))
  = Some (1500000000000000000000000000000, 1570000000001000000000000000000,
          2000000000000000000000000000007, 1941650007032684357189096846535,
          58349992967315642810903153470).
Proof. vm_compute. reflexivity. Qed.
