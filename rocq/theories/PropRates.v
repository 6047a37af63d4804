(** * C21: every price a rated or degen pool trades at comes from a recent oracle answer. *)
From Verif Require Import Base BaseLemmas StableMath StablePool SpecStable StablePoolProofs Rates SpecRates RatesProofs.

(** The stored rate of token [t] in state [s] (whose history is [h]) is usable at time [now]: it is
    the value in an oracle answer received at most 24 hours ago, itself based on data at most five
    minutes old where the answer is dated. *)
Definition recent_rate (h : list (N * rate_event)) (s : RateState) (now : N) (t : AccountId) : Prop :=
  match rs_rates s !! t with
  | None => True (* an unrated token: rate 1 *)
  | Some r => exists a at_, (at_, EvRateAnswer t a) ∈ h /\ good_rate_answer t a at_ (rt_rate r) /\
                now <= at_ + 24 * 3600 * 10 ^ 9
  end.

(** Same for a degen token: the price is what some answer said, within the limits configured when
    it arrived, and it arrived at most the currently configured expiry ago. *)
Definition recent_degen (h : list (N * rate_event)) (s : RateState) (now : N) (t : AccountId) : Prop :=
  exists d price at_ ev h1 h2 s0, rs_degens s !! t = Some d /\ dg_info d = Some (price, at_) /\
    h = h2 ++ (at_, ev) :: h1 /\ rate_history h1 s0 /\ good_degen_event s0 t ev at_ price /\
    match dg_src d with
    | DPriceOracle _ => exists c, rs_price_cfg s = Some c /\ now <= at_ + poc_expire c
    | DPyth _ => exists c, rs_pyth_cfg s = Some c /\ now <= at_ + pyc_expire c
    end.

Definition recent (k : StableKind) := match k with KDegen => recent_degen | _ => recent_rate end.

Lemma rate_valid_recent h s now t :
  rate_history h s -> 24 * 3600 * 10 ^ 9 < now ->
  pe_valid (rs_pool_env s now KRated) t = true -> recent_rate h s now t.
Proof.
  intros Hh Hnow H. cbn in H. unfold recent_rate. destruct (rs_rates s !! t) as [r|] eqn:Hr; [|done].
  apply (rates_provenance h s Hh) in Hr as (_ & _ & Hor). unfold rate_are_actual in H.
  destruct (cadd W64 (rt_at r) RATE_EXPIRE_TS) as [x|] eqn:Hx; [|done]. apply cadd_Some in Hx as [-> _].
  apply N.leb_le in H. change RATE_EXPIRE_TS with (24 * 3600 * 10 ^ 9) in H.
  destruct Hor as [[E _]|(a & Ha & Hg)]; [exfalso; lia|].
  exists a, (rt_at r). auto.
Qed.

Lemma degen_valid_recent h s now t :
  rate_history h s -> pe_valid (rs_pool_env s now KDegen) t = true -> recent_degen h s now t.
Proof.
  intros Hh H. cbn in H. unfold recent_degen. destruct (rs_degens s !! t) as [d|] eqn:Hd; [|done].
  pose proof (degens_provenance h s Hh _ _ Hd) as (_ & Hinfo). unfold degen_is_price_valid in H.
  destruct (degen_expire s d) as [ex|] eqn:Hex; [|done]. destruct (dg_info d) as [[price at_]|] eqn:Hi; [|done].
  destruct (cadd W64 at_ ex) as [x|] eqn:Hx; [|done]. apply cadd_Some in Hx as [-> _]. apply N.leb_le in H.
  destruct (Hinfo _ _ eq_refl) as (ev & h1 & h2 & s0 & -> & Hh1 & Hg).
  exists d, price, at_, ev, h1, h2, s0. split_and!; auto.
  unfold degen_expire in Hex. destruct (dg_src d); apply fmap_Some in Hex as (c & Hc & ->); eauto.
Qed.

Lemma assert_valid_recent h s now p :
  rate_history h s -> 24 * 3600 * 10 ^ 9 < now -> st_kind p <> KStable ->
  st_assert_rates_valid p (rs_pool_env s now (st_kind p)) = Some tt ->
  forall t, t ∈ st_tokens p -> recent (st_kind p) h s now t.
Proof.
  intros Hh Hnow Hk H t Ht. unfold st_assert_rates_valid in H.
  assert (Hv : st_kind p = KStable \/ pe_valid (rs_pool_env s now (st_kind p)) t = true).
  { destruct (st_kind p); [auto| |]; right; apply ensure_Some in H; rewrite forallb_forall in H;
      apply H; now apply elem_of_list_In. }
  destruct Hv as [Hv|Hv]; [done|].
  destruct (st_kind p); [done| |]; [now apply rate_valid_recent|now apply degen_valid_recent].
Qed.

Theorem C21_swap_prices_recent h s now p ti a to mn f v p' out :
  rate_history h s -> 24 * 3600 * 10 ^ 9 < now -> st_kind p <> KStable ->
  st_swap p (rs_pool_env s now (st_kind p)) ti a to mn f v = Some (p', out) ->
  forall t, t ∈ st_tokens p -> recent (st_kind p) h s now t.
Proof.
  intros Hh Hnow Hk H. apply st_swap_inv in H as (? & ? & ? & ? & ? & ? & ? & ? & ? & ? & ? & ? & _ & _ & _ & _ & Hv & _).
  now apply assert_valid_recent.
Qed.
Print Assumptions C21_swap_prices_recent.

Theorem C21_remove_tokens_prices_recent h s now p u am mx f v p' burn :
  rate_history h s -> 24 * 3600 * 10 ^ 9 < now -> st_kind p <> KStable ->
  st_remove_by_tokens p (rs_pool_env s now (st_kind p)) u am mx f v = Some (p', burn) ->
  forall t, t ∈ st_tokens p -> recent (st_kind p) h s now t.
Proof.
  intros Hh Hnow Hk H. apply st_remove_tokens_inv in H as (? & ? & ? & ? & ? & ? & _ & _ & _ & _ & Hv & _).
  now apply assert_valid_recent.
Qed.
Print Assumptions C21_remove_tokens_prices_recent.

(** Missing for deposits: only the first deposit checks (C21_deposit_needs_fresh_rates_refuted). *)
Theorem C21_first_deposit_prices_recent_partial h s now p u am mn f v p' sh :
  rate_history h s -> 24 * 3600 * 10 ^ 9 < now -> st_kind p <> KStable -> st_supply p = 0 ->
  st_add_liquidity p (rs_pool_env s now (st_kind p)) u am mn f v = Some (p', sh) ->
  forall t, t ∈ st_tokens p -> recent (st_kind p) h s now t.
Proof.
  intros Hh Hnow Hk Hs H.
  assert (Hv : st_assert_rates_valid p (rs_pool_env s now (st_kind p)) = Some tt).
  { unfold st_add_liquidity in H. apply bind_Some in H as ([] & _ & H).
    apply bind_Some in H as (rates & _ & H). apply bind_Some in H as ([x y] & H & _).
    unfold st_calc_add_liquidity in H. apply bind_Some in H as (c & _ & H). rewrite Hs in H. cbn [N.eqb] in H.
    apply bind_Some in H as ([] & ? & _). done. }
  now apply assert_valid_recent.
Qed.
Print Assumptions C21_first_deposit_prices_recent_partial.

(** Every price in the store has a source, whatever the interleaving of registrations,
    reconfigurations and answers. *)
Theorem C21_stored_rate_has_source h s t r :
  rate_history h s -> rs_rates s !! t = Some r ->
  rt_at r = 0 /\ rt_rate r = 10 ^ 24 \/
  exists a, (rt_at r, EvRateAnswer t a) ∈ h /\ good_rate_answer t a (rt_at r) (rt_rate r).
Proof. intros Hh Hr. now apply (rates_provenance h s Hh) in Hr as (_ & _ & H). Qed.
Print Assumptions C21_stored_rate_has_source.

Theorem C21_stored_degen_price_has_source h s t d price at_ :
  rate_history h s -> rs_degens s !! t = Some d -> dg_info d = Some (price, at_) ->
  exists ev h1 h2 s0, h = h2 ++ (at_, ev) :: h1 /\ rate_history h1 s0 /\ good_degen_event s0 t ev at_ price.
Proof. intros Hh Hd. apply (degens_provenance h s Hh) in Hd as (_ & H). apply H. Qed.
Print Assumptions C21_stored_degen_price_has_source.

(** A history with all kinds of answers; a rated and a degen pool trade in the resulting state and
    stop trading when the prices expire. *)
Definition ex_now : N := 1700000000 * 10 ^ 9.
Definition ex_rate_events : list (N * rate_event) :=
  [ (ex_now + 9, EvBatchPyth [("p", ["eth"])] {[ "p" := mkPythPrice 2100 (-3) 1699999990 ]});
    (ex_now + 8, EvBatchPrices {[ "usn" := 6 ]} (mkPriceData ex_now 90 [("usn", Some (mkOPrice 9999 10)); ("x", None)]));
    (ex_now + 7, EvDegenAnswer "eth" (DAnsPyth (mkPythPrice 2 3 1699999990)));
    (ex_now + 6, EvDegenAnswer "usn" (DAnsPrices (mkPriceData ex_now 90 [("usn", Some (mkOPrice 10001 10))])));
    (ex_now + 5, EvRateAnswer "frx" (AnsPrices (mkPriceData ex_now 90 [("frax", Some (mkOPrice 100 20)); ("frx", Some (mkOPrice 104 20))])));
    (ex_now + 4, EvRateAnswer "stn" (AnsU128 (12 * 10 ^ 23)));
    (ex_now + 3, EvRegisterDegen "eth" (DPyth "p"));
    (ex_now + 2, EvRegisterDegen "usn" (DPriceOracle 6));
    (ex_now + 2, EvRegisterConfig (CfgPyth (mkPythOracleConfig "pyth" (3600 * 10 ^ 9) 60)));
    (ex_now + 1, EvRegisterConfig (CfgPrice (mkPriceOracleConfig "po" (3600 * 10 ^ 9) 90 60)));
    (ex_now, EvRegisterRate (RSfrax (SfraxPriceOracle "po" "frax" 90 60)) "frx");
    (ex_now, EvRegisterRate RStnear "stn") ].
Fixpoint rate_replay (h : list (N * rate_event)) : option RateState :=
  match h with
  | [] => Some rs_empty
  | (now, ev) :: r => s ← rate_replay r; _ ← ensure (forallb (fun x => fst x <=? now) r); rate_exec s now ev
  end.
Definition ex_rate_state : RateState := default rs_empty (rate_replay ex_rate_events).

Lemma rate_replay_history h s : rate_replay h = Some s -> rate_history h s.
Proof.
  revert s. induction h as [|[n ev] h IH]; intros s H; cbn [rate_replay] in H.
  - injection H as <-. constructor.
  - apply bind_Some in H as (s1 & H1 & H). apply bind_Some in H as ([] & Ht & H). apply ensure_Some in Ht.
    rewrite forallb_forall in Ht. econstructor; eauto.
    apply Forall_forall. intros x Hx. apply N.leb_le, Ht. now apply elem_of_list_In.
Qed.

Example ex_rate_history : rate_history ex_rate_events ex_rate_state.
Proof. apply rate_replay_history. vm_compute. reflexivity. Qed.

Definition ex_trade (k : StableKind) (tokens : list AccountId) (now : N) : option (N * N) :=
  let e t := rs_pool_env ex_rate_state t k in
  let f := mkAdminFees 1000 "ref" None in
  p ← st_new k tokens [18; 18] 240 5;
  '(p, sh) ← st_add_liquidity p (e (ex_now + 10)) "lp" [10 ^ 22; 10 ^ 22] 1 f false;
  '(_p, out) ← st_swap p (e now) (default "" (tokens !! 0%nat)) (10 ^ 19) (default "" (tokens !! 1%nat)) 1 f false;
  Some (sh, out).
(** Rates 1.2 and 1.04; both pools trade now and refuse to trade once a price has expired. *)
Example C21_ex_rated :
  (fmap rt_rate (rs_rates ex_rate_state !! "stn"), fmap rt_rate (rs_rates ex_rate_state !! "frx")) =
    (Some (12 * 10 ^ 23), Some (104 * 10 ^ 22)) /\
  (exists r, ex_trade KRated ["stn"; "frx"] (ex_now + 100) = Some r ) /\
  ex_trade KRated ["stn"; "frx"] (ex_now + 24 * 3600 * 10 ^ 9 + 5) = None.
Proof. split; [vm_compute; reflexivity|]. split; [eexists; vm_compute; reflexivity|vm_compute; reflexivity]. Qed.
Example C21_ex_degen :
  (mbind dg_info (rs_degens ex_rate_state !! "usn"), mbind dg_info (rs_degens ex_rate_state !! "eth")) =
    (Some (9999 * 10 ^ 20, ex_now + 8), Some (21 * 10 ^ 23, ex_now + 9)) /\
  (exists r, ex_trade KDegen ["usn"; "eth"] (ex_now + 100) = Some r ) /\
  ex_trade KDegen ["usn"; "eth"] (ex_now + 3600 * 10 ^ 9 + 9) = None.
Proof. split; [vm_compute; reflexivity|]. split; [eexists; vm_compute; reflexivity|vm_compute; reflexivity]. Qed.

(** The premise [py_publish p < 2 ^ 32] in [published_within] is needed: the contract truncates the
    i64 publication time to 32 bits, so a price dated far in the future can be rejected as stale
    and one dated 2^32 seconds later than another is treated the same. *)
Example C21_ex_truncated :
  pyth_is_valid (mkPythPrice 1 0 (2 ^ 32)) ex_now 60 = Some false /\
  pyth_is_valid (mkPythPrice 1 0 (2 ^ 32 + 1700000000)) ex_now 60 = Some true.
Proof. split; vm_compute; reflexivity. Qed.
