(** * C21 over histories of the exchange: its stored prices are made by oracle answers and calls about rates alone *)
From Verif Require Import Base BaseLemmas StablePool Rates SpecRates RatesProofs PropRates Account Pool Exchange SpecExchange
  ExchangeProofs ExchangeInv ExchangeEffect ExchangeFrames SpecWorld WorldProofs ExExample SpecSwap SpecHistory HistoryProofs
  SpecAccess AccessProofs SpecSettings PropSettings.

(** Spec: what happened to the exchange, newest first, and what of it concerns prices. *)
Inductive w_trace (w0 : World) : list Event -> World -> Prop :=
| wt_nil : w_trace w0 [] w0
| wt_step l w ev w' : w_trace w0 l w -> w_step w ev = Some w' -> w_trace w0 (ev :: l) w'.
Definition rate_part (ev : Event) : option (N * rate_event) :=
  match ev with
  | EvCall e (CRateAdmin a) => Some (e_now e,
      match a with
      | RegisterRate k t => EvRegisterRate k t
      | UnregisterRate t => EvUnregisterRate t
      | UpdateRateExtra t i => EvExtraInfo t i
      | RegisterDegen t src => EvRegisterDegen t src
      | UpdateDegen t src => EvUpdateDegen t src
      | UnregisterDegen t => EvUnregisterDegen t
      | RegisterConfig k => EvRegisterConfig k
      | UnregisterConfig key => EvUnregisterConfig key
      | UpdateConfig k => EvUpdateConfig k
      end)
  | EvOracle now a => Some (now,
      match a with
      | OaRate t x => EvRateAnswer t x
      | OaDegen t x => EvDegenAnswer t x
      | OaBatchPrice decs pd => EvBatchPrices decs pd
      | OaBatchPyth ids prices => EvBatchPyth ids prices
      end)
  | _ => None
  end.

Lemma trace_reach w0 l w : w_trace w0 l w -> w_reach w0 w.
Proof. induction 1; [apply w_reach_refl|eapply w_reach_step; eauto]. Qed.
Lemma reach_trace w0 w : w_reach w0 w -> exists l, w_trace w0 l w.
Proof. induction 1 as [|w ev w' _ [l IH] H]; [exists []; apply wt_nil|exists (ev :: l); eapply wt_step; eauto]. Qed.

(** An event that does not concern prices keeps all of them. *)
Lemma call_rates c e x c' ps : ex_call c e x = Some (c', ps) -> (forall a, x <> CRateAdmin a) -> ex_rates c' = ex_rates c.
Proof.
  intros H Hn. destruct (is_settings x) eqn:Es; [|apply ex_call_settings in H as (_ & -> & _); done].
  destruct x; try discriminate Es; try (exfalso; eapply Hn; reflexivity); clear Es; cbn [ex_call] in H; try (apply quiet_inv in H as [H ->]); open_call H.
  all: repeat match type of H with
       | mbind _ _ = Some _ => let y := fresh "y" in let Hy := fresh "Hy" in apply bind_Some in H as (y & Hy & H)
       | (if ?b then _ else _) = Some _ => destruct b
       end; first [injection H as <- _|injection H as <-]; reflexivity.
Qed.
Lemma fail_rates c e s t x c' : ex_handle_fail c e s t x = Some c' -> ex_rates c' = ex_rates c.
Proof. intros H. apply ex_handle_fail_inv in H. now pose proof (recredit_settings _ _ _ _ _ _ H) as (_ & B & _). Qed.
Lemma other_rates w ev w' : w_step w ev = Some w' -> rate_part ev = None -> ex_rates (w_ex w') = ex_rates (w_ex w).
Proof.
  intros H Hn. destruct (call_of_dec ev) as [(e & x & ->)|_].
  { apply w_call_inv in H as (ps & H & _). eapply call_rates; [exact H|]. intros a ->. discriminate Hn. }
  unfold w_step in H. cbv zeta in H. destruct ev; try discriminate Hn.
  - bnd H u Hu. bnd H u' Hu'. bnd H q Hq'. destruct q as [c' ps].
    injection H as <-. destruct (w_queue_ex w c' (w_hold w) (w_flights w) ps (e_now e)) as (-> & _). eapply call_rates; [exact Hq'|]. intros a ->. discriminate Hn.
  - bnd H u Hu. now injection H as <-.
  - bnd H u Hu. bnd H f Hf. destruct f as [t s x msg| |]; try discriminate H.
    bnd H u' Hu'. destruct (ex_ft_on_transfer _ _ _ _ _) as [[c' ps]|] eqn:E; [|now injection H as <-].
    injection H as <-. destruct (w_queue_ex w c' (w_hold w) (delete id (w_flights w)) ps (e_now e)) as (-> & _).
    now pose proof (ex_ft_on_transfer_settings _ _ _ _ _ _ _ E) as (_ & B & _).
  - bnd H u Hu. now injection H as <-.
  - bnd H f Hf. destruct f as [|p|]; try discriminate H. destruct p; try discriminate H; bnd H u Hu; now injection H as <-.
  - bnd H u Hu. bnd H f Hf. destruct f as [| |p ok]; try discriminate H.
    destruct p; try discriminate H; injection H as <-; cbn [w_ex]; try reflexivity.
    + destruct (ex_callback_withdraw _ _ _ _ _ _) eqn:E; cbn; [|done]. unfold ex_callback_withdraw in E. destruct ok; [now injection E as <-|].
      eapply fail_rates; eauto.
    + destruct (ex_callback_withdraw _ _ _ _ _ _) eqn:E; cbn; [|done]. unfold ex_callback_withdraw in E. destruct ok; [now injection E as <-|].
      eapply fail_rates; eauto.
    + destruct (ex_callback_near _ _ _ _ _) as [q|] eqn:E; cbn; [|done]. unfold ex_callback_near in E. destruct ok; [now injection E as <-|].
      bnd E t Ht. bnd E c1 H1. injection E as <-. cbn [fst]. eapply fail_rates; eauto.
  - bnd H u Hu. bnd H f Hf. destruct f as [|p|]; try discriminate H.
    destruct p; try discriminate H; injection H as <-; cbn [w_ex]; try reflexivity.
    destruct (ex_mft_resolve _ _ _ _ _ _) eqn:E; cbn; [|done].
    apply ex_mft_resolve_inv in E as [[-> _]|(bal & _ & _ & _ & E)]; [done|].
    now pose proof (ex_mft_transfer_settings _ _ _ _ _ _ _ E) as (_ & B & _).
  - bnd H u Hu. bnd H f Hf. destruct f as [|p|]; try discriminate H.
    destruct p; try discriminate H; injection H as <-; cbn [w_ex]; try reflexivity.
    destruct (ex_callback_shadow _ _ _ _ _ _ _ _) as [[c' ps]|] eqn:E; cbn; [|done].
    apply ex_callback_shadow_inv in E as [(_ & _ & -> & _)|[(_ & _ & _ & acc & acc1 & _ & _ & _ & ->)|(_ & acc & acc1 & _ & _ & _ & -> & _)]]; done.
  - bnd H u Hu. bnd H q Hq'. destruct q as [c' ps].
    injection H as <-. destruct (w_queue_ex w c' (w_hold w) (w_flights w) ps (e_now e)) as (-> & _).
    now pose proof (ex_ft_on_transfer_settings _ _ _ _ _ _ _ Hq') as (_ & B & _).
  - now injection H as <-.
Qed.
(** One that does acts on them as the rate event it is, at its time. *)
Lemma rate_step w ev w' now x : w_step w ev = Some w' -> rate_part ev = Some (now, x) ->
  rate_exec (ex_rates (w_ex w)) now x = Some (ex_rates (w_ex w')) /\ w_now w <= now /\ w_now w' = now.
Proof.
  intros H Hp. destruct ev as [e y| | | | | | | |now' a| |]; try discriminate Hp.
  - destruct y; try discriminate Hp. apply w_call_inv in H as (ps & H & Hle & _ & Hn). cbn [rate_part] in Hp. injection Hp as <- <-.
    split; [|done]. cbn [ex_call] in H. apply quiet_inv in H as [H ->]. unfold ex_rate_admin in H. bnd H u Hu. bnd H s Hs. injection H as H.
    rewrite <- H. cbn [ex_set_rates ex_rates]. now destruct a.
  - cbn [rate_part] in Hp. injection Hp as <- <-. unfold w_step in H. cbv zeta in H. bnd H u Hu. apply next_time_inv in Hu as [Hn _].
    bnd H c' Hc'. injection H as <-. cbn [w_ex w_now]. split; [|done]. unfold ex_oracle in Hc'. bnd Hc' s Hs. injection Hc' as <-.
    cbn [ex_set_rates ex_rates]. now destruct a.
Qed.

(** From a deployment without prices, the prices stored by the exchange are those made, in order, by the answers of
    oracles and the calls about rates among everything that happened to it. *)
Lemma trace_rates w0 l w : ex_rates (w_ex w0) = rs_empty -> w_trace w0 l w ->
  rate_history (omap rate_part l) (ex_rates (w_ex w)) /\ Forall (fun x => fst x <= w_now w) (omap rate_part l).
Proof.
  intros H0 H. induction H as [|l w ev w' Ht [IH IF] H]; [rewrite H0; split; constructor|].
  cbn [omap list_omap]. pose proof (w_step_happens _ _ _ H) as [Hle _]. destruct (rate_part ev) as [[now x]|] eqn:E.
  - destruct (rate_step _ _ _ _ _ H E) as (Hx & A & B).
    assert (F : Forall (fun y => fst y <= now) (omap rate_part l)) by (eapply Forall_impl; [exact IF|]; cbn; intros y Hy; lia).
    split; [eapply rh_step; [exact IH|exact F|exact Hx]|]. constructor; [cbn; lia|]. eapply Forall_impl; [exact F|]; cbn; intros y Hy; lia.
  - rewrite (other_rates _ _ _ H E). split; [exact IH|]. eapply Forall_impl; [exact IF|]; cbn; intros y Hy; lia.
Qed.
Theorem C21_exchange_history w0 l w : ex_rates (w_ex w0) = rs_empty -> w_trace w0 l w ->
  rate_history (omap rate_part l) (ex_rates (w_ex w)).
Proof. intros H0 H. now destruct (trace_rates _ _ _ H0 H). Qed.
Print Assumptions C21_exchange_history.

(** So every rate stored is the one of registration or what an answer delivered to the exchange said at the time
    stored with it. *)
Theorem C21_exchange_rate w0 l w t r : ex_rates (w_ex w0) = rs_empty -> w_trace w0 l w ->
  rs_rates (ex_rates (w_ex w)) !! t = Some r ->
  rt_at r = 0 /\ rt_rate r = 10 ^ 24 \/
  exists a, EvOracle (rt_at r) (OaRate t a) ∈ l /\ good_rate_answer t a (rt_at r) (rt_rate r).
Proof.
  intros H0 H Hr. destruct (C21_stored_rate_has_source _ _ _ _ (C21_exchange_history _ _ _ H0 H) Hr) as [?|(a & Ha & Hg)]; [now left|right].
  exists a. split; [|done]. apply elem_of_list_omap in Ha as (ev & Hev & E). destruct ev as [e y| | | | | | | |now' b| |]; try discriminate E.
  - destruct y; try discriminate E. cbn [rate_part] in E. destruct a0; discriminate E.
  - cbn [rate_part] in E. destruct b; try discriminate E. injection E as <- <- <-. exact Hev.
Qed.
Print Assumptions C21_exchange_rate.

Lemma rate_history_fun h : forall s s', rate_history h s -> rate_history h s' -> s = s'.
Proof.
  induction h as [|x h IH]; intros s s' H H'; inversion H; inversion H'; subst; [done|].
  match goal with A : (_, _) = (_, _) |- _ => injection A as ? ?; subst | _ => idtac end.
  match goal with A : rate_history h ?a, B : rate_history h ?b |- _ => pose proof (IH _ _ A B); subst end. congruence.
Qed.
(** ... and every price of a degen token is what an answer said when it arrived, within the limits set at that moment. *)
Theorem C21_exchange_degen w0 l w t d price at_ : ex_rates (w_ex w0) = rs_empty -> w_trace w0 l w ->
  rs_degens (ex_rates (w_ex w)) !! t = Some d -> dg_info d = Some (price, at_) ->
  exists a ev l1 l2 w1, l = l2 ++ EvOracle at_ a :: l1 /\ w_trace w0 l1 w1 /\
    rate_part (EvOracle at_ a) = Some (at_, ev) /\ good_degen_event (ex_rates (w_ex w1)) t ev at_ price.
Proof.
  intros H0 H Hd Hi.
  destruct (C21_stored_degen_price_has_source _ _ _ _ _ _ (C21_exchange_history _ _ _ H0 H) Hd Hi) as (ev & h1 & h2 & s0 & Hh & Hh1 & Hg).
  clear Hd Hi. revert h2 Hh. induction H as [|l w x w' Ht IH H]; intros h2 Hh; [destruct h2; discriminate Hh|].
  cbn [omap list_omap] in Hh. destruct (rate_part x) as [y|] eqn:E.
  - destruct h2 as [|z h2].
    + cbn [app] in Hh. injection Hh as -> Hl.
      assert (Hs : s0 = ex_rates (w_ex w)).
      { eapply rate_history_fun; [exact Hh1|]. rewrite <- Hl. now apply (C21_exchange_history w0). }
      assert (Ho : exists a, x = EvOracle at_ a).
      { destruct x as [e q| | | | | | | |now' b| |]; try discriminate E.
        - destruct q; try discriminate E. cbn [rate_part] in E. injection E as _ <-. destruct a; destruct Hg.
        - cbn [rate_part] in E. injection E as -> _. eauto. }
      destruct Ho as [a ->]. exists a, ev, l, [], w. rewrite <- Hs. done.
    + cbn [app] in Hh. injection Hh as -> Hl. destruct (IH h2 Hl) as (a & ev1 & l1 & l2 & w1 & -> & K).
      exists a, ev1, l1, (x :: l2), w1. split; [done|exact K].
  - destruct (IH h2 Hh) as (a & ev1 & l1 & l2 & w1 & -> & K). exists a, ev1, l1, (x :: l2), w1. split; [done|exact K].
Qed.
Print Assumptions C21_exchange_degen.

(** A swap through a pool of rated or degen tokens of the exchange is priced by answers that are recent when it happens. *)
Lemma twap_keeps c e pid c1 : ex_update_twap c e pid = Some c1 -> ex_pools c1 = ex_pools c /\ ex_rates c1 = ex_rates c.
Proof.
  unfold ex_update_twap. intros H.
  repeat match type of H with
  | mbind _ _ = Some _ => let y := fresh "y" in let Hy := fresh "Hy" in apply bind_Some in H as (y & Hy & H)
  | match ?b with _ => _ end = Some _ => destruct b
  end; try discriminate H; injection H as <-; done.
Qed.
Theorem C21_exchange_swap w0 l w e pid p ti a to mn r c' out : ex_rates (w_ex w0) = rs_empty -> w_trace w0 l w ->
  ex_pool (w_ex w) pid = Some (PStable p) -> st_kind p <> KStable -> 24 * 3600 * 10 ^ 9 < e_now e ->
  ex_pool_swap (w_ex w) e pid ti a to mn r = Some (c', out) ->
  forall t, t ∈ st_tokens p -> recent (st_kind p) (omap rate_part l) (ex_rates (w_ex w)) (e_now e) t.
Proof.
  intros H0 H Hp Hk Hn Hs. unfold ex_pool_swap in Hs. bnd Hs c1 Hc1. apply twap_keeps in Hc1 as [E1 E2].
  bnd Hs q Hq. unfold ex_pool in Hp, Hq. rewrite E1, Hp in Hq. injection Hq as <-. bnd Hs z Hz. rewrite E2 in Hz.
  cbn [pl_swap] in Hz. bnd Hz y Hy. destruct y as [q' o]. unfold pl_env in Hy.
  eapply C21_swap_prices_recent; [eapply C21_exchange_history; eauto|done|done|exact Hy].
Qed.
Print Assumptions C21_exchange_swap.

Lemma w_run_trace w0 es : forall l w w', w_trace w0 l w -> w_run w es = Some w' -> w_trace w0 (rev es ++ l) w'.
Proof.
  induction es as [|ev es IH]; intros l w w' H E; cbn [w_run] in E; [now injection E as <-|].
  bnd E w1 H1. cbn [rev]. rewrite <- app_assoc. eapply IH; [|exact E]. eapply wt_step; eauto.
Qed.
(** The owner registers a token with a rate; the rate stored is the last answer, and answers for other tokens are void. *)
Definition rate_events : list Event :=
  [ EvCall (env 101 "own" 1) (CRateAdmin (RegisterRate RStnear "stn")); EvCall (env 102 "own" 1) (CExtendWhitelist ["stn"]);
    EvOracle 103 (OaRate "stn" (AnsU128 (11 * 10 ^ 23))); EvOracle 104 (OaRate "zz" (AnsU128 5));
    EvOracle 105 (OaRate "stn" (AnsU128 (12 * 10 ^ 23))) ].
Example C21_exchange_ex :
  exists w, w_trace w_fresh (rev rate_events ++ []) w /\ ex_rates (w_ex w_fresh) = rs_empty /\
    (fun r => (rt_rate r, rt_at r)) <$> rs_rates (ex_rates (w_ex w)) !! "stn" = Some (12 * 10 ^ 23, 105) /\
    length (omap rate_part (rev rate_events ++ [])) = 4%nat.
Proof.
  assert (H : (fun w => (fun r => (rt_rate r, rt_at r)) <$> rs_rates (ex_rates (w_ex w)) !! "stn") <$> w_run w_fresh rate_events
              = Some (Some (12 * 10 ^ 23, 105))) by (vm_compute; reflexivity).
  apply fmap_Some in H as (w & E & H). exists w. split; [eapply w_run_trace; [apply wt_nil|exact E]|].
  split; [vm_compute; reflexivity|]. split; [exact (eq_sym H)|vm_compute; reflexivity].
Qed.
