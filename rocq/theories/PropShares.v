(** * C32 share transfers, C33 shadow-staked shares are locked, C34 liquidation *)
From Verif Require Import PropSimple PropStable.
From Verif Require Import Base BaseLemmas SimplePool SimplePoolProofs SpecSimple SimplePoolInv StableMath StablePool
  SpecStable StablePoolProofs StablePoolInv Rates Echo Twap Account Pool Exchange SpecExchange AccountProofs PoolFacts
  ExchangeProofs ExchangeInv ExchangeEffect ExchangeFrames SpecWorld WorldProofs ExExample PropWorld SpecSwap SwapProofs PropSwap
  SpecHistory HistoryProofs.

(** ** C32 *)
Lemma pl_transfer_holders p s r x p' : pl_share_transfer p s r x = Some p' -> pl_holder p s /\ pl_holder p r.
Proof.
  intros H. destruct p as [q|q]; cbn [pl_share_transfer pl_holder] in *; apply fmap_Some in H as (q' & H & _).
  - apply sp_transfer_inv in H as (b & bo & Hb & _ & Hr & _). split; [eauto|]. destruct (decide (s = r)) as [<-|]; [eauto|]. rewrite lookup_insert_ne in Hr by done. eauto.
  - apply st_transfer_inv in H as (b & bo & Hb & _ & Hr & _). split; [eauto|]. destruct (decide (s = r)) as [<-|]; [eauto|]. rewrite lookup_insert_ne in Hr by done. eauto.
Qed.
(** internal_mft_transfer moves exactly [x] between two different accounts and changes no other balance and no supply. *)
Lemma mft_transfer_moved now c id s r am c' x :
  ex_wf now c -> ex_mft_transfer c id s r am = Some (c', x) ->
  s <> r /\ (forall y, am = Some y -> x = y) /\ mft_moved c c' id s r x /\
  match mft_pool_of id with
  | Some pid => 0 < x /\ x <= shares_at c pid s /\ exists p, ex_pool c pid = Some p /\ pl_holder p s /\ pl_holder p r
  | None => x <= held_by c s id /\ is_Some (ex_account c r)
  end.
Proof.
  intros Hwf H. apply ex_mft_transfer_inv in H as (Hne & Hy & H). split; [done|]. split; [done|]. unfold mft_moved. destruct (mft_pool_of id) as [pid|].
  - destruct H as (p & p' & Hp & Hx & Hu & Ht & ->). pose proof (pl_transfer_holders _ _ _ _ _ Ht) as [Hs Hr].
    apply (pl_transfer_spec p no_rates 0) in Ht as (_ & Hle & Hres & Hsh & Hsup); [|done].
    split; [|split; [done|]; rewrite (shares_pool _ _ _ _ Hp); split; [done|]; eauto]. split; [|split; [|split]].
    + intros q a. rewrite shares_put by eauto. rewrite (N.eqb_sym q pid). destruct (N.eqb_spec pid q) as [E|]; [subst q|lia].
      rewrite (shares_pool _ _ _ _ Hp). apply Hsh.
    + done.
    + intros t. pose proof (total_reserves_put c pid p p' t Hp) as HT. specialize (Hres t). lia.
    + intros q p0 Hq. rewrite ex_pool_put by eauto. destruct (N.eqb_spec pid q) as [E|]; [|eauto]. subst q. rewrite Hp in Hq. injection Hq as <-. eauto.
  - destruct H as (sa & sa' & ra & ra' & Hsa & Hra & Hw & Hd & _ & _ & ->).
    apply ac_withdraw_spec in Hw as (_ & Hwh & _ & _ & Hle); [|eapply ex_wf_account; eauto]. apply ac_deposit_spec in Hd as (_ & Hdh & _); [|eapply ex_wf_account; eauto].
    split; [|split; [|eauto]]. 2: now rewrite (held_by_account _ _ _ _ Hsa).
    split; [|done]. intros a u. rewrite !held_by_put. destruct (String.eqb_spec s a) as [E|E], (String.eqb_spec r a) as [F|F]; try (subst; congruence).
    + subst a. rewrite (held_by_account _ _ _ _ Hsa). specialize (Hwh u). lia.
    + subst a. rewrite (held_by_account _ _ _ _ Hra). specialize (Hdh u). lia.
Qed.
Theorem C32_transfer c e id r x c' ps :
  ex_wf (e_now e) c -> ex_call c e (CMftTransfer id r x) = Some (c', ps) ->
  e_caller e <> r /\ mft_moved c c' id (e_caller e) r x /\ ps = [].
Proof.
  intros Hwf H. cbn [ex_call] in H. apply quiet_inv in H as [H ->]. apply ex_mft_transfer_free_inv in H as (_ & _ & H).
  apply (mft_transfer_moved (e_now e)) in H as (A & _ & C & _); auto.
Qed.
Print Assumptions C32_transfer.
(** mft_transfer_call also sends a message to the receiver, whose answer is handled by mft_resolve_transfer. *)
Theorem C32_transfer_call c e id r am c' ps :
  ex_wf (e_now e) c -> ex_call c e (CMftTransferCall id r am) = Some (c', ps) ->
  exists x, e_caller e <> r /\ (forall y, am = Some y -> x = y) /\ mft_moved c c' id (e_caller e) r x /\ ps = [PMft id (e_caller e) r x].
Proof.
  intros Hwf H. cbn [ex_call] in H. apply ex_mft_transfer_call_inv in H as (x & _ & _ & H & ->).
  apply (mft_transfer_moved (e_now e)) in H as (A & B & C & _); [|done]. exists x. auto.
Qed.
Print Assumptions C32_transfer_call.
(** Whatever happened in between and whatever the receiver answered: the resolution of a transfer of [x] from [s]
    to [r] moves some [y] back, at most the amount sent and at most what was declared unused, from the receiver to
    the sender or, if the sender's account is gone, to the exchange itself. *)
Theorem C32_resolve now c id s r x ret c' :
  ex_wf now c -> ex_mft_resolve c id s r x ret = Some c' ->
  exists y b, y <= x /\ (forall z, ret = Some z -> y <= z) /\ (b = s \/ (ex_account c s = None /\ b = ex_self c)) /\
    (c' = c /\ y = 0 \/ r <> b /\ mft_moved c c' id r b y).
Proof.
  intros Hwf H. apply ex_mft_resolve_inv in H as [[-> _]|(bal & Hu & _ & Hb & H)].
  - exists 0, s. split; [lia|]. split; [intros; lia|]. auto.
  - exists (N.min bal (match ret with Some y => N.min x y | None => x end)), (match ex_accounts c !! s with Some _ => s | None => ex_self c end).
    split; [destruct ret; lia|]. split; [intros z ->; lia|]. split.
    + unfold ex_account. destruct (ex_accounts c !! s); auto.
    + right. apply (mft_transfer_moved now) in H as (A & _ & C & _); auto.
Qed.
Print Assumptions C32_resolve.
(** Sums over sender, receiver and exchange do not change through a transfer and its resolution. *)
Definition three (f : AccountId -> N) (s r b : AccountId) : N :=
  f s + f r + (if String.eqb b s || String.eqb b r then 0 else f b).
Lemma three_moved (f g : AccountId -> N) s r b from to x :
  s <> r -> from <> to -> (from = s \/ from = r \/ from = b) -> (to = s \/ to = r \/ to = b) ->
  (forall a, g a + only from a x = f a + only to a x) -> three g s r b = three f s r b.
Proof.
  intros Hsr Hft Hf Ht H. unfold three. pose proof (H s) as Hs. pose proof (H r) as Hr. pose proof (H b) as Hb. unfold only in *.
  destruct (String.eqb_spec b s) as [E1|E1], (String.eqb_spec b r) as [E2|E2]; cbn [orb];
    repeat match goal with H : context [String.eqb ?u ?v] |- _ => destruct (String.eqb_spec u v) end;
    try lia; exfalso; intuition congruence.
Qed.
Theorem C32_total now c id s r x ret c1 c2 c3 :
  ex_wf now c2 -> ex_wf now c -> ex_mft_transfer c id s r (Some x) = Some (c1, x) ->
  ex_mft_resolve c2 id s r x ret = Some c3 ->
  match mft_pool_of id with
  | Some pid => three (shares_at c1 pid) s r (ex_self c) = three (shares_at c pid) s r (ex_self c) /\
                three (shares_at c3 pid) s r (ex_self c2) = three (shares_at c2 pid) s r (ex_self c2)
  | None => three (fun a => held_by c1 a id) s r (ex_self c) = three (fun a => held_by c a id) s r (ex_self c) /\
            three (fun a => held_by c3 a id) s r (ex_self c2) = three (fun a => held_by c2 a id) s r (ex_self c2)
  end.
Proof.
  intros Hw2 Hw H1 H3. apply (mft_transfer_moved now) in H1 as (Hne & _ & M1 & _); [|done].
  apply (C32_resolve now) in H3 as (y & b & _ & _ & Hb & H3); [|done]. unfold mft_moved in *.
  assert (Hself : b = s \/ b = r \/ b = ex_self c2) by (destruct Hb as [->|[_ ->]]; auto).
  destruct (mft_pool_of id) as [pid|].
  - split.
    + eapply (three_moved _ _ _ _ _ s r x); auto. intros a. destruct M1 as [M1 _]. specialize (M1 pid a). now rewrite N.eqb_refl in M1.
    + destruct H3 as [[-> ->]|[Hrb [M3 _]]]; [done|]. eapply (three_moved _ _ _ _ _ r b y); auto. intros a. specialize (M3 pid a). now rewrite N.eqb_refl in M3.
  - split.
    + eapply (three_moved _ _ _ _ _ s r x); auto. intros a. destruct M1 as [M1 _]. specialize (M1 a id). unfold only in *. rewrite String.eqb_refl in M1.
      destruct (String.eqb s a), (String.eqb r a); lia.
    + destruct H3 as [[-> ->]|[Hrb [M3 _]]]; [done|]. eapply (three_moved _ _ _ _ _ r b y); auto. intros a. specialize (M3 a id). unfold only in *. rewrite String.eqb_refl in M3.
      destruct (String.eqb r a), (String.eqb b a); lia.
Qed.
Print Assumptions C32_total.

(** al sends half of their shares of the first pool to bo, who returns some of them *)
Definition c_rich : Exchange := w_ex w_rich.
Definition c_reg : Exchange := (default (c_rich, []) (ex_call c_rich (env 120 "bo" (10 ^ 24)) (CMftRegister ":0" "bo"))).1.
Definition c_sent : Exchange := (default (c_rich, []) (ex_call c_reg (env 121 "al" 1) (CMftTransferCall ":0" "bo" (Some 1000)))).1.
Definition c_back : Exchange := default c_rich (ex_mft_resolve c_sent ":0" "al" "bo" 1000 (Some 300)).
Lemma rich_wf now : w_now w_rich <= now -> ex_wf now c_rich.
Proof.
  intros H. eapply ex_wf_later; [exact H|]. assert (Hok : w_ok w_rich); [|apply Hok]. eapply w_reach_ok; [apply w_start_ok, w_fresh_start|].
  eapply w_run_reach; [|apply w_rich_runs]. eapply w_run_reach; [apply w_reach_refl|apply w_live_runs].
Qed.
Example C32_ex :
  ex_wf 120 c_rich /\
  done_ (ex_call c_rich (env 120 "bo" (10 ^ 24)) (CMftRegister ":0" "bo")) = true /\
  done_ (ex_call c_reg (env 121 "al" 1) (CMftTransferCall ":0" "bo" (Some 1000))) = true /\
  done_ (ex_mft_resolve c_sent ":0" "al" "bo" 1000 (Some 300)) = true /\
  shares_at c_sent 0 "bo" = 1000 /\ shares_at c_back 0 "bo" = 700 /\ shares_at c_back 0 "al" + 700 = shares_at c_rich 0 "al" /\
  done_ (ex_call c_reg (env 121 "al" 1) (CMftTransferCall "a" "bo" (Some 1000))) = true.
Proof.
  split; [apply rich_wf; vm_compute; discriminate|]. split_and!; vm_compute; reflexivity.
Qed.

(** ** C33 *)
(** In all executions in which nobody donates shares they have staked, everybody holds at least the shares they have
    shadow-staked in farming and at least those staked in lending. What is missing: donation_share does not look at
    the shadows (below). *)
Theorem C33_locked_partial w0 w :
  w_ok w0 -> all_locked (w_ex w0) -> (forall pid, farm_at (w_ex w0) pid (ex_self (w_ex w0)) = 0 /\ burrow_at (w_ex w0) pid (ex_self (w_ex w0)) = 0) ->
  w_along (fun w ev => respects_locks (w_ex w) ev) w0 w -> all_locked (w_ex w).
Proof.
  intros Hok Hl Hn H. assert (w_ok w /\ locked_inv (w_ex w)) as (_ & Hi & _); [|done].
  induction H as [|w ev w' Hr [IHok IH] Hp Hs].
  - split; [done|]. split; [done|]. intros pid. destruct (Hn pid) as [A B]. unfold farm_at, burrow_at in *.
    destruct (shadow_at (w_ex w0) pid (ex_self (w_ex w0))) as [f b]. cbn in *. congruence.
  - pose proof (w_step_any _ _ _ IHok Hs) as (Hok' & _ & _). split; [done|].
    destruct (w_step_happens _ _ _ Hs) as [Hle Hh]. eapply happens_locked; eauto. eapply ex_wf_later; [exact Hle|apply IHok].
Qed.
Print Assumptions C33_locked_partial.
(** Deployment starts that way. *)
Theorem C33_deployed self owner farm burrow f r c :
  ex_new self owner farm burrow f r = Some c ->
  all_locked c /\ forall pid, farm_at c pid (ex_self c) = 0 /\ burrow_at c pid (ex_self c) = 0.
Proof.
  intros H. assert (Ha : ex_accounts c = ∅) by (unfold ex_new in H; bnd H fee Hfee; injection H as <-; done).
  assert (Hn : forall a, ex_account c a = None) by (intros a; unfold ex_account; now rewrite Ha, lookup_empty).
  unfold all_locked, farm_at, burrow_at, shadow_at. split; intros; rewrite Hn; cbn [sh_farm sh_burrow]; split; lia.
Qed.
Print Assumptions C33_deployed.
(** No call other than a donation and a liquidation takes staked shares away: if the shares of an account fall, they stay
    at least what is staked; the exchange's own shares, which it cannot stake, can be taken by the owner. *)
Theorem C33_calls c e x c' ps pid a :
  ex_wf (e_now e) c -> e_now e < 2 ^ 64 -> ex_call c e x = Some (c', ps) ->
  (match x with CDonateShare _ _ _ | CLiquidation _ _ _ _ _ => False | _ => True end) ->
  a <> ex_self c -> shares_at c' pid a < shares_at c pid a ->
  farm_at c pid a <= shares_at c' pid a /\ burrow_at c pid a <= shares_at c' pid a.
Proof.
  intros Hwf HW H Hx Ha Hlt. assert (K : shares_kept c c').
  - destruct (touches_shadow x) eqn:Et.
    + destruct x; try discriminate Et; try contradiction. cbn [ex_call] in H.
      apply ex_shadow_action_inv in H as (acc & p & mx & y & _ & _ & _ & _ & _ & _ & _ & [(_ & acc' & qs & _ & _ & _ & -> & _)|(_ & -> & _)]); now apply kept_same.
    + eapply ex_call_kept; eauto. destruct x; try done; contradiction.
  - destruct (K pid a) as [L|[L|L]]; [lia|contradiction|done].
Qed.
Print Assumptions C33_calls.
(** al stakes half of their shares in farming and a third in lending; the farming contract accepts, the lending one does
    not; afterwards al withdraws what is free. *)
Definition C33_events (s : N) : list Event :=
  [ EvCall (env 120 "al" (10 ^ 24)) (CShadow ToFarming 0 (Some (s / 2)));
    EvCall (env 121 "al" (10 ^ 24)) (CShadow ToBurrowland 0 (Some (s / 3)));
    EvShadowCallback (w_next w_rich + 1) (env 122 "ref" 0) true;
    EvShadowCallback (w_next w_rich + 3) (env 123 "ref" 0) false;
    EvCall (env 124 "al" 1) (CRemoveLiquidity 0 (s / 2) [1; 1]) ].
Definition al_shares : N := shares_at c_rich 0 "al".
Definition w_staked : World := default w_rich (w_run w_rich (C33_events al_shares)).
Definition no_donation (ev : Event) : bool := match ev with EvCall _ x => negb (is_donation x) | _ => true end.
Lemma run_respects l : forall w0 w w', forallb no_donation l = true -> w_along (fun w ev => respects_locks (w_ex w) ev) w0 w -> w_run w l = Some w' ->
  w_along (fun w ev => respects_locks (w_ex w) ev) w0 w'.
Proof.
  induction l as [|ev l IH]; intros w0 w w' Hf Hr H; cbn [w_run forallb] in H, Hf; [now injection H as <-|].
  apply andb_true_iff in Hf as [Hf1 Hf]. apply bind_Some in H as (w1 & H1 & H). eapply IH; [exact Hf| |exact H]. eapply w_along_step; eauto.
  destruct ev; try done. destruct x; done.
Qed.
Lemma fresh_new : ex_new "ref" "own" "farm" "bur" 20 5 = Some ex_fresh.
Proof. vm_compute. reflexivity. Qed.
Example C33_ex : w_run w_rich (C33_events al_shares) = Some w_staked /\ all_locked (w_ex w_staked) /\
  0 < farm_at (w_ex w_staked) 0 "al" /\ shares_at (w_ex w_staked) 0 "al" - farm_at (w_ex w_staked) 0 "al" <= 1 /\
  done_ (w_step w_staked (EvCall (env 125 "al" 1) (CRemoveLiquidity 0 2 [0; 0]))) = false.
Proof.
  assert (R : w_run w_rich (C33_events al_shares) = Some w_staked) by (apply run_default; vm_compute; reflexivity).
  split; [done|]. split; [|split_and!; vm_compute; first [reflexivity|discriminate]].
  pose proof (C33_deployed _ _ _ _ _ _ _ fresh_new) as [A B].
  eapply (C33_locked_partial w_fresh); [apply w_start_ok, w_fresh_start|exact A|exact B|].
  eapply run_respects; [|eapply run_respects; [|eapply run_respects; [|apply w_along_refl|apply w_live_runs]|apply w_rich_runs]|exact R]; reflexivity.
Qed.
(** After staking, al donates all shares: the farm's claim exceeds what al holds. *)
Theorem C33_donation_refuted :
  let c := w_ex w_staked in
  exists c' ps, all_locked c /\ ex_call c (env 125 "al" 1) (CDonateShare 0 None false) = Some (c', ps) /\
    shares_at c' 0 "al" = 0 /\ 0 < farm_at c' 0 "al".
Proof.
  cbv zeta. destruct (ex_call (w_ex w_staked) (env 125 "al" 1) (CDonateShare 0 None false)) as [[c' ps]|] eqn:E.
  - exists c', ps. split; [apply C33_ex|]. split; [done|].
    assert (Hc : c' = (default (w_ex w_staked, []) (ex_call (w_ex w_staked) (env 125 "al" 1) (CDonateShare 0 None false))).1) by now rewrite E.
    rewrite Hc. split; vm_compute; reflexivity.
  - exfalso. assert (D : done_ (ex_call (w_ex w_staked) (env 125 "al" 1) (CDonateShare 0 None false)) = true) by (vm_compute; reflexivity).
    rewrite E in D. discriminate D.
Qed.
Print Assumptions C33_donation_refuted.

(** ** C34 *)
(** on_burrow_liquidation: only the lending contract, only shares the victim staked in lending; exactly those shares are
    burnt and the liquidator's deposits receive what they redeem, at least the minimum of each token; nobody else's
    deposits or shares change, and the locks still hold afterwards. What the farm had staked of the burnt shares is
    given back in the same step and announced to the farm. *)
Theorem C34_liquidation c e liq vic sid x mins c' ps :
  ex_wf (e_now e) c -> ex_call c e (CLiquidation liq vic sid x mins) = Some (c', ps) ->
  exists pid p out, e_caller e = cf_burrow (ex_cfg c) /\ shadow_id_to_pool_id sid = Some pid /\ ex_pool c pid = Some p /\
    none_frozen c (pl_tokens p) /\ x <= burrow_at c pid vic /\ x <= shares_at c pid vic /\ Forall2 N.le mins out /\
    (forall a t, held_by c' a t = held_by c a t + (if String.eqb liq a then beside t (pl_tokens p) out else 0)) /\
    (forall t, total_reserves c' t + beside t (pl_tokens p) out <= total_reserves c t) /\
    (forall q a, shares_at c' q a + (if q =? pid then only vic a x else 0) = shares_at c q a) /\
    (forall q a, burrow_at c' q a + (if q =? pid then only vic a x else 0) = burrow_at c q a) /\
    (forall q a, q <> pid \/ a <> vic -> farm_at c' q a = farm_at c q a) /\
    (exists back, farm_at c' pid vic + back = farm_at c pid vic /\ ps = if 0 <? back then [PRemoveShadow vic pid back] else []) /\
    (all_locked c -> all_locked c' /\
       farm_at c' pid vic = N.min (farm_at c pid vic) (shares_at c pid vic - x)).
Proof.
  intros Hwf H. cbn [ex_call] in H. pose proof (liquidation_shadows _ _ _ _ _ _ _ _ _ Hwf H) as (pid & Hid & _ & Hx & Hb & Hs & Hbu & Hfo & Hfle & Hfa).
  apply ex_burrow_liquidation_inv in H as
      (pid0 & p & va & va1 & va2 & la & p' & out & la' & seed & avail & _ & Hcal & Hid0 & Hp & Hfr & Hva & Hu1 & Hav & Hseed & Hu2 & _ & Hla & Hrm & Hdep & _ & Hc' & Hps).
  rewrite Hid in Hid0. injection Hid0 as <-.
  pose proof (ex_wf_pool _ _ _ _ Hwf Hp) as Hpr. pose proof (pl_reachable_wf _ _ Hpr) as Hpw.
  exists pid, p, out. do 6 (split; [done|]).
  assert (Hmin : Forall2 N.le mins out).
  { clear Hdep. destruct p as [q|q]; cbn [pl_remove_liquidity pl_reachable] in Hrm, Hpr; bnd Hrm z Hz; destruct z as [q' o]; injection Hrm as <- <-.
    - eapply C10_remove_min_amounts; eauto.
    - destruct Hpr as (n & _ & Hpr). eapply C10_stable_remove_min_amounts; eauto. }
  split; [done|]. apply (pl_remove_spec p (ex_rates c) (e_now e)) in Hrm as (Hst & _ & Hr & _ & _); [|done].
  pose proof (pl_step_same _ _ _ _ Hpw Hst) as (_ & Htok & _). rewrite Htok in Hdep.
  assert (Hv : ac_disjoint va2 /\ forall t, ac_held va2 t = ac_held va t).
  { pose proof (ex_wf_account _ _ _ _ Hwf Hva) as Hd. pose proof (update_shadow_held _ _ _ _ _ Hu1) as (A1 & B1). destruct (0 <? seed).
    - pose proof (update_shadow_held _ _ _ _ _ Hu2) as (A2 & B2). split; [auto|]. intros t. now rewrite B2, B1.
    - injection Hu2 as <-. auto. }
  destruct Hv as [Hvd Hvh]. set (v := ac_set_near va2 (ac_near va2 + e_freed e)) in *.
  assert (Hl : ac_disjoint la). { change (ex_account (ex_put c vic v) liq = Some la) in Hla. rewrite ex_account_put in Hla. destruct (String.eqb vic liq); [injection Hla as <-; exact Hvd|eapply ex_wf_account; eauto]. }
  assert (Hc1 : forall a t, held_by (ex_put c vic v) a t = held_by c a t).
  { intros a t. rewrite held_by_put. destruct (String.eqb_spec vic a) as [E|]; [subst a|done]. rewrite (held_by_account _ _ _ _ Hva). apply Hvh. }
  apply ac_deposit_all_spec in Hdep as (_ & Hh & _); [|done|now apply pl_wf_nodup].
  split; [|split; [|split; [done|split; [done|split; [done|split; [done|]]]]]].
  - intros a t. rewrite Hc', held_by_put. destruct (String.eqb_spec liq a) as [E|].
    + subst a. rewrite Hh, <- (held_by_account _ _ _ t Hla), Hc1. done.
    + rewrite N.add_0_r. apply Hc1.
  - intros t. rewrite Hc'. change (total_reserves (ex_put (ex_put_pool (ex_put c vic v) pid p') liq la') t) with (total_reserves (ex_put_pool c pid p') t).
    pose proof (total_reserves_put c pid p p' t Hp) as HT. specialize (Hr t). lia.
  - intros Hlk. destruct (Hlk pid vic) as [L1 L2]. split; [|now apply Hfa]. intros q a. specialize (Hs q a). specialize (Hbu q a). destruct (Hlk q a) as [M1 M2]. unfold only in Hs, Hbu.
    destruct (N.eqb_spec q pid) as [->|Hq]; [|rewrite Hfo by auto; lia]. destruct (String.eqb_spec vic a) as [E|E]; [subst a|rewrite Hfo by auto; lia].
    rewrite Hfa by done. lia.
Qed.
Print Assumptions C34_liquidation.
(** al has staked everything both in farming and in lending; half of it is liquidated for bo. *)
Definition C34_events : list Event :=
  [ EvCall (env 120 "al" (10 ^ 24)) (CShadow ToFarming 0 None);
    EvCall (env 121 "al" (10 ^ 24)) (CShadow ToBurrowland 0 None) ].
Definition w_lent : World := default w_rich (w_run w_rich C34_events).
Definition c_liq : Exchange := (default (c_rich, []) (ex_call (w_ex w_lent) (env 122 "bur" 0) (CLiquidation "bo" "al" "shadow_ref_v1-0" (al_shares / 2) [1; 1]))).1.
Example C34_ex : w_run w_rich C34_events = Some w_lent /\ ex_wf 122 (w_ex w_lent) /\
  done_ (ex_call (w_ex w_lent) (env 122 "bur" 0) (CLiquidation "bo" "al" "shadow_ref_v1-0" (al_shares / 2) [1; 1])) = true /\
  farm_at (w_ex w_lent) 0 "al" = al_shares /\ farm_at c_liq 0 "al" = al_shares - al_shares / 2 /\ held_by c_rich "bo" "b" < held_by c_liq "bo" "b" /\
  done_ (ex_call (w_ex w_lent) (env 122 "bo" 0) (CLiquidation "bo" "al" "shadow_ref_v1-0" (al_shares / 2) [1; 1])) = false.
Proof.
  assert (R : w_run w_rich C34_events = Some w_lent) by (apply run_default; vm_compute; reflexivity).
  split; [done|]. split; [|split_and!; vm_compute; reflexivity]. apply (ex_wf_later (w_now w_lent)); [vm_compute; discriminate|].
  assert (Hok : w_ok w_lent); [|apply Hok]. eapply w_reach_ok; [apply w_start_ok, w_fresh_start|].
  eapply w_run_reach; [|exact R]. eapply w_run_reach; [|apply w_rich_runs]. eapply w_run_reach; [apply w_reach_refl|apply w_live_runs].
Qed.
