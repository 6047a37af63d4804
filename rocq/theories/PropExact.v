(** * Stable pools and the exact StableSwap invariant: C59, C60, C61 *)
From Verif Require Import PropSimple PropStable.
From Verif Require Import Base BaseLemmas SimplePool SpecSimple StableMath
  StableMathProofs StablePool SpecStable StablePoolProofs StablePoolInv SpecExact StableExact.

(** ** C59 *)
(** However the iteration ended, the invariant computed for rated balances [xs] is not below any
    integer that is at most the exact invariant: it is at least the exact one rounded down. *)
Theorem C59_computed_not_below_exact now p t rates cs xs D d :
  st_reachable now p -> now <= t -> t < 2 ^ 64 -> xs <> [] ->
  rate_balances cs rates = Some xs -> st_D p t rates cs = Some D ->
  at_most_D (st_get_amp p t) xs d -> d <= D.
Proof.
  intros Hr Hle HW Hne Hx HD Hd. pose proof (st_reachable_amp _ _ Hr) as Hamp. rewrite <- W64_pow in HW.
  pose proof (st_amp_value now p t rates Hamp Hle HW) as HA.
  unfold st_D, compute_d_with_rates in HD. cbn [st_curve cv_rates] in HD. rewrite Hx in HD. cbn [mbind option_bind] in HD.
  eapply compute_d_lower; eauto.
Qed.
Print Assumptions C59_computed_not_below_exact.

Definition at_most_Db (A : N) (xs : list N) (d : N) : bool :=
  let n := N.of_nat (length xs) in
  let P := n ^ n * product xs in
  d ^ (n + 1) + A * n ^ n * d * P <=? A * n ^ n * total xs * P + d * P.
Lemma at_most_Db_spec A xs d : at_most_Db A xs d = true <-> at_most_D A xs d.
Proof. apply N.leb_le. Qed.

(** The pool of [C16_ex] before and after its trade at amplification 15: the computed invariant is the
    exact one rounded down. *)
Example C59_ex :
  (p ← ex_st_pre KStable; let u := map (fun _ => PRECISION) (st_tokens p) in D ← st_D p (3 * DAY) u (st_c p);
   Some (D, at_most_Db 15 (st_c p) D, at_most_Db 15 (st_c p) (D + 1)))
  = Some (4498623004054843124833952, true, false).
Proof. vm_compute. reflexivity. Qed.
(** In a very unequal pool the iteration may end above it. *)
Example C59_above_ex :
  (p ← st_new KStable ["A"; "B"] [18; 18] 10 0;
   D ← st_D p 1 [PRECISION; PRECISION] [805560389; 1];
   Some (D, at_most_Db 10 [805560389; 1] 4691169, at_most_Db 10 [805560389; 1] 4691170))
  = Some (4691259, true, false).
Proof. vm_compute. reflexivity. Qed.

(** ** C60 *)
(** A trade in a stable pool that charges a fee of at least one unit of the kept decimals, and
    after which no balance but that of the incoming token is below the [B]-th part of the invariant,
    does not lower the exact invariant below any integer it was above.  [B] is any number with
    [B + ... + B^(n-1) <= A n^(2n)], for example [16 A] for two tokens. *)
Theorem C60_trade_keeps_exact_invariant_partial now p e ti a to mn f v p' out B D d :
  let A := st_get_amp p (pe_now e) in
  let n := N.of_nat (length (st_tokens p)) in
  st_reachable now p -> now <= pe_now e -> pe_now e < 2 ^ 64 -> st_kind p = KStable ->
  st_swap p e ti a to mn f v = Some (p', out) ->
  st_D p (pe_now e) (map (fun _ => PRECISION) (st_tokens p)) (st_c p) = Some D ->
  FEE_DIVISOR <= (st_kept p to - st_kept p' to) * st_fee p ->
  (forall t, t ∈ st_tokens p -> t <> ti -> D <= B * st_kept p' t) ->
  B * geometric B (length (st_tokens p) - 2) <= A * n ^ n * n ^ n ->
  at_most_D A (st_c p') D /\ (at_most_D A (st_c p) d -> at_most_D A (st_c p') d).
Proof.
  intros A n Hr Hle HW Hk H HD Hfee Hbal HB.
  pose proof (st_swap_exact _ _ _ _ _ _ _ _ _ _ _ _ _ Hr Hle HW Hk H HD Hfee Hbal HB) as Hex.
  fold A in Hex. split; [exact Hex|]. intros Hd.
  pose proof (st_reachable_wf _ _ Hr) as (_ & _ & Hlc & HcW & _).
  assert (Hidx : exists ix c, st_c p !! ix = Some c).
  { apply st_swap_inv in H as (ix & iy & rates & r & x & y & di & do_ & cin & m & s2 & adm & Hne & Hixy & Hti & Hto & _ & Hrates & Hdi & Hdo & Hx & _). eauto. }
  destruct Hidx as (ix & c & Hc).
  assert (Hne : st_c p <> []) by (intros E; rewrite E in Hc; done).
  assert (HdD : d <= D).
  { eapply (C59_computed_not_below_exact now p (pe_now e)); [exact Hr|exact Hle|exact HW|exact Hne| |exact HD|exact Hd].
    apply rate_balances_unit; [lia|done]. }
  assert (Hl : length (st_c p') = length (st_c p)).
  { apply st_swap_inv in H as (? & ? & ? & ? & ? & ? & ? & ? & ? & ? & ? & ? & _ & _ & _ & _ & _ & _ & _ & _ & _ & _ & _ & _ & _ & _ & _ & _ & _ & _ & -> & _).
    st_unfold. now rewrite !insert_length. }
  assert (Hne' : st_c p' <> []) by (intros E; rewrite E in Hl; destruct (st_c p); done).
  assert (HA0 : 0 < A).
  { pose proof (st_reachable_amp _ _ Hr) as Hamp. rewrite <- W64_pow in HW.
    pose proof (st_amp_value now p (pe_now e) [] Hamp Hle HW) as HA.
    pose proof (amp_between _ _ HA) as Hb. cbn [st_curve cv_init cv_target] in Hb. fold A in Hb. destruct Hamp as (Hi & Ht & _).
    unfold MIN_AMP in *. lia. }
  eapply at_most_D_down; [exact HA0|exact Hne'|exact HdD|exact Hex].
Qed.
Print Assumptions C60_trade_keeps_exact_invariant_partial.

(** Any number of such trades, by anyone, while the amplification is [A]. *)
Theorem C60_trades_keep_exact_invariant_partial A B now p now' p' d :
  let n := N.of_nat (length (st_tokens p)) in
  st_reachable now p -> st_kind p = KStable ->
  B * geometric B (length (st_tokens p) - 2) <= A * n ^ n * n ^ n ->
  charged_trades A B now p now' p' -> at_most_D A (st_c p) d -> at_most_D A (st_c p') d.
Proof.
  intros n Hr Hk HB H Hd.
  assert (Hall : st_reachable now' p' /\ st_kind p' = KStable /\ length (st_tokens p') = length (st_tokens p) /\ at_most_D A (st_c p') d).
  2: { tauto. }
  induction H as [|now p now1 p1 e ti a to mn f p2 out D H IH Hle HW HA Hs HD Hfee Hbal]; [auto|].
  destruct (IH Hr Hk HB Hd) as (Hr1 & Hk1 & Hl1 & Hd1).
  assert (Hex : st_exec p1 e (StSwap ti a to mn f) = Some p2) by (cbn [st_exec]; rewrite Hs; done).
  split; [eapply st_reach_step; eauto|].
  pose proof (st_exec_frame _ _ _ _ Hex) as (Ek & Et & _).
  split; [congruence|]. split; [congruence|].
  rewrite <- HA in *. eapply (C60_trade_keeps_exact_invariant_partial now1 p1 e); eauto.
  rewrite Hl1. exact HB.
Qed.
Print Assumptions C60_trades_keep_exact_invariant_partial.

(** Without the fee both claims fail by rounding: a pool of two tokens with 18 decimals and fee 0, in
    which one trade lowers the exact invariant below an integer, and a round trip
    earns one unit. *)
Definition ex_dust : option StablePool :=
  p ← st_new KStable ["A"; "B"] [18; 18] 1 0;
  st_run p [(ex_env 1, StAdd "alice" [1315176337469135; 5158563448300801] 0 ex_st_fees)].
Example ex_dust_reachable p : ex_dust = Some p -> exists now, st_reachable now p.
Proof.
  unfold ex_dust. intros H. apply bind_Some in H as (p0 & H0 & H).
  eapply (st_run_reachable 0); [| |exact H]; [|vm_compute; reflexivity].
  eapply st_reach_new; [| | |exact H0]; [|done|done]. repeat constructor; set_solver.
Qed.

Theorem C60_zero_fee_refuted :
  exists now p e p1 out d,
    st_reachable now p /\ st_kind p = KStable /\ st_swap p e "A" 462699919653 "B" 0 ex_st_fees false = Some (p1, out) /\
    at_most_D (st_get_amp p (pe_now e)) (st_c p) d /\ ~ at_most_D (st_get_amp p (pe_now e)) (st_c p1) d.
Proof.
  destruct ex_dust as [p|] eqn:Hp; [|exfalso; vm_compute in Hp; discriminate Hp].
  destruct (ex_dust_reachable _ Hp) as [now Hr].
  destruct (st_swap p (ex_env 2) "A" 462699919653 "B" 0 ex_st_fees false) as [[p1 out]|] eqn:H.
  - exists now, p, (ex_env 2), p1, out, 5990757534283088.
    rewrite <- !at_most_Db_spec.
    vm_compute in Hp. injection Hp as <-. split; [exact Hr|]. clear Hr.
    split; [reflexivity|]. split; [exact H|]. vm_compute in H. injection H as <- <-.
    split; [vm_compute; reflexivity|]. intros E. vm_compute in E. discriminate E.
  - exfalso. vm_compute in Hp. injection Hp as <-. vm_compute in H. discriminate H.
Qed.
Print Assumptions C60_zero_fee_refuted.

Theorem C60_round_trip_refuted :
  exists now p e p1 p2 got back,
    st_reachable now p /\ st_kind p = KStable /\
    st_swap p e "B" 26907 "A" 0 ex_st_fees false = Some (p1, got) /\
    st_swap p1 e "A" got "B" 0 ex_st_fees false = Some (p2, back) /\ 26907 < back.
Proof.
  destruct ex_dust as [p|] eqn:Hp; [|exfalso; vm_compute in Hp; discriminate Hp].
  destruct (ex_dust_reachable _ Hp) as [now Hr].
  destruct (st_swap p (ex_env 2) "B" 26907 "A" 0 ex_st_fees false) as [[p1 got]|] eqn:H.
  2: { exfalso. vm_compute in Hp. injection Hp as <-. vm_compute in H. discriminate H. }
  destruct (st_swap p1 (ex_env 2) "A" got "B" 0 ex_st_fees false) as [[p2 back]|] eqn:H2.
  - exists now, p, (ex_env 2), p1, p2, got, back.
    vm_compute in Hp. injection Hp as <-. split; [exact Hr|]. clear Hr.
    split; [reflexivity|]. split; [exact H|]. split; [exact H2|].
    vm_compute in H. injection H as <- <-. vm_compute in H2. injection H2 as <- <-. reflexivity.
  - exfalso. vm_compute in Hp. injection Hp as <-. vm_compute in H. injection H as <- <-. vm_compute in H2. discriminate H2.
Qed.
Print Assumptions C60_round_trip_refuted.

(** The hypotheses of the partial theorem hold for the trade of [C16_ex] with [B = 100]: three tokens,
    amplification 15, fee 0.3 percent. *)
Example C60_ex :
  (p ← ex_st_pre KStable; let u := map (fun _ => PRECISION) (st_tokens p) in
   D ← st_D p (3 * DAY) u (st_c p); '(p', out) ← st_swap p (ex_env (3 * DAY)) "A" 70000000001 "B" 1 ex_st_fees false;
   let A := st_get_amp p (3 * DAY) in
   Some (st_kind p, A, FEE_DIVISOR <=? (st_kept p "B" - st_kept p' "B") * st_fee p,
         (D <=? 100 * st_kept p' "B") && (D <=? 100 * st_kept p' "C"),
         100 * geometric 100 1 <=? A * 3 ^ 3 * 3 ^ 3,
         at_most_Db A (st_c p) D, at_most_Db A (st_c p') D, at_most_Db A (st_c p') (D + 10 ^ 20)))
  = Some (KStable, 15, true, true, true, true, true, true).
Proof. vm_compute. reflexivity. Qed.

(** ** C61 *)
(** Redeeming shares does not lower the exact invariant per share: if [d] is at most the exact
    invariant before, then every [d'] with [d' / supply' <= d / supply] is at most the exact invariant
    after.  Holds for the recorded balances of pools of every kind. *)
Theorem C61_removal_keeps_invariant_per_share now p s sh mins v p' out A d d' :
  st_reachable now p -> st_remove_by_shares p s sh mins v = Some (p', out) -> st_tokens p <> [] -> 0 < A -> 0 < st_supply p ->
  at_most_D A (st_c p) d -> d' * st_supply p <= d * st_supply p' -> at_most_D A (st_c p') d'.
Proof.
  intros Hr H Hne HA HS Hd Hle. pose proof (st_reachable_wf _ _ Hr) as Hwf.
  eapply st_remove_exact; eauto. destruct Hwf as (_ & _ & Hlc & _). destruct (st_c p), (st_tokens p); done.
Qed.
Print Assumptions C61_removal_keeps_invariant_per_share.

Example C61_ex :
  (p ← ex_st_pre KStable; '(p', out) ← st_remove_by_shares p "bob" (10 ^ 23) [1; 1; 1] false;
   let d := 4498623004054843124833952 in let d' := d * st_supply p' / st_supply p in
   Some (at_most_Db 15 (st_c p) d, d', at_most_Db 15 (st_c p') d', at_most_Db 15 (st_c p') (d' + 10)))
  = Some (true, 4398588286910818870479171, true, false).
Proof. vm_compute. reflexivity. Qed.

(** ** C20: the exact numbers of shares *)
(** Deposits into a pool with shares: with [d0], [d1] the invariants before and after, and [d2] the
    invariant of the new balances less the imbalance fee, the depositor gets the floor of
    [supply (d2 - d0) / d0]; the admin's part of the rest of [supply (d1 - d0) / d0] is minted too. *)
Theorem C20_deposit_shares_exact p e s am mn f v p' sh :
  st_add_liquidity p e s am mn f v = Some (p', sh) -> 0 < st_supply p ->
  exists rates d0 d1 d2,
    st_get_rates p e = Some rates /\ st_D p (pe_now e) rates (st_c p) = Some d0 /\
    st_D p (pe_now e) rates (st_c p') = Some d1 /\
    st_D p (pe_now e) rates (charged_balances (st_fee p) d0 d1 (st_c p) (st_c p')) = Some d2 /\
    d0 <= d2 /\ sh = st_supply p * (d2 - d0) / d0 /\ sh <= st_supply p * (d1 - d0) / d0 /\
    st_supply p' = st_supply p + sh + (st_supply p * (d1 - d0) / d0 - sh) * admin_fee_bps f / FEE_DIVISOR.
Proof.
  intros H HS.
  apply st_add_inv in H as (rates & cam & c' & fee & m & s2 & _ & Hr & Hcalc & _ & Hcam & Hc' & -> & _ & _ & Hs2 & _).
  unfold st_calc_add_liquidity in Hcalc. rewrite Hcam in Hcalc. cbn [mbind option_bind] in Hcalc.
  destruct (N.eqb_spec (st_supply p) 0) as [E|_]; [lia|].
  apply deposit_exact in Hcalc as (d0 & d1 & d2 & new & H0 & Hnew & H1 & H2 & Hle & Hm & Hmle & Hfee).
  rewrite Hc' in Hnew. injection Hnew as <-. st_unfold. exists rates, d0, d1, d2. subst fee s2.
  split_and!; auto.
Qed.
Print Assumptions C20_deposit_shares_exact.

(** Withdrawals of given amounts: the shares burned are the floor of [supply (d0 - d2) / d0]. *)
Theorem C20_withdraw_shares_exact p e s am mx f v p' burn :
  st_remove_by_tokens p e s am mx f v = Some (p', burn) ->
  exists rates d0 d1 d2,
    st_get_rates p e = Some rates /\ st_D p (pe_now e) rates (st_c p) = Some d0 /\
    st_D p (pe_now e) rates (st_c p') = Some d1 /\
    st_D p (pe_now e) rates (charged_balances (st_fee p) d0 d1 (st_c p) (st_c p')) = Some d2 /\
    d2 <= d0 /\ burn = st_supply p * (d0 - d2) / d0 /\ st_supply p * (d0 - d1) / d0 <= burn /\ burn <= st_supply p /\
    st_supply p' = st_supply p - burn + (burn - st_supply p * (d0 - d1) / d0) * admin_fee_bps f / FEE_DIVISOR.
Proof.
  intros H.
  apply st_remove_tokens_inv in H as (rates & cam & c' & fee & m & s2 & Hlen & Hcam & Hc' & _ & _ & Hr & Hlp & Hb & -> & Hs2 & _).
  apply withdraw_exact in Hlp as (d0 & d1 & d2 & new & H0 & Hnew & H1 & H2 & Hle & Hm & Hmle & Hfee).
  rewrite Hc' in Hnew. injection Hnew as <-. st_unfold. exists rates, d0, d1, d2. subst fee s2.
  split_and!; auto.
Qed.
Print Assumptions C20_withdraw_shares_exact.

(** The withdrawal of [C20_ex]. *)
Example C20_exact_ex :
  (p ← ex_st_pre KRated; rates ← st_get_rates p (ex_env (3 * DAY));
   r ← st_remove_by_tokens p (ex_env (3 * DAY)) "bob" [10 ^ 9; 3 * 10 ^ 27; 12345678] (10 ^ 40) ex_st_fees false;
   d0 ← st_D p (3 * DAY) rates (st_c p); d1 ← st_D p (3 * DAY) rates (st_c (fst r));
   d2 ← st_D p (3 * DAY) rates (charged_balances (st_fee p) d0 d1 (st_c p) (st_c (fst r)));
   Some (snd r, snd r =? st_supply p * (d0 - d2) / d0, d2 <? d1))
  = Some (4589109751092389983955373265, true, true).
Proof. vm_compute. reflexivity. Qed.
