(** * Property theorems about simple (constant product) pools: C02-C13.
    Vocabulary: SpecSimple.v.  [sp_reachable p]: [p] is reachable from creation by any history of
    successful operations by anyone. *)
From Verif Require Import Base BaseLemmas Sqrt SqrtProofs SimplePool SpecSimple SimplePoolProofs
  SimplePoolInv SimpleFacts.

(** ** A concrete pool used for the non-vacuity examples *)
Definition ex_fees : AdminFees := mkAdminFees 1600 "exchange" (Some ("ref", 1000)).
Definition ex_ops : list sp_op :=
  [AddOp "alice" [1000000000; 2000000000]; RegisterOp "ref"; AddOp "bob" [500000000; 1000000000];
   SwapOp "A" 70000000 "B" 1 ex_fees; SwapByOutputOp "B" 12345678 "A" None ex_fees;
   RemoveOp "bob" (10 ^ 23) [1; 1]; TransferOp "alice" "bob" (10 ^ 22)].
Definition ex_pool0 : option SimplePool := sp_new ["A"; "B"] 30.
Definition ex_pool : option SimplePool := p ← ex_pool0; sp_run p ex_ops.

Lemma sp_run_reachable p os p' : sp_reachable p -> sp_run p os = Some p' -> sp_reachable p'.
Proof.
  revert p; induction os as [|o os IH]; intros p Hp H; cbn [sp_run] in H; inv; subst; [done|].
  eapply IH; [|eassumption]. eapply sp_reach_step; eauto.
Qed.

Example ex_pool_values :
  (p ← ex_pool; Some (sp_amounts p, sp_supply p, sp_share_of p "alice", sp_share_of p "ref"))
  = Some ([1453812009; 2696788993], 1400018890923468709312210, 990000000000000000000000, 1889192346870931220).
Proof. vm_compute. reflexivity. Qed.

Example ex_pool_reachable p : ex_pool = Some p -> sp_reachable p.
Proof.
  unfold ex_pool, ex_pool0. intros H. inv.
  eapply sp_run_reachable; [|eassumption]. eapply sp_reach_new; [|eassumption].
  repeat constructor; set_solver.
Qed.

(** ** C02 (simple pools): supply = sum of all holders' shares *)
Theorem C02_simple_supply_is_sum p :
  sp_reachable p -> sp_supply p = map_fold (fun _ s acc => s + acc) 0 (sp_shares p).
Proof. intros H. apply sp_reachable_wf in H as (_ & _ & _ & _ & _ & H). symmetry. exact H. Qed.
Print Assumptions C02_simple_supply_is_sum.

(** ** C03 *)
Theorem C03_swap_never_drains p ti a to mn f v p' out :
  sp_reachable p -> sp_swap p ti a to mn f v = Some (p', out) ->
  out < sp_reserve p to /\ 0 < sp_reserve p' ti /\ 0 < sp_reserve p' to /\
  sp_reserve p' ti = sp_reserve p ti + a /\ sp_reserve p' to + out = sp_reserve p to.
Proof.
  intros Hr H. apply sp_reachable_wf in Hr.
  apply swap_reserves in H as (_ & _ & _ & -> & -> & ? & ? & _); [|done]. lia.
Qed.
Print Assumptions C03_swap_never_drains.

Theorem C03_swap_by_output_never_drains p ti b to mx f v p' ain :
  sp_reachable p -> sp_swap_by_output p ti b to mx f v = Some (p', ain) ->
  b < sp_reserve p to /\ 0 < sp_reserve p' ti /\ 0 < sp_reserve p' to /\
  sp_reserve p' ti = sp_reserve p ti + ain /\ sp_reserve p' to + b = sp_reserve p to.
Proof.
  intros Hr H. apply sp_reachable_wf in Hr.
  apply swap_by_output_reserves in H as (_ & _ & _ & -> & -> & ? & ? & _); [|done]. lia.
Qed.
Print Assumptions C03_swap_by_output_never_drains.

Theorem C03_reserves_positive_iff_shares p t :
  sp_reachable p -> t ∈ sp_tokens p -> (0 < sp_reserve p t <-> 0 < sp_supply p).
Proof. intros Hr. apply reserves_iff_supply. now apply sp_reachable_wf. Qed.
Print Assumptions C03_reserves_positive_iff_shares.

(** ** C04 *)
Theorem C04_swap_product p ti a to mn f v p' out :
  sp_reachable p -> sp_swap p ti a to mn f v = Some (p', out) ->
  sp_reserve p ti * sp_reserve p to <= sp_reserve p' ti * sp_reserve p' to.
Proof. intros Hr H. apply sp_reachable_wf in Hr. now apply swap_reserves in H. Qed.
Print Assumptions C04_swap_product.

Theorem C04_swap_by_output_product p ti b to mx f v p' ain :
  sp_reachable p -> sp_swap_by_output p ti b to mx f v = Some (p', ain) ->
  sp_reserve p ti * sp_reserve p to <= sp_reserve p' ti * sp_reserve p' to.
Proof. intros Hr H. apply sp_reachable_wf in Hr. now apply swap_by_output_reserves in H. Qed.
Print Assumptions C04_swap_by_output_product.

(** The contract's own invariant check never rejects a trade: every trade of a positive amount
    between the two tokens of a funded pool succeeds, as long as the numbers fit the machine words
    (reserve and supply in 128 bits, the product in 256 bits) and fees are at most 100 %. *)
Theorem C04_trade_never_rejected p ti a to f :
  sp_reachable p -> ti <> to -> ti ∈ sp_tokens p -> to ∈ sp_tokens p ->
  0 < sp_supply p -> 0 < a ->
  sp_reserve p ti + a < 2 ^ 128 -> a * 10000 * sp_reserve p to < 2 ^ 256 ->
  admin_fee_bps f <= 10000 ->
  (forall rid rfee, referral_info f = Some (rid, rfee) -> rfee <= 10000) ->
  sp_supply p * N.sqrt ((sp_reserve p ti + a) * sp_reserve p to)
    < 2 ^ 128 * N.sqrt (sp_reserve p ti * sp_reserve p to) ->
  exists p' out, sp_swap p ti a to 0 f false = Some (p', out).
Proof.
  intros Hr. apply sp_reachable_wf in Hr. intros.
  destruct (swap_defined p ti a to f) as [[p' out] H']; eauto.
Qed.
Print Assumptions C04_trade_never_rejected.

Example C04_trade_never_rejected_ex :
  (p ← ex_pool;
   _ ← ensure ((0 <? sp_supply p) && (sp_reserve p "A" + 1000 <? 2 ^ 128)
     && (1000 * 10000 * sp_reserve p "B" <? 2 ^ 256)
     && (sp_supply p * N.sqrt ((sp_reserve p "A" + 1000) * sp_reserve p "B")
          <? 2 ^ 128 * N.sqrt (sp_reserve p "A" * sp_reserve p "B")));
   snd <$> sp_swap p "A" 1000 "B" 0 ex_fees false) = Some 1849.
Proof. vm_compute. reflexivity. Qed.

(** ** C05 *)
(** Whatever a trader does on a pool nobody else trades on: if they end with at least as much of one
    token, they end with at most as much of the other; no other token moves. *)
Theorem C05_no_profit p w os p' w' A B :
  sp_reachable p -> (sp_tokens p = [A; B] \/ sp_tokens p = [B; A]) -> trader_run p w os p' w' ->
  (w A <= w' A)%Z -> (w' B <= w B)%Z.
Proof.
  intros Hr [Ht|Ht] Hrun; apply sp_reachable_wf in Hr.
  - eapply no_profit; eauto.
  - eapply no_profit_sym; eauto.
Qed.
Print Assumptions C05_no_profit.

(** The simplest instance: A -> B and all of the received B -> A. *)
Theorem C05_round_trip p A a B mn1 f1 p1 b mn2 f2 p2 a2 :
  sp_reachable p ->
  sp_swap p A a B mn1 f1 false = Some (p1, b) -> sp_swap p1 B b A mn2 f2 false = Some (p2, a2) ->
  a2 <= a.
Proof.
  intros Hr H1 H2. apply sp_reachable_wf in Hr.
  pose proof (sp_wf_swap _ _ _ _ _ _ _ _ Hr H1) as Hr1.
  apply swap_reserves in H1 as (_ & _ & _ & E1 & E2 & P1 & P2 & K1 & _); [|done].
  apply swap_reserves in H2 as (_ & _ & _ & E3 & E4 & P3 & P4 & K2 & _); [|done].
  assert (sp_reserve p2 B = sp_reserve p B) by lia. nia.
Qed.
Print Assumptions C05_round_trip.

Example C05_round_trip_ex :
  (p ← ex_pool; '(p1, b) ← sp_swap p "A" 1000000 "B" 0 ex_fees false;
   '(p2, a2) ← sp_swap p1 "B" b "A" 0 ex_fees false; Some (b, a2)) = Some (1848145, 994012).
Proof. vm_compute. reflexivity. Qed.

(** ** C06 *)
Theorem C06_charge_is_sufficient p ti b to mx f v p' ain a mn f2 v2 p2 out :
  sp_reachable p -> sp_swap_by_output p ti b to mx f v = Some (p', ain) ->
  sp_swap p ti a to mn f2 v2 = Some (p2, out) -> ain <= a -> b <= out.
Proof.
  intros Hr H1 H2 Hle. apply sp_reachable_wf in Hr.
  assert (Hfee : sp_fee p < FEE_DIVISOR) by now destruct Hr as (_ & _ & _ & ? & _).
  apply swap_by_output_reserves in H1 as (_ & _ & _ & _ & _ & P1 & P2 & _ & -> & _); [|done].
  apply swap_reserves in H2 as (_ & _ & _ & _ & _ & _ & _ & _ & -> & _); [|done].
  apply by_output_sufficient; auto. lia.
Qed.
Print Assumptions C06_charge_is_sufficient.

(** An input two units below the charge never buys the output. *)
Theorem C06_charge_is_tight p ti b to mx f v p' ain a mn f2 v2 p2 out :
  sp_reachable p -> sp_swap_by_output p ti b to mx f v = Some (p', ain) ->
  sp_swap p ti a to mn f2 v2 = Some (p2, out) -> a + 2 <= ain -> out < b.
Proof.
  intros Hr H1 H2 Hle. apply sp_reachable_wf in Hr.
  assert (Hfee : sp_fee p < FEE_DIVISOR) by now destruct Hr as (_ & _ & _ & ? & _).
  apply swap_by_output_reserves in H1 as (_ & _ & Hb & _ & _ & P1 & P2 & _ & -> & _); [|done].
  apply swap_reserves in H2 as (_ & _ & _ & _ & _ & _ & _ & _ & -> & _); [|done].
  apply by_output_tight; auto. lia.
Qed.
Print Assumptions C06_charge_is_tight.

Example C06_ex :
  (p ← ex_pool; '(_, ain) ← sp_swap_by_output p "A" 1000000 "B" None ex_fees false;
   '(_, o1) ← sp_swap p "A" ain "B" 0 ex_fees false;
   '(_, o2) ← sp_swap p "A" (ain - 2) "B" 0 ex_fees false; Some (ain, o1, o2))
  = Some (540913, 1000000, 999996).
Proof. vm_compute. reflexivity. Qed.

(** ** C07 *)
Theorem C07_add_then_remove p s offered p1 taken sh mins p2 back t :
  sp_reachable p ->
  sp_add_liquidity p s offered false = Some (p1, taken, sh) ->
  sp_remove_liquidity p1 s sh mins false = Some (p2, back) ->
  default 0 (lookup_beside t (sp_tokens p) back) <= default 0 (lookup_beside t (sp_tokens p) taken).
Proof.
  intros Hr H1 H2. apply sp_reachable_wf in Hr.
  pose proof (sp_wf_add _ _ _ _ _ _ Hr H1) as Hr1.
  pose proof Hr as (_ & Hl & _).
  destruct (sp_add_inv _ _ _ _ _ _ _ Hr H1) as (x & y & a & b & Hxy & -> & _ & _ & Hsh & _ & ta & tb & -> & _ & _ & Hp1 & Hc).
  destruct (sp_remove_inv _ _ _ _ _ _ _ Hr1 H2) as (x1 & y1 & m1 & m2 & Hxy1 & -> & HS & _ & _ & -> & _).
  subst p1. cbn [sp_amounts sp_supply] in *. injection Hxy1 as <- <-.
  destruct (sp_tokens p) as [|A [|B [|]]]; try discriminate Hl. cbn [lookup_beside].
  assert ((x + ta) * sh / (sp_supply p + sh) <= ta /\ (y + tb) * sh / (sp_supply p + sh) <= tb) as [Ha Hb].
  { destruct Hr as (_ & _ & (x' & y' & Hxy' & _ & _ & Hpos) & _). rewrite Hxy in Hxy'. injection Hxy' as <- <-.
    destruct Hc as [(HS0 & _ & _ & _)|(HS0 & _ & _ & _ & -> & ->)].
    - destruct Hpos as [(_ & -> & ->)|(? & _)]; [|lia]. rewrite HS0. rewrite !N.add_0_l, !N.div_mul by lia. lia.
    - split; now apply add_remove_le. }
  destruct (String.eqb A t), (String.eqb B t); cbn [default from_option]; unfold default; try done; lia.
Qed.
Print Assumptions C07_add_then_remove.

(** The pool takes at most what was offered. *)
Theorem C07_takes_at_most_offered p s offered v p1 taken sh t :
  sp_reachable p -> sp_add_liquidity p s offered v = Some (p1, taken, sh) ->
  default 0 (lookup_beside t (sp_tokens p) taken) <= default 0 (lookup_beside t (sp_tokens p) offered) /\
  sp_reserve p1 t = sp_reserve p t + default 0 (lookup_beside t (sp_tokens p) taken).
Proof.
  intros Hr H1. apply sp_reachable_wf in Hr. pose proof Hr as (_ & Hl & _).
  destruct (sp_add_inv _ _ _ _ _ _ _ Hr H1) as (x & y & a & b & Hxy & -> & Ha & Hb & Hsh & _ & ta & tb & -> & _ & _ & -> & Hc).
  assert (ta <= a /\ tb <= b) as [Hta Htb].
  { destruct Hc as [(_ & -> & -> & _)|(HS & Hx & Hy & -> & -> & ->)]; [lia|].
    split; apply taken_le_offer; auto using N.le_min_l, N.le_min_r. }
  unfold sp_reserve; cbn [sp_tokens sp_amounts]. rewrite Hxy.
  destruct (sp_tokens p) as [|A [|B [|]]]; try discriminate Hl. cbn [lookup_beside].
  destruct (String.eqb A t), (String.eqb B t); unfold default; try done; lia.
Qed.
Print Assumptions C07_takes_at_most_offered.

(** Whatever deposits and withdrawals others make, a holder's redeemable amounts never fall. *)
Theorem C07_no_dilution p os p' h t :
  sp_reachable p -> 0 < sp_share_of p h ->
  Forall (fun o => is_liquidity_op o /\ op_sender o <> Some h) os ->
  sp_run p os = Some p' ->
  sp_share_of p' h = sp_share_of p h /\ redeemable p h t <= redeemable p' h t.
Proof. intros Hr Hh Hos H. apply sp_reachable_wf in Hr. eapply liquidity_run; eauto. Qed.
Print Assumptions C07_no_dilution.

Example C07_no_dilution_ex :
  (p ← ex_pool; p' ← sp_run p [AddOp "carol" [12345; 99999]; RemoveOp "bob" 7777777777777777 [0; 0]];
   Some (sp_share_of p "alice", redeemable p "alice" "A", redeemable p' "alice" "A"))
  = Some (990000000000000000000000, 1028038905, 1028038905).
Proof. vm_compute. reflexivity. Qed.

(** ** C08 *)
(** floor-sqrt(reserve product) per share does not fall in a trade: k'/S' >= k/S. *)
Theorem C08_swap_share_value p ti a to mn f v p' out r r' :
  sp_reachable p -> sp_swap p ti a to mn f v = Some (p', out) -> admin_fee_bps f <= 10000 ->
  is_floor_sqrt (sp_reserve p ti * sp_reserve p to) r ->
  is_floor_sqrt (sp_reserve p' ti * sp_reserve p' to) r' ->
  r * sp_supply p' <= r' * sp_supply p.
Proof.
  intros Hr H Hb R1 R2. apply sp_reachable_wf in Hr.
  assert (r = N.sqrt (sp_reserve p ti * sp_reserve p to)) as ->
    by (symmetry; apply N.sqrt_unique; rewrite <- N.add_1_r; exact R1).
  assert (r' = N.sqrt (sp_reserve p' ti * sp_reserve p' to)) as ->
    by (symmetry; apply N.sqrt_unique; rewrite <- N.add_1_r; exact R2).
  apply sp_swap_inv in H as (Hne & Hmn & i & j & x & y & Hpi & Hpj & Hij & Hi & Hj & Hx & Hy & Ha & Hf & _ & H).
  destruct (sp_update_reserves _ _ _ _ _ _ _ _ _ _ _ _ Hr Hij Hpi Hpj Hi Hj H) as (-> & -> & -> & -> & _).
  pose proof (update_share_value _ _ _ _ _ _ _ _ _ _ Hij Hi Hj H Hb). lia.
Qed.
Print Assumptions C08_swap_share_value.

Theorem C08_swap_by_output_share_value p ti b to mx f v p' ain r r' :
  sp_reachable p -> sp_swap_by_output p ti b to mx f v = Some (p', ain) -> admin_fee_bps f <= 10000 ->
  is_floor_sqrt (sp_reserve p ti * sp_reserve p to) r ->
  is_floor_sqrt (sp_reserve p' ti * sp_reserve p' to) r' ->
  r * sp_supply p' <= r' * sp_supply p.
Proof.
  intros Hr H Hb R1 R2. apply sp_reachable_wf in Hr.
  assert (r = N.sqrt (sp_reserve p ti * sp_reserve p to)) as ->
    by (symmetry; apply N.sqrt_unique; rewrite <- N.add_1_r; exact R1).
  assert (r' = N.sqrt (sp_reserve p' ti * sp_reserve p' to)) as ->
    by (symmetry; apply N.sqrt_unique; rewrite <- N.add_1_r; exact R2).
  apply sp_swap_by_output_inv in H as (Hne & Hmn & i & j & x & y & Hpi & Hpj & Hij & Hi & Hj & Hx & Hy & Ha & Hlt & Hf & _ & H).
  destruct (sp_update_reserves _ _ _ _ _ _ _ _ _ _ _ _ Hr Hij Hpi Hpj Hi Hj H) as (-> & -> & -> & -> & _).
  pose proof (update_share_value _ _ _ _ _ _ _ _ _ _ Hij Hi Hj H Hb). lia.
Qed.
Print Assumptions C08_swap_by_output_share_value.

Example C08_ex :
  (p ← ex_pool; '(p', _) ← sp_swap p "A" 1000000 "B" 0 ex_fees false;
   Some (N.sqrt (sp_reserve p "A" * sp_reserve p "B"), N.sqrt (sp_reserve p' "A" * sp_reserve p' "B"),
         sp_supply p' - sp_supply p)) = Some (1980056621, 1980058663, 231010652524040181).
Proof. vm_compute. reflexivity. Qed.

(** ** C09 *)
Theorem C09_redemption_pro_rata p s sh mins p' out :
  sp_reachable p -> sp_remove_liquidity p s sh mins false = Some (p', out) ->
  (forall t, t ∈ sp_tokens p ->
     lookup_beside t (sp_tokens p) out = Some (sp_reserve p t * sh / sp_supply p) /\
     sp_reserve p' t + sp_reserve p t * sh / sp_supply p = sp_reserve p t) /\
  sh <= sp_share_of p s /\
  sp_share_of p' s = sp_share_of p s - sh /\
  (forall a, a <> s -> sp_share_of p' a = sp_share_of p a) /\
  sp_supply p' + sh = sp_supply p.
Proof.
  intros Hr H. apply sp_reachable_wf in Hr. pose proof Hr as (Hnd & Hl & _).
  destruct (sp_remove_inv _ _ _ _ _ _ _ Hr H) as (x & y & m1 & m2 & Hxy & -> & HS & Hx & Hy & -> &
    _ & _ & Hsh & Hlx & Hly & (b & Hb & Hsb) & ->).
  change (sp_share_of ?p ?h) with (shares_get (sp_shares p) h). cbn [sp_shares sp_supply].
  unfold sp_share_balance_of. rewrite shares_get_insert, (shares_get_Some _ _ _ Hb).
  split_and!; [|lia|lia|intros a Ha; rewrite shares_get_insert_ne by congruence; done|lia].
  intros t Ht. unfold sp_reserve; cbn [sp_tokens sp_amounts]. rewrite Hxy.
  destruct (sp_tokens p) as [|A [|B [|]]]; try discriminate Hl. cbn [lookup_beside].
  destruct (String.eqb_spec A t) as [->|], (String.eqb_spec B t) as [->|];
    try (exfalso; set_solver); cbn [from_option id]; split; try done; dlia.
Qed.
Print Assumptions C09_redemption_pro_rata.

(** A holder of all the shares receives the entire reserves and the pool is empty. *)
Theorem C09_last_holder_takes_all p s mins p' out t :
  sp_reachable p -> sp_remove_liquidity p s (sp_supply p) mins false = Some (p', out) -> t ∈ sp_tokens p ->
  lookup_beside t (sp_tokens p) out = Some (sp_reserve p t) /\ sp_reserve p' t = 0 /\ sp_supply p' = 0.
Proof.
  intros Hr H Ht.
  assert (HS : 0 < sp_supply p).
  { apply sp_reachable_wf in Hr. now apply sp_remove_inv in H as (? & ? & ? & ? & _ & _ & ? & _). }
  apply C09_redemption_pro_rata in H as (H & _ & _ & _ & Hs); [|done].
  destruct (H t Ht) as [-> E]. rewrite N.div_mul in * by lia. split_and!; auto; lia.
Qed.
Print Assumptions C09_last_holder_takes_all.

Example C09_ex :
  (p ← ex_pool; snd <$> sp_remove_liquidity p "alice" (10 ^ 23) [103842313; 192625186] false)
  = Some [103842313; 192625186].
Proof. vm_compute. reflexivity. Qed.

(** ** C10 (simple pools) *)
Theorem C10_swap_min_out p ti a to mn f v p' out :
  sp_swap p ti a to mn f v = Some (p', out) -> mn <= out.
Proof. intros H. now apply sp_swap_inv in H as (_ & ? & _). Qed.
Print Assumptions C10_swap_min_out.

Theorem C10_swap_by_output_max_in p ti b to mx f v p' ain :
  sp_swap_by_output p ti b to (Some mx) f v = Some (p', ain) -> ain <= mx.
Proof. intros H. apply sp_swap_by_output_inv in H as (_ & H & _). now apply H. Qed.
Print Assumptions C10_swap_by_output_max_in.

Theorem C10_remove_min_amounts p s sh mins v p' out :
  sp_reachable p -> sp_remove_liquidity p s sh mins v = Some (p', out) -> Forall2 N.le mins out.
Proof.
  intros Hr H. apply sp_reachable_wf in Hr.
  apply sp_remove_inv in H as (x & y & m1 & m2 & _ & -> & _ & _ & _ & -> & ? & ? & _); [|done]. auto.
Qed.
Print Assumptions C10_remove_min_amounts.

(** ** C11 *)
Theorem C11_integer_sqrt_exact a b :
  a < 2 ^ 128 -> b < 2 ^ 128 -> exists r, integer_sqrt (a * b) = Some r /\ is_floor_sqrt (a * b) r.
Proof.
  intros Ha Hb. pose proof (u128_mul_lt a b Ha Hb). exists (N.sqrt (a * b)).
  pose proof (integer_sqrt_total _ H) as E. split; [done|]. now apply integer_sqrt_spec.
Qed.
Print Assumptions C11_integer_sqrt_exact.

(** Any successful call is exact, and the [while] loop really ended (its guard is false). *)
Theorem C11_integer_sqrt_sound v r : integer_sqrt v = Some r -> is_floor_sqrt v r.
Proof. exact (integer_sqrt_spec v r). Qed.
Print Assumptions C11_integer_sqrt_sound.

Theorem C11_loop_terminates v :
  let st := sqrt_loop (N.size_nat v) v ((v + 1) / 2, v) in ~ (fst st < snd st).
Proof. intros st. apply N.nlt_ge. exact (integer_sqrt_terminates v). Qed.
Print Assumptions C11_loop_terminates.

Example C11_ex : integer_sqrt ((2 ^ 128 - 1) * (2 ^ 128 - 1)) = Some (2 ^ 128 - 1) /\ integer_sqrt 0 = Some 0
  /\ integer_sqrt 1000000000000000000000000000001 = Some (10 ^ 15).
Proof. vm_compute. auto. Qed.

(** ** C12 *)
(** The fee shares minted by a swap: total = referral part + exchange part; the referrer gets
    floor(total * its fee) if it is a registered LP of the pool and 0 otherwise; nobody else's
    shares change. *)
Theorem C12_fee_split p ti a to mn f p' out :
  sp_swap p ti a to mn f false = Some (p', out) ->
  exists total r,
    sp_supply p' = sp_supply p + total /\ r <= total /\
    match referral_info f with
    | Some (rid, rfee) =>
        (sp_shares p !! rid = None -> r = 0) /\
        (is_Some (sp_shares p !! rid) -> r = total * rfee / 10000) /\
        (forall a, sp_share_of p' a = sp_share_of p a + (if String.eqb rid a then r else 0)
                                     + (if String.eqb (exchange_id f) a then total - r else 0))
    | None =>
        r = 0 /\
        (forall a, sp_share_of p' a = sp_share_of p a + (if String.eqb (exchange_id f) a then total else 0))
    end.
Proof.
  intros H. apply sp_swap_inv in H as (_ & _ & i & j & x & y & _ & _ & Hij & _ & _ & _ & _ & _ & _ & _ & H).
  eapply update_fee_split; eauto.
Qed.
Print Assumptions C12_fee_split.

Theorem C12_fee_split_by_output p ti b to mx f p' ain :
  sp_swap_by_output p ti b to mx f false = Some (p', ain) ->
  exists total r,
    sp_supply p' = sp_supply p + total /\ r <= total /\
    match referral_info f with
    | Some (rid, rfee) =>
        (sp_shares p !! rid = None -> r = 0) /\
        (is_Some (sp_shares p !! rid) -> r = total * rfee / 10000) /\
        (forall a, sp_share_of p' a = sp_share_of p a + (if String.eqb rid a then r else 0)
                                     + (if String.eqb (exchange_id f) a then total - r else 0))
    | None =>
        r = 0 /\
        (forall a, sp_share_of p' a = sp_share_of p a + (if String.eqb (exchange_id f) a then total else 0))
    end.
Proof.
  intros H. apply sp_swap_by_output_inv in H as (_ & _ & i & j & x & y & _ & _ & Hij & _ & _ & _ & _ & _ & _ & _ & _ & H).
  eapply update_fee_split; eauto.
Qed.
Print Assumptions C12_fee_split_by_output.

Example C12_ex :
  (p ← ex_pool; '(p', _) ← sp_swap p "A" 1000000 "B" 0 ex_fees false;
   Some (sp_supply p' - sp_supply p, sp_share_of p' "ref" - sp_share_of p "ref"))
  = Some (231010652524040181, 23101065252404018).
Proof. vm_compute. reflexivity. Qed.

(** ** C13 *)
(** get_return quotes [out] exactly when the executed swap yields [out], whatever the referral. *)
Theorem C13_quote_equals_execution p ti a to bps exch ref out :
  sp_reachable p -> (forall rid rfee, ref = Some (rid, rfee) -> rfee <= 10000) ->
  (exists q, sp_swap p ti a to 0 (mkAdminFees bps exch None) true = Some (q, out)) <->
  (exists p', sp_swap p ti a to 0 (mkAdminFees bps exch ref) false = Some (p', out)).
Proof. intros Hr Hf. apply sp_reachable_wf in Hr. apply quote_eq; auto. Qed.
Print Assumptions C13_quote_equals_execution.

Theorem C13_quote_by_output_equals_execution p ti b to bps exch ref ain :
  sp_reachable p -> (forall rid rfee, ref = Some (rid, rfee) -> rfee <= 10000) ->
  (exists q, sp_swap_by_output p ti b to None (mkAdminFees bps exch None) true = Some (q, ain)) <->
  (exists p', sp_swap_by_output p ti b to None (mkAdminFees bps exch ref) false = Some (p', ain)).
Proof. intros Hr Hf. apply sp_reachable_wf in Hr. apply quote_by_output_eq; auto. Qed.
Print Assumptions C13_quote_by_output_equals_execution.
