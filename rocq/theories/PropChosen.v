(** * C95: quotes at chosen rates *)
From Verif Require Import Base BaseLemmas SimplePool SpecSimple StableMath StablePool SpecStable Rates Account Pool Exchange SpecExchange
  ExchangeProofs ExchangeInv ExchangeFrames SpecWorld WorldProofs PropWorld Views ViewProofs PropViews Listing ExExample PropCap.

(** What the exchange has recorded as rates (or dollar prices) of the tokens [ts], for the pools of kind [k]. *)
Definition recorded (c : Exchange) (k : StableKind) (ts : list AccountId) (rs : list N) : Prop :=
  Forall2 (fun t x => match k with
                      | KRated => x = match rs_rates (ex_rates c) !! t with Some r => rt_rate r | None => 10 ^ 24 end
                      | KDegen => exists d, rs_degens (ex_rates c) !! t = Some d /\ fst <$> dg_info d = Some x
                      | KStable => False
                      end) ts rs.
(** The two exchanges have the same pool [pid] and charge the same fee; the recorded rates, accounts and all else may differ. *)
Definition same_pool (c c' : Exchange) (pid : N) (q : StablePool) : Prop :=
  ex_pool c pid = Some (PStable q) /\ ex_pool c' pid = Some (PStable q) /\
  cf_admin_fee (ex_cfg c) = cf_admin_fee (ex_cfg c') /\ ex_self c = ex_self c'.

Lemma recorded_rates c now q rs : st_kind q <> KStable -> recorded c (st_kind q) (st_tokens q) rs <-> st_get_rates q (pl_env (ex_rates c) now q) = Some rs.
Proof.
  intros Hk. unfold st_get_rates, pl_env, recorded. destruct (st_kind q); [done| |]; cbn [rs_pool_env pe_rate]; rewrite mapM__Forall2; split; intros HF; (eapply Forall2_impl; [exact HF|]); intros t x.
  - now intros ->.
  - now intros [= <-].
  - intros (d & -> & H). exact H.
  - intros H. bnd H d Hd. eauto.
Qed.
Lemma rated_pool_at c pid q : ex_pool c pid = Some (PStable q) -> st_kind q <> KStable -> rated_pool c (st_kind q) pid = Some q.
Proof. intros Hp Hk. unfold rated_pool. rewrite Hp. cbn [mbind option_bind]. now destruct (st_kind q). Qed.
Lemma env_now rs now q : pe_now (pl_env rs now q) = now.
Proof. unfold pl_env, rs_pool_env. now destruct (st_kind q). Qed.
Lemma same_fees c c' : cf_admin_fee (ex_cfg c) = cf_admin_fee (ex_cfg c') -> ex_self c = ex_self c' -> ex_fees c = ex_fees c'.
Proof. unfold ex_fees. now intros -> ->. Qed.

(** The quote for [rs] is what the trade yields, in this exchange or in any other with this pool, once [rs] are the recorded rates.
    Without rates it is the quote for the recorded ones.  Some rates have to be recorded where the quote is asked for, even if
    others are given; those of rated pools always are. *)
Theorem C95_rated_recorded c q : st_kind q = KRated -> exists rs, recorded c (st_kind q) (st_tokens q) rs.
Proof.
  intros Hk. destruct (mapM_ (pe_rate (pl_env (ex_rates c) 0 q)) (st_tokens q)) as [rs|] eqn:E.
  - exists rs. apply (recorded_rates c 0); [congruence|]. unfold st_get_rates. rewrite Hk. exact E.
  - exfalso. revert E. unfold pl_env. rewrite Hk. cbn [rs_pool_env pe_rate]. induction (st_tokens q) as [|t ts IH]; cbn [mapM_ mbind option_bind]; [discriminate|].
    destruct (mapM_ _ ts); [discriminate|]. intros _. now apply IH.
Qed.
Print Assumptions C95_rated_recorded.
Theorem C95_unrecorded c now pid q : ex_pool c pid = Some (PStable q) -> st_kind q <> KStable -> (forall rs, ~ recorded c (st_kind q) (st_tokens q) rs) ->
  (forall ti x to rs, v_rated_return c now (st_kind q) pid ti x to rs = None) /\ (forall am rs, v_rated_add c now (st_kind q) pid am rs = None) /\
  (forall am rs, v_rated_remove c now (st_kind q) pid am rs = None).
Proof.
  intros Hp Hk Hn. assert (E : st_get_rates q (pl_env (ex_rates c) now q) = None).
  { destruct (st_get_rates _ _) as [rs|] eqn:E; [|reflexivity]. apply (recorded_rates c now q rs Hk) in E. now apply Hn in E. }
  unfold v_rated_return, v_rated_add, v_rated_remove, st_get_rated_return, st_predict_add, st_predict_remove_by_tokens, st_given_rates.
  rewrite !(rated_pool_at _ pid q) by done. cbn [mbind option_bind]. rewrite E. cbn [mbind option_bind]. split_and!; intros; unfold ensure.
  - destruct (negb _); [|reflexivity]. cbn [mbind option_bind]. destruct (st_token_index q ti); [|reflexivity]. cbn [mbind option_bind]. now destruct (st_token_index q to).
  - now destruct (_ =? _)%nat.
  - destruct (st_amounts_to_c q am); [|reflexivity]. cbn [mbind option_bind]. destruct (vsub _ _); [|reflexivity]. cbn [mbind option_bind]. now destruct (forallb _ _).
Qed.
Print Assumptions C95_unrecorded.
Theorem C95_trade c c' e pid q ti x to mn r skip c2 y rs :
  same_pool c c' pid q -> st_kind q <> KStable -> (exists rs0, recorded c (st_kind q) (st_tokens q) rs0) -> recorded c' (st_kind q) (st_tokens q) rs ->
  ex_swap c' e [ASwap pid ti (Some x) to mn] r skip = Some (c2, y) ->
  v_rated_return c (e_now e) (st_kind q) pid ti x to (Some rs) = Some y /\
  v_rated_return c' (e_now e) (st_kind q) pid ti x to None = Some y.
Proof.
  intros (Hp & Hp' & Hf & Hs) Hk [rs0 Hr0] Hr H. apply (recorded_rates c (e_now e) q) in Hr0; [|done]. apply C57_get_return in H. unfold v_get_return in H. rewrite Hp' in H. cbn [mbind option_bind pl_swap] in H.
  bnd H z Hz. destruct z as [p2 o]. injection H as <-. cbn [pl_swap] in Hz. bnd Hz z Hsw. destruct z as [q2 o2]. injection Hz as _ <-.
  unfold st_swap in Hsw. grd Hsw. bnd Hsw ix Hix. bnd Hsw iy Hiy. bnd Hsw u Hu. bnd Hsw rs' Hrs. pose proof Hrs as E. apply recorded_rates in E; [|done].
  pose proof (proj1 (recorded_rates c' (e_now e) q rs Hk) Hr) as E2. rewrite Hrs in E2. injection E2 as ->. clear E.
  bnd Hsw res Hres. bnd Hsw am Ham. grd Hsw. bnd Hsw z0 Hz0. bnd Hsw c1 Hc1. bnd Hsw c3 Hc3. bnd Hsw z1 Hz1. bnd Hsw p3 Hp3. injection Hsw as _ <-.
  unfold v_rated_return. rewrite !(rated_pool_at _ pid q) by done. cbn [mbind option_bind]. unfold st_get_rated_return, st_given_rates. rewrite G. change (ensure true) with (Some tt). rewrite Hix, Hiy. cbn [mbind option_bind].
  rewrite Hrs, Hr0. cbn [mbind option_bind default from_option id]. rewrite !env_now in *. rewrite (same_fees _ _ Hf Hs), Hres. cbn [mbind option_bind]. auto.
Qed.
Print Assumptions C95_trade.
(** Likewise the shares for a deposit.  Into a pool without shares the view demands fresh recorded rates even when others
    are given. *)
Theorem C95_add c c' e pid q am mn c2 ps sh rs :
  same_pool c c' pid q -> st_kind q <> KStable -> (exists rs0, recorded c (st_kind q) (st_tokens q) rs0) -> recorded c' (st_kind q) (st_tokens q) rs ->
  ex_add_stable_liquidity c' e pid am mn = Some (c2, ps, sh) ->
  (0 < st_supply q -> v_rated_add c (e_now e) (st_kind q) pid am (Some rs) = Some sh) /\
  v_rated_add c' (e_now e) (st_kind q) pid am None = Some sh.
Proof.
  intros (Hp & Hp' & Hf & Hs) Hk [rs0 Hr0] Hr H. apply (recorded_rates c (e_now e) q) in Hr0; [|done]. apply C57_add_stable in H as [H _]. unfold v_predict_add_stable in H. rewrite Hp' in H. cbn [mbind option_bind] in H.
  bnd H z Hz. destruct z as [p2 o]. injection H as <-. cbn [pl_add_stable_liquidity] in Hz. bnd Hz z Hsw. destruct z as [q2 o2]. injection Hz as _ <-.
  unfold st_add_liquidity in Hsw. grd Hsw. bnd Hsw rs' Hrs. pose proof (proj1 (recorded_rates c' (e_now e) q rs Hk) Hr) as E2. rewrite Hrs in E2. injection E2 as ->.
  bnd Hsw z Hz. destruct z as [ns fp]. grd Hsw. bnd Hsw ca Hca. bnd Hsw c1 Hc1. bnd Hsw p1 Hp1. bnd Hsw p3 Hp3. injection Hsw as _ <-.
  unfold v_rated_add. rewrite !(rated_pool_at _ pid q) by done. cbn [mbind option_bind]. unfold st_predict_add, st_given_rates. rewrite G. change (ensure true) with (Some tt). cbn [mbind option_bind]. rewrite Hrs, Hr0. cbn [mbind option_bind default from_option id]. rewrite Hz. cbn [mbind option_bind].
  split; [|reflexivity]. intros Hpos. unfold st_calc_add_liquidity in *. cbv zeta in *. rewrite env_now in *. bnd Hz cam Hcam. rewrite Hcam. cbn [mbind option_bind].
  replace (st_supply q =? 0) with false in * by (symmetry; apply N.eqb_neq; lia). rewrite (same_fees _ _ Hf Hs), Hz. reflexivity.
Qed.
Print Assumptions C95_add.
(** Likewise the shares burnt for amounts taken out. *)
Theorem C95_remove c c' e pid q am mx c2 burn rs :
  same_pool c c' pid q -> st_kind q <> KStable -> (exists rs0, recorded c (st_kind q) (st_tokens q) rs0) -> recorded c' (st_kind q) (st_tokens q) rs ->
  ex_remove_by_tokens c' e pid am mx = Some (c2, burn) ->
  v_rated_remove c (e_now e) (st_kind q) pid am (Some rs) = Some burn /\
  v_rated_remove c' (e_now e) (st_kind q) pid am None = Some burn.
Proof.
  intros (Hp & Hp' & Hf & Hs) Hk [rs0 Hr0] Hr H. apply (recorded_rates c (e_now e) q) in Hr0; [|done]. apply C57_remove_by_tokens in H. unfold v_predict_remove_by_tokens in H. rewrite Hp' in H. cbn [mbind option_bind] in H.
  bnd H z Hz. destruct z as [p2 o]. injection H as <-. cbn [pl_remove_by_tokens] in Hz. bnd Hz z Hsw. destruct z as [q2 o2]. injection Hz as _ <-.
  unfold st_remove_by_tokens in Hsw. grd Hsw. bnd Hsw ca Hca. bnd Hsw c1 Hc1. grd Hsw. bnd Hsw u Hu. bnd Hsw rs' Hrs. pose proof (proj1 (recorded_rates c' (e_now e) q rs Hk) Hr) as E2. rewrite Hrs in E2. injection E2 as ->.
  bnd Hsw z Hz. destruct z as [b fp]. bnd Hsw m Hm. bnd Hsw s Hs'. cbv zeta in Hsw. bnd Hsw p3 Hp3. injection Hsw as _ <-.
  unfold v_rated_remove. rewrite !(rated_pool_at _ pid q) by done. cbn [mbind option_bind]. unfold st_predict_remove_by_tokens, st_given_rates. rewrite Hca. cbn [mbind option_bind]. rewrite Hc1. cbn [mbind option_bind]. rewrite G0. change (ensure true) with (Some tt). cbn [mbind option_bind].
  rewrite Hrs, Hr0. cbn [mbind option_bind default from_option id]. rewrite !env_now in *. rewrite (same_fees _ _ Hf Hs), Hz. auto.
Qed.
Print Assumptions C95_remove.

(** The details shown of a pool are those of get_pool, the decimals and balances as kept, and the rates at which it is quoted. *)
Theorem C95_detail c now pid q i x : ex_pool c pid = Some (PStable q) -> v_get_pool_detail c now pid = Some (i, x) ->
  v_get_pool c now pid = Some i /\ exists r, x = Some (st_decimals q, st_c q, r) /\ (st_kind q = KStable -> r = None) /\
  (st_kind q <> KStable -> exists rs, r = Some rs /\ recorded c (st_kind q) (st_tokens q) rs).
Proof.
  intros Hp H. unfold v_get_pool_detail, v_get_pool in *. rewrite Hp in *. cbn [mbind option_bind] in *. bnd H j Hj. rewrite Hj.
  destruct (st_kind q) eqn:Ek.
  - injection H as <- <-. split; [reflexivity|]. exists None. split_and!; auto. done.
  - bnd H r Hr. injection H as <- <-. split; [reflexivity|]. exists (Some r). split_and!; [done|done|]. intros Hn. exists r. split; [done|].
    rewrite <- Ek in Hn |- *. apply (recorded_rates c now q r Hn). exact Hr.
  - bnd H r Hr. injection H as <- <-. split; [reflexivity|]. exists (Some r). split_and!; [done|done|]. intros Hn. exists r. split; [done|].
    rewrite <- Ek in Hn |- *. apply (recorded_rates c now q r Hn). exact Hr.
Qed.
Print Assumptions C95_detail.

(** ** Examples *)
Definition cap_pool : StablePool := match ex_pool (w_ex w_cap) 0 with Some (PStable q) => q | _ => mkStablePool KStable [] [] [] 0 ∅ 0 0 0 0 0 end.
Lemma cap_pool_at : ex_pool (w_ex w_cap) 0 = Some (PStable cap_pool).
Proof.
  unfold cap_pool. assert (K : match ex_pool (w_ex w_cap) 0 with Some (PStable _) => true | _ => false end = true) by (vm_compute; reflexivity).
  destruct (ex_pool (w_ex w_cap) 0) as [[q|q]|]; [discriminate|reflexivity|discriminate].
Qed.
(** The degen pool of PropCap at 1 and 2 dollars: the quotes without prices, with the recorded prices and with others *)
Example C95_ex : same_pool (w_ex w_cap) (w_ex w_cap) 0 cap_pool /\ st_kind cap_pool = KDegen /\
  recorded (w_ex w_cap) KDegen (st_tokens cap_pool) [10 ^ 24; 2 * 10 ^ 24] /\
  (snd <$> ex_swap (w_ex w_cap) (env 112 "bo" 1) [ASwap 0 "v" (Some (900 * 10 ^ 18)) "u" 0] None false) = v_rated_return (w_ex w_cap) 112 KDegen 0 "v" (900 * 10 ^ 18) "u" None /\
  v_rated_return (w_ex w_cap) 112 KDegen 0 "v" (900 * 10 ^ 18) "u" None = v_rated_return (w_ex w_cap) 112 KDegen 0 "v" (900 * 10 ^ 18) "u" (Some [10 ^ 24; 2 * 10 ^ 24]) /\
  (match v_rated_return (w_ex w_cap) 112 KDegen 0 "v" (900 * 10 ^ 18) "u" None, v_rated_return (w_ex w_cap) 112 KDegen 0 "v" (900 * 10 ^ 18) "u" (Some [10 ^ 24; 10 ^ 24]) with
   | Some x, Some y => y <? x | _, _ => false end) = true.
Proof.
  split; [split_and!; try reflexivity; apply cap_pool_at|]. split; [vm_compute; reflexivity|].
  split; [|split; [vm_compute; reflexivity|split; vm_compute; reflexivity]].
  assert (E : st_tokens cap_pool = ["u"; "v"]%string) by (vm_compute; reflexivity). rewrite E. constructor; [|constructor; [|constructor]].
  - destruct (rs_degens (ex_rates (w_ex w_cap)) !! "u"%string) as [d|] eqn:Ed; [|exfalso; revert Ed; vm_compute; discriminate]. exists d. split; [reflexivity|].
    assert (K : (d ← rs_degens (ex_rates (w_ex w_cap)) !! "u"%string; fst <$> dg_info d) = Some (10 ^ 24)) by (vm_compute; reflexivity). rewrite Ed in K. exact K.
  - destruct (rs_degens (ex_rates (w_ex w_cap)) !! "v"%string) as [d|] eqn:Ed; [|exfalso; revert Ed; vm_compute; discriminate]. exists d. split; [reflexivity|].
    assert (K : (d ← rs_degens (ex_rates (w_ex w_cap)) !! "v"%string; fst <$> dg_info d) = Some (2 * 10 ^ 24)) by (vm_compute; reflexivity). rewrite Ed in K. exact K.
Qed.
(** A quote is no promise: it is also given for prices that have expired, at which get_return and the trade are refused. *)
Theorem C95_expired_refuted :
  w_reach w_fresh w_cap /\
  done_ (v_rated_return (w_ex w_cap) (7200 * 10 ^ 9) KDegen 0 "v" (900 * 10 ^ 18) "u" None) = true /\
  v_get_return (w_ex w_cap) (7200 * 10 ^ 9) 0 "v" (900 * 10 ^ 18) "u" = None /\
  w_step w_cap (EvCall (env (7200 * 10 ^ 9) "bo" 1) (CSwap [ASwap 0 "v" (Some (900 * 10 ^ 18)) "u" 0] None false)) = None.
Proof.
  split; [|split; [vm_compute; reflexivity|split; vm_compute; reflexivity]]. eapply w_run_reach; [apply w_reach_refl|]. apply (run_default w_fresh (w_run w_fresh cap_events)). vm_compute. reflexivity.
Qed.
Print Assumptions C95_expired_refuted.
