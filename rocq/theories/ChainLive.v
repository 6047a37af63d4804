(** * Predicted chains of swaps execute: the steps *)
From Verif Require Import Base BaseLemmas SimplePool SimplePoolProofs SpecSimple SimplePoolInv SimpleFacts StableMath StablePool
  SpecStable StablePoolProofs StablePoolInv StableFacts Rates Echo Twap SpecTwap PropTwap.
From Verif Require Import PropSimple PropStable.
From Verif Require Import Account Pool Exchange SpecExchange AccountProofs PoolFacts
  ExchangeProofs ExchangeInv ExchangeEffect ExchangeFrames SpecWorld WorldProofs ExExample PropWorld SpecSwap SwapProofs SpecHistory HistoryProofs
  PropHistory TwapInv SpecRecords PropRecords SpecExit ExitProofs Views ViewProofs SpecSettings PropSettings SpecTradeLive TradeLive.

(** ** A view without referral does not look at the shares *)
Lemma sp_mint_view_ok p q a b s p' : sp_supply q = sp_supply p -> sp_mint_shares p a s true = Some p' ->
  exists q', sp_mint_shares q b s true = Some q' /\ sp_supply q' = sp_supply p'.
Proof.
  intros Hs H. unfold sp_mint_shares in *. destruct (s =? 0); [injection H as <-; eauto|]. rewrite Hs. both H s1 Hs1. injection H as <-. eauto.
Qed.
Lemma sp_update_view p m ii ai io ao f q : referral_info f = None ->
  sp_update_pool_and_distribute_fee (sp_set_shares p m) ii ai io ao f true = Some q ->
  exists q0, sp_update_pool_and_distribute_fee p ii ai io ao f true = Some q0.
Proof.
  intros Hr H. unfold sp_update_pool_and_distribute_fee in *. cbn [sp_amounts sp_set_shares] in H.
  both H in0 Hin0. both H out0 Hout0. both H k0 Hk0. both H pi Hpi. both H in1 Hin1. both H a1 Ha1. both H o Ho.
  both H out1 Hout1. both H a2 Ha2. cbv zeta in H |- *. both H in2 Hin2. both H out2 Hout2. both H k1 Hk1. both H ni Hni.
  bothg H. cbn [sp_supply sp_set_amounts sp_set_shares] in *. both H num Hnum.
  destruct ((0 <? admin_fee_bps f) && (0 <? num)); [|eauto].
  both H d Hd. both H den Hden. both H qq Hq. both H sh Hsh. unfold sp_referral_share in *. rewrite Hr in *. cbn [mbind option_bind] in *.
  replace (0 <? 0) with false in * by reflexivity. cbn [mbind option_bind] in *. both H rest Hrest.
  eapply sp_mint_view_ok in H as (q' & -> & _); [eauto|reflexivity].
Qed.
Lemma sp_swap_view p m ti a to mn f q o : referral_info f = None ->
  sp_swap (sp_set_shares p m) ti a to mn f true = Some (q, o) -> mn <= o /\ exists q0, sp_swap p ti a to 0 f true = Some (q0, o).
Proof.
  intros Hr H. unfold sp_swap in *. unfold sp_token_index, sp_internal_get_return in *. cbn [sp_tokens sp_amounts sp_fee sp_set_shares] in H.
  bothg H. both H ii Hii. both H io Hio. both H out Hout. grd H. apply N.leb_le in G0. rewrite ensure_intro by (apply N.leb_le; lia).
  cbn [mbind option_bind]. bnd H p2 Hp2. injection H as <- <-. split; [done|].
  eapply sp_update_view in Hp2 as (q0 & ->); [cbn [mbind option_bind]; eauto|done].
Qed.
Lemma sp_swap_by_output_view p m ti b to mx f q i : referral_info f = None ->
  sp_swap_by_output (sp_set_shares p m) ti b to mx f true = Some (q, i) ->
  (forall x, mx = Some x -> i <= x) /\ i < W128 /\ exists q0, sp_swap_by_output p ti b to None f true = Some (q0, i).
Proof.
  intros Hr H. unfold sp_swap_by_output in *. unfold sp_token_index, sp_internal_get_return_by_output in *. cbn [sp_tokens sp_amounts sp_fee sp_set_shares] in H.
  bothg H. both H ii Hii. both H io Hio. both H inp Hinp. grd H. rewrite ensure_intro by done.
  cbn [mbind option_bind]. bnd H p2 Hp2. injection H as <- <-. split; [intros x ->; now apply N.leb_le|]. split.
  - clear - Hinp. repeat (match type of Hinp with (mbind _ _ = _) => let z := fresh "z" in let Hz := fresh "Hz" in bnd Hinp z Hz end).
    first [now apply fit_Some in Hinp as [-> ?]|now apply cadd_Some in Hinp as [-> ?]|idtac].
  - eapply sp_update_view in Hp2 as (q0 & ->); [cbn [mbind option_bind]; eauto|done].
Qed.
Lemma st_mint_view_same p q a b s p' : st_supply q = st_supply p -> st_mint_shares p a s true = Some p' ->
  exists q', st_mint_shares q b s true = Some q' /\ st_supply q' = st_supply p'.
Proof.
  intros Hs H. unfold st_mint_shares in *. destruct (s =? 0); [injection H as <-; eauto|]. rewrite Hs. both H s1 Hs1. injection H as <-. eauto.
Qed.
Lemma st_distribute_view p e ex rf tid ca m q :
  st_distribute_admin_fee (st_set_shares p m) e ex rf 0 tid ca true = Some q ->
  exists q0, st_distribute_admin_fee p e ex rf 0 tid ca true = Some q0.
Proof.
  intros H. unfold st_distribute_admin_fee in *. unfold st_get_rates, st_curve in *. revert H. st_proj. intros H.
  both H rates Hrates. both H dep Hdep. both H q1 Hq. destruct q1 as [sh fee]. both H old Hold. both H v Hv. both H c' Hc'.
  replace (0 <? 0) with false in * by reflexivity. cbn [mbind option_bind] in *. bnd H p1 Hp1.
  eapply (st_mint_view_same _ (st_set_c p c') _ rf) in Hp1 as (p2 & -> & E2); [|reflexivity]. cbn [mbind option_bind]. both H rest Hrest.
  eapply (st_mint_view_same _ p2) in H as (q' & -> & _); [eauto|exact E2].
Qed.
Lemma st_swap_view p e m ti a to mn f q o : referral_info f = None ->
  st_swap (st_set_shares p m) e ti a to mn f true = Some (q, o) -> mn <= o /\ exists q0, st_swap p e ti a to 0 f true = Some (q0, o).
Proof.
  intros Hr H. unfold st_swap in *.
  unfold st_token_index, st_assert_rates_valid, st_get_rates, st_internal_get_return, st_to_c, st_from_c, st_curve, assert_min_reserve, fees_new in *.
  revert H. st_proj. intros H.
  bothg H. both H ix Hix. both H iy Hiy. bothg H. both H rates Hrates. both H r Hsw. both H amt Hamt. grd H. apply N.leb_le in G1.
  rewrite (ensure_intro (0 <=? amt)) by (apply N.leb_le; lia). cbn [mbind option_bind] in *. both H c1 Hc1. both H c2 Hc2. cbv zeta in H |- *.
  revert H. st_proj. intros H. bothg H. bnd H p2 Hp2. injection H as <- <-. split; [done|]. rewrite Hr in *.
  destruct ((0 <? admin_fee_bps f) && (0 <? sr_admin_fee r)); [|cbn [mbind option_bind]; eauto].
  change (st_set_c (st_set_shares p m) c2) with (st_set_shares (st_set_c p c2) m) in Hp2.
  apply st_distribute_view in Hp2 as (q0 & ->). cbn [mbind option_bind]. eauto.
Qed.
Lemma pl_swap_view p rs now m ti a to mn f q o : referral_info f = None ->
  pl_swap (pl_with p m) rs now ti a to mn f true = Some (q, o) -> mn <= o /\ exists q0, pl_swap p rs now ti a to 0 f true = Some (q0, o).
Proof.
  intros Hr H. destruct p as [s|s]; cbn [pl_swap pl_with] in *; bnd H x Hx; destruct x as [q' o']; injection H as <- <-.
  - apply sp_swap_view in Hx as (? & q0 & ->); eauto.
  - change (pl_env rs now (st_set_shares s m)) with (pl_env rs now s) in Hx. apply st_swap_view in Hx as (? & q0 & ->); eauto.
Qed.
Lemma pl_swap_by_output_view p m ti b to mx f q i : referral_info f = None ->
  pl_swap_by_output (pl_with p m) ti b to mx f true = Some (q, i) ->
  (forall x, mx = Some x -> i <= x) /\ i < W128 /\ exists q0, pl_swap_by_output p ti b to None f true = Some (q0, i).
Proof.
  intros Hr H. destruct p as [s|s]; cbn [pl_swap_by_output pl_with] in *; [|discriminate]. bnd H x Hx; destruct x as [q' o']; injection H as <- <-.
  apply sp_swap_by_output_view in Hx as (? & ? & q0 & ->); eauto.
Qed.

(** ** One swap inside a call *)
(** The pools [P] keep their tokens exactly, have no average record and counters with room for [n] more trades. *)
Definition open_for (c : Exchange) (P : list N) (n : N) : Prop :=
  forall pid p, pid ∈ P -> ex_pool c pid = Some p ->
    (forall t, t ∈ pl_tokens p -> pl_exact p t) /\ ex_twap c !! pid = None /\
    Forall (fun x => fst x + n * 2 ^ 128 <= 2 ^ 256 /\ snd x + n * 2 ^ 128 <= 2 ^ 256) (ex_volumes_of c pid p).
Definition going (now : N) (c : Exchange) (P : list N) (n : N) : Prop :=
  ex_wf now c /\ counters_sized c /\ few_pools c /\ open_for c P n.
Lemma vol_update_room v ii io a b v' n : a < 2 ^ 128 -> b < 2 ^ 128 -> vol_update v ii io a b = Some v' ->
  Forall (fun x => fst x + (n + 1) * 2 ^ 128 <= 2 ^ 256 /\ snd x + (n + 1) * 2 ^ 128 <= 2 ^ 256) v ->
  Forall (fun x => fst x + n * 2 ^ 128 <= 2 ^ 256 /\ snd x + n * 2 ^ 128 <= 2 ^ 256) v'.
Proof.
  intros Ha Hb H HF. unfold vol_update in H. bnd H x Hx. destruct x as [x y]. bnd H x' Hx'. apply cadd_Some in Hx' as [-> _]. cbv zeta in H.
  bnd H z Hz. destruct z as [x2 y2]. bnd H y' Hy'. apply cadd_Some in Hy' as [-> _]. injection H as <-.
  set (w := 2 ^ 128) in *. set (W := 2 ^ 256) in *. clearbody w W.
  assert (Hx0 := Forall_lookup_1 _ _ _ _ HF Hx). cbn [fst snd] in Hx0.
  assert (F1 : Forall (fun x => fst x + n * w <= W /\ snd x + (n + 1) * w <= W) (<[ii := (x + a, y)]> v)).
  { apply Forall_insert; [|cbn [fst snd]; lia]. eapply Forall_impl; [exact HF|]. intros [q s]. cbn [fst snd]. lia. }
  assert (Hz0 := Forall_lookup_1 _ _ _ _ F1 Hz). cbn [fst snd] in Hz0.
  apply Forall_insert; [|cbn [fst snd]; lia]. eapply Forall_impl; [exact F1|]. intros [q s]. cbn [fst snd]. lia.
Qed.
Lemma pl_same_exact p p' t : pl_same p p' -> pl_exact p t -> pl_exact p' t.
Proof.
  intros (Hk & Ht & Hd). destruct p as [q|q], p' as [q'|q']; cbn [pl_exact pl_kind pl_tokens pl_decimals] in *; try discriminate; auto.
  injection Hk as Hk. unfold st_dec. rewrite Hk, Ht, Hd. auto.
Qed.
(** The state after a swap in pool [pid] that has no average record. *)
Lemma going_swap now c P n pid p p' ii io a b v :
  going now c P (n + 1) -> pid ∈ P -> ex_pool c pid = Some p -> pl_same p p' -> a < 2 ^ 128 -> b < 2 ^ 128 ->
  vol_update (ex_volumes_of c pid p) ii io a b = Some v ->
  ex_wf now (ex_put_pool (ex_put_volumes c pid v) pid p') ->
  going now (ex_put_pool (ex_put_volumes c pid v) pid p') P n.
Proof.
  intros (Hwf & Hsz & Hfew & Hop) HP Hp Hsame Ha Hb Hv Hwf'. pose proof (few_pools_id _ _ _ Hfew Hp) as Hmod.
  split; [exact Hwf'|]. split; [|split].
  - replace c with (ex_set_twap c (ex_twap c)) by now destruct c. eapply sized_swap; eauto. apply Hsame.
  - unfold few_pools in *. cbn [ex_pools ex_put_pool ex_set_pools ex_put_volumes ex_set_volumes]. now rewrite insert_length.
  - intros pid' q HP' Hq. unfold ex_pool, ex_put_pool in Hq. cbn [ex_pools ex_set_pools ex_put_volumes ex_set_volumes] in Hq.
    unfold ex_volumes_of. cbn [ex_volumes ex_twap ex_put_pool ex_set_pools ex_put_volumes ex_set_volumes].
    destruct (decide (pid = pid')) as [<-|Hn].
    + rewrite list_lookup_insert in Hq by (eapply lookup_lt_Some; exact Hp). injection Hq as <-. destruct (Hop pid p HP Hp) as (He & Ht & Hr).
      split; [|split; [exact Ht|]].
      * intros t Htt. eapply pl_same_exact; [exact Hsame|]. apply He. destruct Hsame as (_ & <- & _). exact Htt.
      * rewrite lookup_insert. exact (vol_update_room _ _ _ _ _ _ _ Ha Hb Hv Hr).
    + rewrite list_lookup_insert_ne in Hq by lia. destruct (Hop pid' q HP' Hq) as (He & Ht & Hr). split; [exact He|]. split; [exact Ht|].
      rewrite lookup_insert_ne.
      2: { rewrite Hmod. rewrite (few_pools_id c pid' q Hfew Hq). done. }
      unfold ex_volumes_of in Hr. eapply Forall_impl; [exact Hr|]. intros [x y]. cbn [fst snd]. set (w := 2 ^ 128). set (W := 2 ^ 256). clearbody w W. lia.
Qed.
Lemma vol_room_intro c pid p ii io a b n :
  Forall (fun x => fst x + (n + 1) * 2 ^ 128 <= 2 ^ 256 /\ snd x + (n + 1) * 2 ^ 128 <= 2 ^ 256) (ex_volumes_of c pid p) ->
  counters_sized c -> few_pools c -> ex_pool c pid = Some p -> a < W128 -> b < W128 ->
  (ii < length (pl_tokens p))%nat -> (io < length (pl_tokens p))%nat -> exists v, vol_update (ex_volumes_of c pid p) ii io a b = Some v.
Proof.
  intros HF Hsz Hfew Hp Ha Hb Hi Ho. pose proof (volumes_of_sized _ _ _ Hsz Hfew Hp) as Hl. apply vol_update_intro; rewrite ?Hl; auto.
  eapply Forall_impl; [exact HF|]. intros [x y]. cbn [fst snd]. set (w := 2 ^ 128). set (W := 2 ^ 256). clearbody w W. lia.
Qed.
(** Every pool of the cache is one of the exchange. *)
Definition cache_known (c0 : Exchange) (pc : gmap N Pool) (c : Exchange) : Prop := forall pid q, pc_get c0 pc pid = Some q -> is_Some (ex_pool c pid).
Lemma known_put c0 pc c pid p p' q c' : cache_known c0 pc c -> ex_pool c pid = Some p -> ex_pools c' = ex_pools (ex_put_pool c pid p') ->
  cache_known c0 (<[pid := q]> pc) c'.
Proof.
  intros Hk Hp E pid' q' H. unfold ex_pool. rewrite E. cbn [ex_put_pool ex_pools ex_set_pools].
  apply lookup_lt_is_Some. rewrite insert_length. apply lookup_lt_is_Some. unfold pc_get in H. destruct (decide (pid = pid')) as [<-|Hn].
  - exists p. exact Hp.
  - rewrite lookup_insert_ne in H by done. exact (Hk pid' q' H).
Qed.

Definition referral_fits (r : option (AccountId * N)) : Prop := forall rid rfee, r = Some (rid, rfee) -> rfee <= FEE_DIVISOR.
Lemma chain_swap c0 pc c e P n pid ti x to mn r pc' o :
  e_now e < 2 ^ 64 -> referral_fits r ->
  going (e_now e) c P (n + 1) -> follows c0 pc c -> cache_known c0 pc c -> pid ∈ P -> x < W128 ->
  pc_swap c0 (e_now e) pc pid ti x to mn None = Some (pc', o) ->
  exists c', ex_pool_swap c e pid ti x to mn r = Some (c', o) /\ going (e_now e) c' P n /\ follows c0 pc' c' /\ cache_known c0 pc' c'.
Proof.
  intros HW Href Hg Hf Hk HP Hx H. pose proof Hg as (Hwf & Hsz & Hfew & Hop). pose proof H as H'. unfold pc_swap in H'. bnd H' q Hq. bnd H' y Hy. destruct y as [q' o']. injection H' as <- <-.
  destruct (Hk _ _ Hq) as [p Hp]. destruct (proj2 Hf _ _ Hp) as (m & Hg' & Hm). rewrite Hq in Hg'. injection Hg' as ->.
  pose proof (proj1 Hf) as (Hcfg & Hrt & Hself). destruct (Hop _ _ HP Hp) as (Hex & Htw & Hroom).
  pose proof (pl_reachable_wf _ _ (ex_wf_pool _ _ _ _ Hwf Hp)) as Hpw.
  rewrite <- Hrt, <- (ex_fees_same c0 c None (proj1 Hf)) in Hy.
  pose proof (pl_swap_small _ _ _ _ _ _ _ _ _ _ _ Hy) as Ho.
  destruct (pl_swap_view _ _ _ _ _ _ _ _ (ex_fees_ref c None) _ _ eq_refl Hy) as (Hmn & q0 & Hv).
  assert (Hto : to ∈ pl_tokens p) by (eapply pl_swap_view_out; eauto).
  destruct (pl_swap_quoted p (ex_rates c) (e_now e) ti x to mn (ex_fees_ref c r) (ex_fees_ref c None) q0 o') as [p' Hp']; auto.
  pose proof (pl_swap_spec _ _ _ _ _ _ _ _ _ _ Hpw Hp') as (Hst & _ & _ & Hi & Hj & _). apply pl_step_same in Hst as Hsame; [|done]. pose proof Hsame as (_ & Htok & _).
  assert (E : exists c', ex_pool_swap c e pid ti x to mn r = Some (c', o') /\ exists v ii io, vol_update (ex_volumes_of c pid p) ii io x o' = Some v /\
    c' = ex_put_pool (ex_put_volumes c pid v) pid p').
  { unfold ex_pool_swap, ex_update_twap. rewrite Htw. cbn [mbind option_bind]. rewrite Hp. cbn [mbind option_bind]. rewrite Hp'. cbn [mbind option_bind]. rewrite Htok.
    destruct (position_elem ti (pl_tokens p) Hi) as [ii Eii]. destruct (position_elem to (pl_tokens p) Hj) as [jj Ejj].
    rewrite Eii. cbn [mbind option_bind].
    assert (Hio : exists io, (match p' with PSimple _ => Some ii | PStable _ => position to (pl_tokens p) end) = Some io /\ (io < length (pl_tokens p))%nat).
    { destruct p'; [exists ii|exists jj]; (split; [done|eapply position_lt; eauto]). }
    destruct Hio as (io & Eio & Lio). rewrite Eio. cbn [mbind option_bind].
    destruct (vol_room_intro c pid p ii io x o' n) as [v Hvu]; auto; [eapply position_lt; eauto|].
    rewrite Hvu. cbn [mbind option_bind]. eexists. split; [reflexivity|]. exists v, ii, io. auto. }
  destruct E as (c' & Hc' & v & ii & io & Hvu & ->). eexists. split; [exact Hc'|].
  pose proof (ex_pool_swap_spec _ _ _ _ _ _ _ _ _ _ _ Hwf (N.le_refl _) HW Hc') as (Hwf' & _).
  split; [exact (going_swap _ _ _ _ _ _ _ ii io x o' v Hg HP Hp Hsame Hx Ho Hvu Hwf')|].
  destruct (pc_swap_sim c0 pc c e pid ti x to mn r None _ _ Hf (or_introl eq_refl) Hc') as (pc2 & K & Hf2 & _). rewrite H in K. injection K as <-.
  split; [exact Hf2|]. eapply known_put; [exact Hk|exact Hp|reflexivity].
Qed.
Lemma chain_swap_by_output c0 pc c e P n pid ti x to mx r pc' i :
  e_now e < 2 ^ 64 -> referral_fits r ->
  going (e_now e) c P (n + 1) -> follows c0 pc c -> cache_known c0 pc c -> pid ∈ P -> x < W128 ->
  pc_swap_by_output c0 pc pid ti x to mx None = Some (pc', i) ->
  i < W128 /\ exists c', ex_pool_swap_by_output c e pid ti x to mx r = Some (c', i) /\ going (e_now e) c' P n /\ follows c0 pc' c' /\ cache_known c0 pc' c'.
Proof.
  intros HW Href Hg Hf Hk HP Hx H. pose proof Hg as (Hwf & Hsz & Hfew & Hop). pose proof H as H'. unfold pc_swap_by_output in H'. bnd H' q Hq. bnd H' y Hy. destruct y as [q' o']. injection H' as <- <-.
  destruct (Hk _ _ Hq) as [p Hp]. destruct (proj2 Hf _ _ Hp) as (m & Hg' & Hm). rewrite Hq in Hg'. injection Hg' as ->.
  pose proof (proj1 Hf) as (Hcfg & Hrt & Hself). destruct (Hop _ _ HP Hp) as (Hex & Htw & Hroom).
  pose proof (pl_reachable_wf _ _ (ex_wf_pool _ _ _ _ Hwf Hp)) as Hpw.
  rewrite <- (ex_fees_same c0 c None (proj1 Hf)) in Hy.
  destruct (pl_swap_by_output_view _ _ _ _ _ _ (ex_fees_ref c None) _ _ eq_refl Hy) as (Hmx & Hi128 & q0 & Hv). split; [exact Hi128|].
  destruct (pl_swap_by_output_quoted p ti x to mx (ex_fees_ref c r) (ex_fees_ref c None) q0 o') as [p' Hp']; auto.
  pose proof (pl_swap_by_output_spec _ (ex_rates c) (e_now e) _ _ _ _ _ _ _ Hpw Hp') as (Hst & _ & _ & Hi & Hj & _). apply pl_step_same in Hst as Hsame; [|done]. pose proof Hsame as (_ & Htok & _).
  assert (E : exists c', ex_pool_swap_by_output c e pid ti x to mx r = Some (c', o') /\ exists v ii io, vol_update (ex_volumes_of c pid p) ii io o' x = Some v /\
    c' = ex_put_pool (ex_put_volumes c pid v) pid p').
  { unfold ex_pool_swap_by_output, ex_update_twap. rewrite Htw. cbn [mbind option_bind]. rewrite Hp. cbn [mbind option_bind]. rewrite Hp'. cbn [mbind option_bind]. rewrite Htok.
    destruct (position_elem ti (pl_tokens p) Hi) as [ii Eii]. destruct (position_elem to (pl_tokens p) Hj) as [jj Ejj].
    rewrite Eii. cbn [mbind option_bind].
    assert (Hio : exists io, (match p' with PSimple _ => Some ii | PStable _ => position to (pl_tokens p) end) = Some io /\ (io < length (pl_tokens p))%nat).
    { destruct p'; [exists ii|exists jj]; (split; [done|eapply position_lt; eauto]). }
    destruct Hio as (io & Eio & Lio). rewrite Eio. cbn [mbind option_bind].
    destruct (vol_room_intro c pid p ii io o' x n) as [v Hvu]; auto; [eapply position_lt; eauto|].
    rewrite Hvu. cbn [mbind option_bind]. eexists. split; [reflexivity|]. exists v, ii, io. auto. }
  destruct E as (c' & Hc' & v & ii & io & Hvu & ->). eexists. split; [exact Hc'|].
  pose proof (ex_pool_swap_by_output_spec _ _ _ _ _ _ _ _ _ _ _ Hwf (N.le_refl _) HW Hc') as (Hwf' & _).
  split; [exact (going_swap _ _ _ _ _ _ _ ii io o' x v Hg HP Hp Hsame Hi128 Hx Hvu Hwf')|].
  destruct (pc_swap_by_output_sim c0 pc c e pid ti x to mx r None _ _ Hf (or_introl eq_refl) Hc') as (pc2 & K & Hf2 & _). rewrite H in K. injection K as <-.
  split; [exact Hf2|]. eapply known_put; [exact Hk|exact Hp|reflexivity].
Qed.

(** ** Chains *)
Lemma ac_withdraw_cached m acc t x m' : cached m acc -> tc_sub m t x = Some m' -> exists acc', ac_withdraw acc t x = Some acc' /\ cached m' acc'.
Proof.
  intros Hc H. pose proof Hc as [Hd Hc']. destruct (Hc' t) as [E _].
  assert (exists acc', ac_withdraw acc t x = Some acc') as [acc' Ha].
  { unfold tc_sub in H. unfold ac_withdraw. destruct (N.eqb_spec x 0) as [->|Hx]; [cbn; eauto|]. bnd H y Hy. bnd H z Hz. apply csub_Some in Hz as [-> Hle].
    rewrite Hy in E. cbn [default from_option Datatypes.id] in E. unfold ac_held, ac_get_balance in E.
    rewrite (proj2 (N.ltb_lt 0 x)) by lia. destruct (ac_legacy acc !! t) as [yl|] eqn:El.
    - rewrite (Hd t yl El) in E. cbn [default from_option Datatypes.id] in E. subst yl. rewrite csub_intro by lia. cbn [mbind option_bind]. eauto.
    - destruct (ac_tokens acc !! t) as [yt|]; cbn [default from_option Datatypes.id] in E; [|lia]. subst yt. cbn [mbind option_bind]. rewrite csub_intro by lia. cbn [mbind option_bind]. eauto. }
  exists acc'. split; [exact Ha|]. destruct (tc_sub_cached _ _ _ _ _ Hc Ha) as (m2 & K & Hc2). congruence.
Qed.
Lemma ac_deposit_cached m acc t x m' : cached m acc -> x < W128 -> tc_add m t x = Some m' -> exists acc', ac_deposit acc t x = Some acc' /\ cached m' acc'.
Proof.
  intros Hc Hx H. pose proof Hc as [Hd Hc']. destruct (Hc' t) as [E _].
  assert (Hs : ac_held acc t + x < W128).
  { unfold tc_add in H. destruct (m !! t) as [y|]; cbn [default from_option Datatypes.id] in E; [|lia]. bnd H z Hz. apply cadd_Some in Hz as [-> ?]. lia. }
  destruct (ac_deposit_intro acc t x Hd Hs) as (acc' & Ha & _). exists acc'. split; [exact Ha|].
  destruct (tc_add_cached _ _ _ _ _ Hc Hx Ha) as (m2 & K & Hc2). congruence.
Qed.
Lemma finalize_cached m acc pi prev m' : cached m acc -> pc_finalize m pi prev = Some m' -> exists acc', ex_finalize acc pi prev = Some acc' /\ cached m' acc'.
Proof.
  intros Hc H. unfold pc_finalize, ex_finalize in *. destruct pi as [t|]; [|injection H as <-; eauto].
  both H x Hx. eapply ac_withdraw_cached; eauto.
Qed.
Definition prev_fits (prev : option N) : Prop := forall y, prev = Some y -> y < W128.
Lemma amount_fits am prev x : match am with Some y => y < W128 | None => True end -> prev_fits prev ->
  (match am with Some y => Some y | None => prev end) = Some x -> x < W128.
Proof. destruct am as [y|]; intros Ha Hp E; [now injection E as <-|auto]. Qed.
Lemma chain_action c0 pc c e acc m r P n a prev pc' m' x :
  e_now e < 2 ^ 64 -> referral_fits r -> going (e_now e) c P (n + 1) -> follows c0 pc c -> cache_known c0 pc c -> cached m acc ->
  act_pool a ∈ P -> act_u128 a -> prev_fits prev ->
  pc_exec_action c0 (e_now e) pc m None a prev = Some (pc', m', x) ->
  x < W128 /\ exists c' acc', ex_exec_action c e acc r a prev = Some (c', acc', x) /\ going (e_now e) c' P n /\ follows c0 pc' c' /\ cache_known c0 pc' c' /\ cached m' acc'.
Proof.
  intros HW Href Hg Hf Hk Hc HP Hu Hpr H. unfold pc_exec_action in H. destruct a as [pid ti am to mn|pid ti am to mx]; cbn [act_pool act_u128] in HP, Hu.
  - bnd H y Hy. pose proof (amount_fits _ _ _ Hu Hpr Hy) as Hy128. bnd H m1 H1. bnd H q Hq. destruct q as [pc1 o]. bnd H m2 H2. injection H as <- <- <-.
    destruct (ac_withdraw_cached _ _ _ _ _ Hc H1) as (acc1 & E1 & Hc1).
    destruct (chain_swap c0 pc c e P n pid ti y to mn r pc1 o) as (c1 & E2 & Hg1 & Hf1 & Hk1); auto.
    assert (Ho : o < W128) by (unfold pc_swap in Hq; bnd Hq p Hp; bnd Hq z Hz; destruct z as [p' o']; injection Hq as _ <-; eapply pl_swap_small; eauto).
    destruct (ac_deposit_cached _ _ _ _ _ Hc1 Ho H2) as (acc2 & E3 & Hc2). split; [exact Ho|]. exists c1, acc2.
    split; [|auto]. unfold ex_exec_action. rewrite Hy. cbn [mbind option_bind]. rewrite E1. cbn [mbind option_bind]. rewrite E2. cbn [mbind option_bind]. now rewrite E3.
  - bnd H y Hy. pose proof (amount_fits _ _ _ Hu Hpr Hy) as Hy128. bnd H q Hq. destruct q as [pc1 o]. injection H as <- <- <-.
    destruct (chain_swap_by_output c0 pc c e P n pid ti y to mx r pc1 o) as (Ho & c1 & E2 & Hg1 & Hf1 & Hk1); auto.
    split; [exact Ho|]. exists c1, acc. split; [|auto]. unfold ex_exec_action. rewrite Hy. cbn [mbind option_bind]. now rewrite E2.
Qed.
Lemma chain_swap_loop c0 e r P : e_now e < 2 ^ 64 -> referral_fits r -> forall l pc c acc m prev pc' m',
  going (e_now e) c P (N.of_nat (length l)) -> follows c0 pc c -> cache_known c0 pc c -> cached m acc ->
  Forall (fun a => act_pool a ∈ P) l -> Forall act_u128 l -> prev_fits prev ->
  pc_swap_loop c0 (e_now e) pc m None l prev = Some (pc', m') ->
  exists c' acc' res, ex_swap_loop c e acc r l prev = Some (c', acc', res) /\ follows c0 pc' c' /\ cache_known c0 pc' c' /\ cached m' acc'.
Proof.
  intros HW Href. induction l as [|a l IH]; intros pc c acc m prev pc' m' Hg Hf Hk Hc HP Hu Hpr H; cbn [pc_swap_loop ex_swap_loop] in *.
  - injection H as <- <-. eauto 10.
  - bnd H q Hq. destruct q as [[pc1 m1] x]. inversion HP; subst. inversion Hu; subst.
    replace (N.of_nat (length (a :: l))) with (N.of_nat (length l) + 1) in Hg by (cbn [length]; lia).
    destruct (chain_action c0 pc c e acc m r P (N.of_nat (length l)) a prev pc1 m1 x) as (Hx & c1 & acc1 & E & Hg1 & Hf1 & Hk1 & Hc1); auto.
    rewrite E. cbn [mbind option_bind]. eapply IH; eauto. intros y [= <-]. exact Hx.
Qed.
Lemma chain_output_loop c0 e r P : e_now e < 2 ^ 64 -> referral_fits r -> forall l pc c acc m pi prev pc' m',
  going (e_now e) c P (N.of_nat (length l)) -> follows c0 pc c -> cache_known c0 pc c -> cached m acc ->
  Forall (fun a => act_pool a ∈ P) l -> Forall act_u128 l -> prev_fits prev ->
  pc_output_loop c0 (e_now e) pc m None l pi prev = Some (pc', m') ->
  exists c' acc' res, ex_output_loop c e acc r l pi prev = Some (c', acc', res) /\ follows c0 pc' c' /\ cache_known c0 pc' c' /\ cached m' acc'.
Proof.
  intros HW Href. induction l as [|a l IH]; intros pc c acc m pi prev pc' m' Hg Hf Hk Hc HP Hu Hpr H; cbn [pc_output_loop ex_output_loop] in *.
  - bnd H m1 H1. injection H as <- <-. destruct (finalize_cached _ _ _ _ _ Hc H1) as (acc1 & -> & Hc1). cbn [mbind option_bind]. eauto 10.
  - inversion HP; subst. inversion Hu as [|? ? Ha Hu']; subst. bnd H m1 H1.
    assert (exists acc1, (match a with
            | ASwapByOutput _ _ (Some x) to _ => acc0 ← ex_finalize acc pi prev; ac_deposit acc0 to x
            | ASwapByOutput _ _ None to _ => t ← pi; _ ← ensure (String.eqb t to); Some acc
            | ASwap _ _ _ _ _ => None
            end) = Some acc1 /\ cached m1 acc1) as (acc1 & -> & Hc1).
    { destruct a as [|pid ti [x|] to mx]; [discriminate| |].
      - bnd H1 m0 H0. destruct (finalize_cached _ _ _ _ _ Hc H0) as (acc0 & -> & Hc0). cbn [mbind option_bind]. eapply ac_deposit_cached; eauto.
      - both H1 t Ht. bothg H1. injection H1 as <-. eauto. }
    cbn [mbind option_bind]. bnd H q Hq. destruct q as [[pc1 m2] x].
    replace (N.of_nat (length (a :: l))) with (N.of_nat (length l) + 1) in Hg by (cbn [length]; lia).
    destruct (chain_action c0 pc c e acc1 m1 r P (N.of_nat (length l)) a prev pc1 m2 x) as (Hx & c1 & acc2 & E & Hg1 & Hf1 & Hk1 & Hc2); auto.
    rewrite E. cbn [mbind option_bind]. eapply IH; eauto. intros y [= <-]. exact Hx.
Qed.
(** The pools of the chain exist and are no degen pools, whose prices would be refreshed. *)
Definition no_degen (c : Exchange) (l : list Action) : Prop :=
  Forall (fun a => exists p, ex_pool c (act_pool a) = Some p /\ pl_kind p <> STABLE_SWAP KDegen) l.
Lemma no_degen_tokens c l : no_degen c l -> ex_degen_tokens c l = Some [].
Proof.
  induction 1 as [|a l (p & Hp & Hk) _ IH]; [done|]. cbn [ex_degen_tokens]. rewrite Hp. cbn [mbind option_bind]. rewrite IH. cbn [mbind option_bind].
  destruct (pl_kind p) as [|k]; [done|]. destruct k; try done.
Qed.
Lemma no_degen_swapped c c' l : swap_frame c c' -> no_degen c l -> no_degen c' l.
Proof.
  intros (_ & _ & _ & _ & _ & H) Hn. eapply Forall_impl; [exact Hn|]. intros a (p & Hp & Hk).
  unfold ex_pool in *. eapply Forall2_lookup_l in H as (p' & Hp' & (Hk' & _) & _); [|exact Hp]. exists p'. split; [exact Hp'|]. congruence.
Qed.
Lemma chain_execute c e acc m r l prev skip pc' m' :
  e_now e < 2 ^ 64 -> referral_fits r -> going (e_now e) c (map act_pool l) (N.of_nat (length l)) -> cached m acc -> Forall act_u128 l -> prev_fits prev ->
  skip = true \/ no_degen c l ->
  pc_execute c (e_now e) m None l prev = Some (pc', m') ->
  exists c' acc' res, ex_execute c e acc r l prev skip = Some (c', acc', res) /\ follows c pc' c' /\ cache_known c pc' c' /\ cached m' acc'.
Proof.
  intros HW Href Hg Hc Hu Hpr Hsk H. unfold pc_execute in H. unfold ex_execute. bothg H. bothg H. both H a0 Ha0.
  assert (HP : Forall (fun a => act_pool a ∈ map act_pool l) l).
  { apply Forall_forall. intros a Ha. apply elem_of_list_In, in_map, elem_of_list_In, Ha. }
  assert (Hk : cache_known c ∅ c) by (intros pid q Hq; unfold pc_get in Hq; rewrite lookup_empty in Hq; eauto).
  assert (exists c' acc' res, (if is_swap a0 then ex_swap_loop c e acc r l prev else ex_output_loop c e acc r l None prev) = Some (c', acc', res) /\
    follows c pc' c' /\ cache_known c pc' c' /\ cached m' acc') as (c' & acc' & res & E & Hf' & Hk' & Hc').
  { destruct (is_swap a0).
    - eapply (chain_swap_loop c e r (map act_pool l) HW Href l ∅ c acc m prev); auto using follows_start.
    - eapply (chain_output_loop c e r (map act_pool l) HW Href l ∅ c acc m None prev); auto using follows_start. }
  assert (Hs : swap_frame c c').
  { assert (K : ex_execute c e acc r l prev true = Some (c', acc', res)).
    { unfold ex_execute. rewrite G. cbn [mbind option_bind]. rewrite G0. cbn [mbind option_bind]. rewrite Ha0. cbn [mbind option_bind]. rewrite E. reflexivity. }
    apply ex_execute_moved in K as (_ & ? & _); [done|apply Hg|done|apply Hc]. }
  rewrite E. cbn [mbind option_bind].
  assert (Hsync : (if skip then Some tt else ts ← ex_degen_tokens c' l; rs_batch_update_request (ex_rates c') ts) = Some tt).
  { destruct skip; [done|]. destruct Hsk as [|Hn]; [discriminate|]. rewrite (no_degen_tokens c' l) by (eapply no_degen_swapped; eauto). reflexivity. }
  rewrite Hsync. cbn [mbind option_bind]. eauto 10.
Qed.

(** ** Storage *)
(** [a'] comes from [a] by moving tokens, with new entries for tokens in [ts] only. *)
Definition grown (ts : list AccountId) (a a' : Account) : Prop :=
  ac_legacy a' = ∅ /\ ac_near a' = ac_near a /\ forall u, is_Some (ac_tokens a' !! u) -> is_Some (ac_tokens a !! u) \/ u ∈ ts.
Lemma grown_refl ts a : ac_legacy a = ∅ -> grown ts a a.
Proof. intros H. split_and!; auto. Qed.
Lemma grown_trans ts a a1 a2 : grown ts a a1 -> grown ts a1 a2 -> grown ts a a2.
Proof. intros (_ & N1 & T1) (L2 & N2 & T2). split; [exact L2|]. split; [congruence|]. intros u Hu. destruct (T2 u Hu) as [H|H]; auto. Qed.
Lemma grown_withdraw ts a t x a' : ac_legacy a = ∅ -> ac_withdraw a t x = Some a' -> grown ts a a'.
Proof.
  intros Hl H. pose proof (ac_withdraw_legacy _ _ _ _ H Hl) as Hl'. unfold ac_withdraw in H. destruct (0 <? x); [|injection H as <-; now apply grown_refl].
  rewrite Hl, lookup_empty in H. bnd H y Hy. bnd H z Hz. injection H as <-. split; [exact Hl'|]. split; [reflexivity|]. cbn [ac_tokens ac_set_tokens].
  intros u. destruct (decide (t = u)) as [<-|Hn]; [rewrite Hy; eauto|]. rewrite lookup_insert_ne by done. auto.
Qed.
Lemma grown_deposit ts a t x a' : ac_legacy a = ∅ -> t ∈ ts -> ac_deposit a t x = Some a' -> grown ts a a'.
Proof.
  intros Hl Ht H. pose proof (ac_deposit_legacy _ _ _ _ H Hl) as Hl'. unfold ac_deposit in H. destruct (0 <? x); [|injection H as <-; now apply grown_refl].
  rewrite Hl, lookup_empty in H. assert (E : exists z, a' = ac_set_tokens a (<[t := z]> (ac_tokens a))).
  { destruct (ac_tokens a !! t) as [y|]; [bnd H z Hz|]; injection H as <-; eauto. }
  destruct E as [z ->]. split; [exact Hl'|]. split; [reflexivity|]. cbn [ac_tokens ac_set_tokens].
  intros u. destruct (decide (t = u)) as [<-|Hn]; [auto|]. rewrite lookup_insert_ne by done. auto.
Qed.
Lemma grown_finalize ts a pi prev a' : ac_legacy a = ∅ -> ex_finalize a pi prev = Some a' -> grown ts a a'.
Proof. intros Hl H. unfold ex_finalize in H. destruct pi as [t|]; [|injection H as <-; now apply grown_refl]. bnd H x Hx. eapply grown_withdraw; eauto. Qed.
Lemma grown_action ts c e acc r a prev c' acc' x : ac_legacy acc = ∅ -> act_out a ∈ ts -> ex_exec_action c e acc r a prev = Some (c', acc', x) -> grown ts acc acc'.
Proof.
  intros Hl Ht H. destruct a as [pid ti am to mn|pid ti am to mx]; cbn [ex_exec_action act_out] in *; bnd H y Hy.
  - bnd H a1 H1. bnd H q Hq. destruct q as [c1 o]. bnd H a2 H2. injection H as <- <- <-. pose proof (grown_withdraw ts _ _ _ _ Hl H1) as G1.
    eapply grown_trans; [exact G1|]. eapply grown_deposit; [apply G1|exact Ht|exact H2].
  - bnd H q Hq. destruct q as [c1 o]. injection H as <- <- <-. now apply grown_refl.
Qed.
Lemma grown_swap_loop ts e r l : Forall (fun a => act_out a ∈ ts) l -> forall c acc prev c' acc' res, ac_legacy acc = ∅ ->
  ex_swap_loop c e acc r l prev = Some (c', acc', res) -> grown ts acc acc'.
Proof.
  induction 1 as [|a l Ha _ IH]; intros c acc prev c' acc' res Hl H; cbn [ex_swap_loop] in H; [injection H as <- <- <-; now apply grown_refl|].
  bnd H q Hq. destruct q as [[c1 acc1] x]. pose proof (grown_action ts _ _ _ _ _ _ _ _ _ Hl Ha Hq) as G1. eapply grown_trans; [exact G1|]. eapply IH; [apply G1|exact H].
Qed.
Lemma grown_output_loop ts e r l : Forall (fun a => act_out a ∈ ts) l -> forall c acc pi prev c' acc' res, ac_legacy acc = ∅ ->
  ex_output_loop c e acc r l pi prev = Some (c', acc', res) -> grown ts acc acc'.
Proof.
  induction 1 as [|a l Ha _ IH]; intros c acc pi prev c' acc' res Hl H; cbn [ex_output_loop] in H.
  - bnd H a1 H1. injection H as <- <- <-. eapply grown_finalize; eauto.
  - bnd H acc1 H1. bnd H q Hq. destruct q as [[c1 acc2] x].
    assert (G1 : grown ts acc acc1).
    { destruct a as [|pid ti [y|] to mx]; [discriminate| |].
      - bnd H1 a0 H0. pose proof (grown_finalize ts _ _ _ _ Hl H0) as G0. eapply grown_trans; [exact G0|]. eapply grown_deposit; [apply G0|exact Ha|exact H1].
      - bnd H1 t Ht. grd H1. injection H1 as <-. now apply grown_refl. }
    pose proof (grown_action ts _ _ _ _ _ _ _ _ _ (proj1 G1) Ha Hq) as G2. eapply grown_trans; [exact G1|]. eapply grown_trans; [exact G2|]. eapply IH; [apply G2|exact H].
Qed.
Lemma grown_execute c e acc r l prev skip c' acc' res : ac_legacy acc = ∅ -> ex_execute c e acc r l prev skip = Some (c', acc', res) -> grown (map act_out l) acc acc'.
Proof.
  intros Hl H. unfold ex_execute in H. grd H. grd H. bnd H a0 Ha0. bnd H q Hq. destruct q as [[c1 a1] x]. bnd H u Hu. injection H as <- <- <-.
  assert (Ho : Forall (fun a => act_out a ∈ map act_out l) l) by (apply Forall_forall; intros a Ha; apply elem_of_list_In, in_map, elem_of_list_In, Ha).
  destruct (is_swap a0); [eapply grown_swap_loop|eapply grown_output_loop]; eauto.
Qed.
Lemma size_list_le (l : list AccountId) : (size (list_to_set l : gset AccountId) <= length l)%nat.
Proof.
  induction l as [|x l IH]; cbn [list_to_set length]; [rewrite size_empty; lia|].
  rewrite size_union_alt, size_singleton. etransitivity; [apply Nat.add_le_mono_l, subseteq_size, subseteq_difference_l; reflexivity|]. lia.
Qed.
Lemma grown_size ts a a' : grown ts a a' -> (size (ac_tokens a') <= size (ac_tokens a) + length (filter (fun t => ac_tokens a !! t = None) ts))%nat.
Proof.
  intros (_ & _ & H). rewrite <- !size_dom. set (fl := filter _ ts).
  transitivity (size (dom (ac_tokens a) ∪ list_to_set fl)).
  - apply subseteq_size. intros u Hu. apply elem_of_dom in Hu. apply elem_of_union. rewrite elem_of_dom, elem_of_list_to_set.
    destruct (ac_tokens a !! u) as [y|] eqn:E; [left; eauto|]. right. destruct (H u Hu) as [Hs|Hs]; [rewrite E in Hs; destruct Hs; discriminate|].
    apply elem_of_list_filter. auto.
  - rewrite size_union_alt. apply Nat.add_le_mono_l. etransitivity; [apply subseteq_size, subseteq_difference_l; reflexivity|]. apply size_list_le.
Qed.
Lemma grown_usage ts a a' : ac_legacy a = ∅ -> grown ts a a' -> ac_storage_usage a + new_entries a ts * (148 * 10 ^ 19) <= ac_near a -> ac_storage_usage a' <= ac_near a'.
Proof.
  intros Hl H Hc. pose proof (grown_size _ _ _ H) as Hs. destruct H as (Hl' & -> & _). unfold ac_storage_usage, new_entries in *. rewrite Hl in Hc. rewrite Hl'.
  set (n := length _) in *. set (s := size (ac_tokens a)) in *. set (s' := size (ac_tokens a')) in *. clearbody n s s'.
  assert (N.of_nat s' <= N.of_nat s + N.of_nat n) by lia. unfold TOKEN_ENTRY_STORAGE, LEGACY_ENTRY_STORAGE, INIT_ACCOUNT_STORAGE, STORAGE_BYTE_COST in *.
  set (k := 10 ^ 19) in *. clearbody k. set (z := N.of_nat (size ∅)) in *. clearbody z. nia.
Qed.
Lemma withdraw_held a t x : ac_disjoint a -> x <= ac_held a t -> exists a', ac_withdraw a t x = Some a'.
Proof.
  intros Hd Hx. unfold ac_held, ac_get_balance in Hx. unfold ac_withdraw. destruct (N.ltb_spec 0 x) as [H0|H0]; [|eauto].
  destruct (ac_legacy a !! t) as [y|] eqn:El.
  - rewrite (Hd t y El) in Hx. cbn [default from_option Datatypes.id] in Hx. rewrite csub_intro by lia. cbn [mbind option_bind]. eauto.
  - destruct (ac_tokens a !! t) as [y|]; cbn [default from_option Datatypes.id] in Hx; [|lia]. cbn [mbind option_bind]. rewrite csub_intro by lia. cbn [mbind option_bind]. eauto.
Qed.
Lemma va_take_intro l : forall a va, ac_disjoint a -> ac_disjoint va -> NoDup l.*1 ->
  (forall t x, (t, x) ∈ l -> x <= ac_held a t /\ ac_held va t + x < W128) -> exists a' va', va_take a va l = Some (a', va').
Proof.
  induction l as [|[t x] l IH]; intros a va Hd Hdv Hn H; cbn [va_take]; [eauto|]. apply NoDup_cons in Hn as [Hni Hn].
  destruct (H t x) as [H1 H2]; [left|]. destruct (withdraw_held a t x Hd H1) as [a1 E1]. destruct (ac_deposit_intro va t x Hdv H2) as (va1 & E2 & _).
  rewrite E1. cbn [mbind option_bind]. rewrite E2. cbn [mbind option_bind].
  pose proof (ac_withdraw_spec _ _ _ _ Hd E1) as ((Hd1 & _) & Hh1 & _). pose proof (ac_deposit_spec _ _ _ _ Hdv E2) as ((Hd2 & _) & Hh2 & _).
  apply IH; auto. intros u y Hu. destruct (H u y) as [K1 K2]; [now right|].
  assert (Hne : t <> u). { intros <-. apply Hni. apply elem_of_list_fmap. exists (t, y). auto. }
  specialize (Hh1 u). specialize (Hh2 u). rewrite only_ne in Hh1, Hh2 by done. lia.
Qed.
Lemma va_take_grown ts l : forall a va a' va', ac_legacy a = ∅ -> va_take a va l = Some (a', va') -> grown ts a a'.
Proof.
  induction l as [|[t x] l IH]; intros a va a' va' Hl H; cbn [va_take] in H; [injection H as <- <-; now apply grown_refl|].
  bnd H a1 H1. bnd H v1 H2. pose proof (grown_withdraw ts _ _ _ _ Hl H1) as G1. eapply grown_trans; [exact G1|]. eapply IH; [apply G1|exact H].
Qed.
Lemma deposit_list_intro l : forall a, ac_disjoint a -> NoDup l.*1 -> (forall t x, (t, x) ∈ l -> ac_held a t + x < W128) -> exists a', ac_deposit_list a l = Some a'.
Proof.
  induction l as [|[t x] l IH]; intros a Hd Hn H; cbn [ac_deposit_list]; [eauto|]. apply NoDup_cons in Hn as [Hni Hn].
  destruct (ac_deposit_intro a t x Hd) as (a1 & E & _); [apply H; left|]. rewrite E. cbn [mbind option_bind].
  pose proof (ac_deposit_spec _ _ _ _ Hd E) as ((Hd1 & _) & Hh & _). apply IH; auto. intros u y Hu.
  assert (Hne : t <> u). { intros <-. apply Hni. apply elem_of_list_fmap. exists (t, y). auto. }
  specialize (Hh u). rewrite only_ne in Hh by done. specialize (H u y). rewrite Hh, N.add_0_r. apply H. now right.
Qed.
Lemma deposit_list_grown ts l : forall a a', ac_legacy a = ∅ -> (forall t x, (t, x) ∈ l -> x <> 0 -> t ∈ ts) -> ac_deposit_list a l = Some a' -> grown ts a a'.
Proof.
  induction l as [|[t x] l IH]; intros a a' Hl Ht H; cbn [ac_deposit_list] in H; [injection H as <-; now apply grown_refl|].
  bnd H a1 H1. assert (G1 : grown ts a a1).
  { destruct (N.eq_dec x 0) as [->|Hx]; [injection H1 as <-; now apply grown_refl|]. eapply grown_deposit; [exact Hl| |exact H1]. eapply Ht; [left|exact Hx]. }
  eapply grown_trans; [exact G1|]. eapply IH; [apply G1| |exact H]. intros u y Hu. eapply Ht. right. exact Hu.
Qed.
