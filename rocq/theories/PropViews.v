(** * C55 predicted swaps, C56 predicted zaps, C57 quotes and liquidity predictions *)
From Verif Require Import Base BaseLemmas SimplePool SimplePoolProofs SpecSimple SimplePoolInv StableMath StablePool
  SpecStable StablePoolProofs StablePoolInv Rates Echo Twap Account Pool Exchange Views SpecExchange AccountProofs PoolFacts
  ExchangeProofs ExchangeInv ExchangeEffect ExchangeFrames ViewProofs SpecWorld WorldProofs ExExample PropWorld SpecSwap SwapProofs PropSwap.

(** Two lists of tokens with amounts say the same about every token. *)
Definition says (m : gmap AccountId N) (l : list (AccountId * N)) : Prop := forall t, amount_in_list t l = default 0 (m !! t).

(** ** C55 *)
Lemma cached_take acc acc1 va use :
  ac_disjoint acc -> map_Forall (fun _ x => x < W128) use -> va_take acc ac_new (map_to_list use) = Some (acc1, va) ->
  cached use va /\ ac_disjoint acc1 /\ ac_legacy va = ∅ /\ forall u, ac_held acc1 u + default 0 (use !! u) = ac_held acc u.
Proof.
  intros Hd Hu H. assert (Hn : ac_disjoint ac_new) by (intros u y; unfold ac_new; cbn [ac_legacy]; now rewrite lookup_empty).
  pose proof (va_take_legacy _ _ _ _ _ H eq_refl) as Hl.
  apply va_take_spec in H as (F1 & F2 & H1 & H2); [|done|done].
  assert (E : forall u, amount_in_list u (map_to_list use) = default 0 (use !! u)) by (intros u; now apply amount_in_msum).
  split; [split; [apply F2|]|split; [apply F1|split; [exact Hl|]]].
  - intros u. rewrite H2, E. change (ac_held ac_new u) with 0. split; [lia|]. destruct (use !! u) as [x|] eqn:Ex; cbn [default from_option Datatypes.id].
    + rewrite N.add_0_l. exact (Hu u x Ex).
    + vm_compute. reflexivity.
  - intros u. now rewrite <- E.
Qed.

(** execute_actions_in_va: if it succeeds, predict_swap_actions called in the same state with the same deposits
    and actions succeeds and answers exactly the tokens credited back; whatever the referral. *)
Theorem C55_virtual_account c e use l r skip c' outs :
  ex_wf (e_now e) c -> map_Forall (fun _ x => x < W128) use -> Forall act_u128 l ->
  ex_execute_in_va c e use l r skip = Some (c', outs) ->
  exists m, v_predict_swap_actions c (e_now e) use l = Some m /\ says m outs /\
    forall t, held_by c' (e_caller e) t + default 0 (use !! t) = held_by c (e_caller e) t + default 0 (m !! t).
Proof.
  intros Hwf Hu Hl H. apply ex_execute_in_va_inv in H as (acc & acc1 & va & c1 & va' & res & acc2 & _ & _ & Hacc & Ht & Hx & -> & Hd & _ & ->).
  destruct (cached_take _ _ _ _ (ex_wf_account _ _ _ _ Hwf Hacc) Hu Ht) as (Hc & Hd1 & Hl1 & Hh1).
  pose proof (ex_execute_legacy _ _ _ _ _ _ _ _ _ _ Hx Hl1) as Hl2.
  destruct (pc_execute_sim _ _ _ _ _ None _ _ _ _ _ _ Hc (or_introl eq_refl) Hl Hx) as (pc & m & K & _ & [Hd2 Hc2] & _).
  exists m. unfold v_predict_swap_actions. rewrite K. split; [reflexivity|]. split.
  - intros t. rewrite va_out_held by done. symmetry. apply Hc2.
  - intros t. apply ac_deposit_list_spec in Hd as [_ Hh2]; [|done]. rewrite held_by_put, String.eqb_refl, Hh2, (held_by_account _ _ _ _ Hacc), <- (Hh1 t), va_out_held by done.
    destruct (Hc2 t) as [-> _]. lia.
Qed.
Print Assumptions C55_virtual_account.

(** swap, swap_by_output and execute_actions on the caller's own deposits: predict_swap_actions called with the
    caller's deposits answers exactly the deposits after the call. *)
Theorem C55_own_deposits c e l r skip c' res d :
  ex_wf (e_now e) c -> (forall t, held_by c (e_caller e) t < W128) -> Forall act_u128 l ->
  ex_execute_actions c e l r skip = Some (c', res) ->
  (forall t, default 0 (d !! t) = held_by c (e_caller e) t) ->
  exists m, v_predict_swap_actions c (e_now e) d l = Some m /\ forall t, default 0 (m !! t) = held_by c' (e_caller e) t.
Proof.
  intros Hwf Hs Hl H Hd. apply ex_execute_actions_inv in H as (acc & c1 & acc' & _ & _ & Hacc & _ & Hx & _ & ->).
  assert (Hc : cached d acc).
  { split; [exact (ex_wf_account _ _ _ _ Hwf Hacc)|]. intros t. rewrite Hd. specialize (Hs t). now rewrite (held_by_account _ _ _ _ Hacc) in *. }
  destruct (pc_execute_sim _ _ _ _ _ None _ _ _ _ _ _ Hc (or_introl eq_refl) Hl Hx) as (pc & m & K & _ & [Hd2 Hc2] & _).
  exists m. unfold v_predict_swap_actions. rewrite K. split; [reflexivity|]. intros t. rewrite held_by_put, String.eqb_refl. apply Hc2.
Qed.
Print Assumptions C55_own_deposits.

(** Only the first action of a chain looks at the amount received. *)
Definition explicit (l : list Action) : Prop :=
  match l with ASwap _ _ None _ _ :: _ => False | _ => True end.
Lemma pc_execute_prev c now m r l prev : explicit l -> pc_execute c now m r l prev = pc_execute c now m r l (match l with ASwap _ _ _ _ _ :: _ => None | _ => prev end).
Proof. destruct l as [|[pid ti [x|] to mn|pid ti am to mx] l]; try reflexivity. intros []. Qed.

(** Instant swaps: the outputs of the transferred amount are exactly those predicted from it. *)
Theorem C55_instant_swap c e token amount r l skip c' outs :
  amount < W128 -> Forall act_u128 l -> explicit l -> ex_direct c e token amount r l skip = Some (c', outs) ->
  exists m, v_predict_swap_actions c (e_now e) {[token := amount]} l = Some m /\ says m outs.
Proof.
  intros Ha Hl He H. unfold ex_direct in H. bnd H va Hva. bnd H a0 Ha0. bnd H x Hx. destruct x as [[c1 va'] res]. injection H as <- <-.
  destruct (cached_new _ _ _ Ha Hva) as (m0 & Hm0 & Hc). unfold tc_add in Hm0. rewrite lookup_empty in Hm0. injection Hm0 as <-.
  pose proof (ex_execute_legacy _ _ _ _ _ _ _ _ _ _ Hx (ac_deposit_legacy _ _ _ _ Hva eq_refl)) as Hl2.
  destruct (pc_execute_sim _ _ _ _ _ None _ _ _ _ _ _ Hc (or_introl eq_refl) Hl Hx) as (pc & m & K & _ & [Hd2 Hc2] & _).
  exists m. unfold v_predict_swap_actions. rewrite pc_execute_prev in K by done.
  assert (E : (match l with ASwap _ _ _ _ _ :: _ => None | _ => if is_swap a0 then Some amount else None end) = None).
  { destruct l as [|a l']; [discriminate|]. injection Ha0 as ->. now destruct a0. }
  rewrite E in K. change ({[token := amount]} : gmap AccountId N) with (<[token := amount]> (∅ : gmap AccountId N)). rewrite K.
  split; [reflexivity|]. intros t. rewrite va_out_held by done. symmetry. apply Hc2.
Qed.
Print Assumptions C55_instant_swap.

(** The hypothesis is needed: predict_swap_actions has no transferred amount to fall back on. *)
Theorem C55_omitted_amount_unpredicted c now d pid ti to mn l : v_predict_swap_actions c now d (ASwap pid ti None to mn :: l) = None.
Proof.
  unfold v_predict_swap_actions, pc_execute. match goal with |- context [same_action_type ?l] => destruct (same_action_type l) end; [|reflexivity].
  cbn [mbind option_bind]. match goal with |- context [no_frozen ?c ?l] => destruct (no_frozen c l) end; reflexivity.
Qed.
Print Assumptions C55_omitted_amount_unpredicted.

(** ** C56 *)
(** an amount of zero is shown only for a token some action pays out *)
Definition paid_out (a : Action) : AccountId := match a with ASwap _ _ _ to _ | ASwapByOutput _ _ _ to _ => to end.
Definition no_empty (m : gmap AccountId N) (l : list AccountId) : Prop := forall t, m !! t = Some 0 -> t ∈ l.
Lemma no_empty_weak m k l : no_empty m k -> (forall t, t ∈ k -> t ∈ l) -> no_empty m l.
Proof. intros H Hk t Ht. auto. Qed.
Lemma no_empty_add m t x m' l : no_empty m l -> t ∈ l -> tc_add m t x = Some m' -> no_empty m' l.
Proof.
  unfold tc_add. intros Hm Ht H u Hu.
  destruct (decide (u = t)) as [->|Hne]; [done|].
  destruct (m !! t); [bnd H z Hz|]; injection H as <-; rewrite lookup_insert_ne in Hu by congruence; auto.
Qed.
Lemma no_empty_sub m t x m' l : no_empty m l -> tc_sub m t x = Some m' -> no_empty m' l.
Proof.
  unfold tc_sub. intros Hm H u Hu. destruct (x =? 0); [injection H as <-; auto|]. bnd H y Hy. bnd H z Hz. injection H as <-.
  destruct (N.ltb_spec 0 z); destruct (decide (u = t)) as [->|Hne].
  - rewrite lookup_insert in Hu. injection Hu. lia.
  - rewrite lookup_insert_ne in Hu by congruence. auto.
  - now rewrite lookup_delete in Hu.
  - rewrite lookup_delete_ne in Hu by congruence. auto.
Qed.
Lemma no_empty_sub_all q : forall m m' l, no_empty m l -> tc_sub_all m q = Some m' -> no_empty m' l.
Proof.
  induction q as [|[t x] q IH]; intros m m' l Hm H; cbn [tc_sub_all] in H; [now injection H as <-|].
  bnd H m1 H1. eapply IH; [|exact H]. eapply no_empty_sub; eauto.
Qed.
Lemma no_empty_action c now pc m r a prev pc' m' x l :
  no_empty m l -> paid_out a ∈ l -> pc_exec_action c now pc m r a prev = Some (pc', m', x) -> no_empty m' l.
Proof.
  intros Hm Ha H. destruct a; cbn [pc_exec_action paid_out] in *.
  - bnd H y Hy. bnd H m1 H1. bnd H q Hq. destruct q as [pc1 out]. bnd H m2 H2. injection H as <- <- <-.
    eapply no_empty_add; [|exact Ha|exact H2]. eapply no_empty_sub; eauto.
  - bnd H y Hy. bnd H q Hq. destruct q. now injection H as <- <- <-.
Qed.
Lemma no_empty_swaps c now r ls : forall pc m prev pc' m' l,
  no_empty m l -> (forall a, a ∈ ls -> paid_out a ∈ l) -> pc_swap_loop c now pc m r ls prev = Some (pc', m') -> no_empty m' l.
Proof.
  induction ls as [|a ls IH]; intros pc m prev pc' m' l Hm Hl H; cbn [pc_swap_loop] in H; [now injection H as <- <-|].
  bnd H q Hq. destruct q as [[pc1 m1] x]. eapply IH; [| |exact H]; [|intros b Hb; apply Hl; now right].
  eapply no_empty_action; [exact Hm| |exact Hq]. apply Hl. left.
Qed.
Lemma no_empty_finalize m pi prev m' l : no_empty m l -> pc_finalize m pi prev = Some m' -> no_empty m' l.
Proof. unfold pc_finalize. intros Hm H. destruct pi; [|now injection H as <-]. bnd H x Hx. eapply no_empty_sub; eauto. Qed.
Lemma no_empty_outputs c now r ls : forall pc m pi prev pc' m' l,
  no_empty m l -> (forall a, a ∈ ls -> paid_out a ∈ l) -> pc_output_loop c now pc m r ls pi prev = Some (pc', m') -> no_empty m' l.
Proof.
  induction ls as [|a ls IH]; intros pc m pi prev pc' m' l Hm Hl H; cbn [pc_output_loop] in H.
  - bnd H m1 H1. injection H as <- <-. eapply no_empty_finalize; eauto.
  - bnd H m1 H1. bnd H q Hq. destruct q as [[pc1 m2] x]. eapply IH; [| |exact H]; [|intros b Hb; apply Hl; now right].
    eapply no_empty_action; [|apply Hl; left|exact Hq]. pose proof (Hl a (elem_of_list_here _ _)) as Ha. destruct a as [|pid ti [y|] to mx]; [done| |].
    + bnd H1 m0 H0. eapply no_empty_add; [|exact Ha|exact H1]. eapply no_empty_finalize; eauto.
    + bnd H1 t Ht. bnd H1 u Hu. now injection H1 as <-.
Qed.
Lemma no_empty_execute c now m r ls prev pc' m' l :
  no_empty m l -> (forall a, a ∈ ls -> paid_out a ∈ l) -> pc_execute c now m r ls prev = Some (pc', m') -> no_empty m' l.
Proof.
  unfold pc_execute. intros Hm Hl H. bnd H u Hu. bnd H v Hv. bnd H a0 Ha. destruct (is_swap a0);
    [eapply no_empty_swaps|eapply no_empty_outputs]; eauto.
Qed.
(** A predicted leftover of zero is shown only for a token the deposits had with zero or some action pays out: what is used up
    is not shown at all. *)
Theorem C55_used_up_not_shown c now d l m t : v_predict_swap_actions c now d l = Some m ->
  m !! t = Some 0 -> d !! t = Some 0 \/ exists a, a ∈ l /\ paid_out a = t.
Proof.
  intros H Ht. unfold v_predict_swap_actions in H. bnd H q Hq. destruct q as [pc m1]. injection H as ->.
  destruct (decide (d !! t = Some 0)) as [E|E]; [auto|right].
  assert (K : no_empty m ((map_to_list (filter (fun q => q.2 = 0) d)).*1 ++ map paid_out l)).
  { eapply no_empty_execute; [| |exact Hq].
    - intros u Hu. apply elem_of_app. left. apply elem_of_list_fmap. exists (u, 0). split; [done|].
      apply elem_of_map_to_list, map_filter_lookup_Some. done.
    - intros a Ha. apply elem_of_app. right. apply elem_of_list_fmap. eauto. }
  apply K in Ht. apply elem_of_app in Ht as [Ht|Ht].
  - apply elem_of_list_fmap in Ht as ([u z] & -> & Hu). apply elem_of_map_to_list, map_filter_lookup_Some in Hu as [Hu Hz]. cbn in *. congruence.
  - apply elem_of_list_fmap in Ht as (a & -> & Ha). eauto.
Qed.
Print Assumptions C55_used_up_not_shown.
Theorem C56_used_up_not_shown c now r account token amount l infos prs m t :
  v_predict_hot_zap c now r account token amount l infos = Some (Some (prs, m)) -> 0 < amount ->
  m !! t = Some 0 -> exists a, a ∈ l /\ paid_out a = t.
Proof.
  intros H Hx Ht. unfold v_predict_hot_zap in H. destruct l as [|a0 l'] eqn:El; [done|]. destruct infos as [|i0 is] eqn:Ei; [done|].
  rewrite <- El, <- Ei in *. bnd H ts Hts. cbv zeta in H. bnd H u Hu. bnd H v Hv. bnd H m0 H0. bnd H q Hq. destruct q as [pc m1].
  bnd H q2 Hq2. destruct q2 as [m2 prs2]. injection H as <- <-.
  unfold tc_add in H0. rewrite lookup_empty in H0. injection H0 as <-.
  assert (K : no_empty m1 (map paid_out l)).
  { eapply no_empty_execute; [| |exact Hq].
    - intros w Hw. destruct (decide (w = token)) as [->|Hne]; [rewrite lookup_insert in Hw; injection Hw; lia|].
      now rewrite lookup_insert_ne, lookup_empty in Hw by congruence.
    - intros a Ha. apply elem_of_list_fmap. eauto. }
  assert (K2 : no_empty m2 (map paid_out l)).
  { clear -K Hq2. revert pc m1 m2 prs2 K Hq2. induction infos as [|i infos IH]; intros pc m1 m2 prs2 K H; cbn [v_zap_loop] in H; [now injection H as <- <-|].
    bnd H q Hq. destruct q as [[pc1 m3] pr]. bnd H q2 Hq2. destruct q2. injection H as <- <-. eapply IH; [|exact Hq2].
    unfold v_zap_one in Hq. bnd Hq p Hp. bnd Hq s Hs. destruct s as [[p' am] sh]. bnd Hq w Hw. bnd Hq m4 H4. injection Hq as <- <- <-.
    eapply no_empty_sub_all; eauto. }
  apply K2 in Ht. apply elem_of_list_fmap in Ht as (a & -> & Ha). eauto.
Qed.
Print Assumptions C56_used_up_not_shown.

(** A hot zap that succeeds is predicted: predict_hot_zap for the same sender, transfer, actions and positions
    answers the leftovers, which are exactly what the sender's deposits grow by, and for each position the shares;
    a sender not sharing in the fees has exactly these more in each pool. *)
Theorem C56_hot_zap c e sender token amount r l infos skip c' :
  ex_wf (e_now e) c -> amount < W128 -> Forall act_u128 l ->
  ex_hot_zap c e sender token amount r l infos skip = Some c' ->
  exists prs m, v_predict_hot_zap c (e_now e) r (Some sender) token amount l infos = Some (Some (prs, m)) /\
    length prs = length infos /\
    (forall t, held_by c' sender t = held_by c sender t + default 0 (m !! t)) /\
    (outside c (ex_referral c r) sender -> forall pid, shares_at c' pid sender = shares_at c pid sender + foreseen pid infos prs).
Proof.
  intros Hwf Ha Hl H. apply ex_hot_zap_inv in H as (acc & ts & c1 & outs & m & c2 & m' & acc' & Hl0 & Hi0 & Hacc & Hts & Hk & Hfr & Hx & Hm & Hz & _ & Hdep & _ & ->).
  unfold ex_direct in Hx. bnd Hx va Hva. bnd Hx a0 Ha0. bnd Hx x Hex. destruct x as [[c1' va'] res]. injection Hx as <- <-.
  destruct (cached_new _ _ _ Ha Hva) as (m0 & Hm0 & Hc).
  pose proof (ex_execute_legacy _ _ _ _ _ _ _ _ _ _ Hex (ac_deposit_legacy _ _ _ _ Hva eq_refl)) as Hl2.
  destruct (pc_execute_sim _ _ _ _ _ (ex_referral c r) _ _ _ _ _ _ Hc (or_intror eq_refl) Hl Hex) as (pc & mv & K & Hf & [Hd2 Hc2] & O1).
  assert (Hal : alike m mv).
  { intros u. apply (tc_add_all_spec _ u) in Hm. rewrite Hm, lookup_empty, va_out_held by done. destruct (Hc2 u) as [-> _]. reflexivity. }
  destruct (v_zap_loop_sim _ _ _ _ _ _ _ _ _ _ Hf Hal Hz) as (mv' & prs & Kz & Hal' & HL & O2).
  exists prs, mv'. split; [|split; [exact HL|split]].
  - unfold v_predict_hot_zap. destruct l as [|a l']; [done|]. destruct infos as [|i infos']; [done|]. injection Ha0 as ->.
    rewrite Hts. cbn [mbind option_bind]. cbv zeta. rewrite Hacc. cbn [mbind option_bind]. rewrite Hk. cbn [mbind option_bind].
    rewrite (proj2 (no_frozen_inv c _) Hfr). cbn [mbind option_bind]. rewrite Hm0. cbn [mbind option_bind]. rewrite K. cbn [mbind option_bind]. rewrite Kz. reflexivity.
  - intros t. rewrite held_by_put, String.eqb_refl, (held_by_account _ _ _ _ Hacc).
    apply ac_deposit_list_spec in Hdep as [_ Hh]; [|exact (ex_wf_account _ _ _ _ Hwf Hacc)]. rewrite Hh, (amount_in_msum t m') by done.
    rewrite (Hal' t). reflexivity.
  - intros Hout pid. change (shares_at (ex_put c2 sender acc') pid sender) with (shares_at c2 pid sender).
    rewrite O2, (O1 _ Hout); [reflexivity|]. split; [apply Hout|]. intros x. discriminate.
Qed.
Print Assumptions C56_hot_zap.

(** ** C57 *)
Lemma one_swap_inv c e acc r a prev skip c' acc' res :
  ex_execute c e acc r [a] prev skip = Some (c', acc', res) -> is_swap a = true -> exists acc1, ex_exec_action c e acc r a prev = Some (c', acc1, default 0 res) /\ is_Some res.
Proof.
  intros H Ha. unfold ex_execute in H. grd H. grd H. bnd H a0 Ha0. injection Ha0 as <-. rewrite Ha in H. bnd H q Hq. destruct q as [[c1 acc1] x].
  bnd H u Hu. injection H as <- <- <-. cbn [ex_swap_loop] in Hq. bnd Hq y Hy. destruct y as [[c2 acc2] z]. injection Hq as <- <- <-. cbn [default]. eauto.
Qed.
(** A swap of a single action returns what get_return answered before it. *)
Theorem C57_get_return c e pid ti x to mn r skip c' o :
  ex_swap c e [ASwap pid ti (Some x) to mn] r skip = Some (c', o) -> v_get_return c (e_now e) pid ti x to = Some o.
Proof.
  intros H. apply ex_swap_inv in H as [_ H]. apply ex_execute_actions_inv in H as (acc & c1 & acc' & _ & _ & _ & _ & Hx & _ & _).
  apply one_swap_inv in Hx as (acc1 & H & _); [|reflexivity]. unfold ex_exec_action in H. bnd H y Hy. injection Hy as <-. bnd H a1 H1. bnd H q Hq.
  destruct q as [c2 o2]. bnd H a2 H2. injection H as _ _ E. cbn [default from_option Datatypes.id] in E. subst o2. unfold ex_pool_swap in Hq. bnd Hq c3 Hc3. apply ex_update_twap_frame in Hc3 as (tw & ->).
  bnd Hq p Hp. bnd Hq q Hs. destruct q as [p' o']. bnd Hq ii Hii. bnd Hq io Hio. bnd Hq v Hv. injection Hq as _ <-.
  unfold v_get_return. change (ex_pool c pid = Some p) in Hp. rewrite Hp. cbn [mbind option_bind].
  destruct (pl_swap_sim p (ex_rates c) (e_now e) ti x to mn 0 (ex_fees_ref c (ex_referral c r)) (ex_fees c) (pl_shares p) p' o' (within_refl _) (conj eq_refl (or_introl eq_refl)) (N.le_0_l _) Hs) as (K & _).
  rewrite pl_with_same in K. rewrite K. reflexivity.
Qed.
Print Assumptions C57_get_return.
(** And a swap by output of a single action pays what get_return_by_output answered. *)
Theorem C57_get_return_by_output c e pid ti x to mx r skip c' i :
  ex_swap_by_output c e [ASwapByOutput pid ti (Some x) to mx] r skip = Some (c', i) -> v_get_return_by_output c pid ti x to = Some i.
Proof.
  intros H. apply ex_swap_by_output_inv in H as [_ H]. apply ex_execute_actions_inv in H as (acc & c1 & acc' & _ & _ & _ & _ & H & _ & _).
  unfold ex_execute in H. grd H. grd H. bnd H a0 Ha0. injection Ha0 as <-. cbn [is_swap] in H. bnd H q Hq. destruct q as [[c2 acc1] z].
  bnd H u Hu. injection H as <- <- E. cbn [ex_output_loop] in Hq. bnd Hq a1 H1. bnd Hq y Hy. destruct y as [[c3 acc2] w]. bnd Hq a3 H3. injection Hq as <- <- <-.
  unfold ex_exec_action in Hy. bnd Hy y Hx. injection Hx as <-. bnd Hy q Hq. destruct q as [c4 o4]. injection Hy as <- <- <-. injection E as <-.
  unfold ex_pool_swap_by_output in Hq. bnd Hq c3 Hc3. apply ex_update_twap_frame in Hc3 as (tw & ->).
  bnd Hq p Hp. bnd Hq q Hs. destruct q as [p' o']. bnd Hq ii Hii. bnd Hq io Hio. bnd Hq v Hv. injection Hq as _ <-.
  unfold v_get_return_by_output. change (ex_pool c pid = Some p) in Hp. rewrite Hp. cbn [mbind option_bind].
  destruct (pl_swap_by_output_sim p ti x to mx None (ex_fees_ref c (ex_referral c r)) (ex_fees c) (pl_shares p) p' o' (within_refl _) (conj eq_refl (or_introl eq_refl)) (or_introl eq_refl) Hs) as (K & _).
  rewrite pl_with_same in K. rewrite K. reflexivity.
Qed.
Print Assumptions C57_get_return_by_output.

(** add_liquidity mints the shares and takes the tokens predict_add_simple_liquidity answered before it. *)
Theorem C57_add_simple c e pid am mins c' ps sh :
  ex_wf (e_now e) c -> ex_add_liquidity c e pid am mins = Some (c', ps, sh) ->
  exists p need, ex_pool c pid = Some p /\ v_predict_add_simple c pid am = Some (mkPrediction need sh) /\
    shares_at c' pid (e_caller e) = shares_at c pid (e_caller e) + sh /\
    forall t, held_by c' (e_caller e) t + beside t (pl_tokens p) need = held_by c (e_caller e) t.
Proof.
  intros Hwf H. apply ex_add_liquidity_inv in H as (tw & p & p' & taken & acc & acc' & _ & _ & Hp & _ & Hadd & _ & Hacc & Hw & _ & _ & ->).
  pose proof (pl_reachable_wf _ _ (ex_wf_pool _ _ _ _ Hwf Hp)) as Hpw.
  pose proof Hadd as Hst. apply (pl_add_spec p (ex_rates c) (e_now e)) in Hst as (Hst & _); [|done]. apply pl_step_same in Hst as (_ & Ht & _); [|done].
  exists p, taken. split; [done|]. destruct (pl_add_sim p _ "@view" am (pl_shares p) p' taken sh (within_refl _) Hadd) as (K & _ & S). rewrite pl_with_same in K. split; [|split].
  - unfold v_predict_add_simple. rewrite Hp. cbn [mbind option_bind]. now rewrite K.
  - rewrite (shares_at_put (ex_put (ex_set_twap c tw) (e_caller e) acc') pid p p' pid (e_caller e) Hp). rewrite decide_True by done.
    now rewrite S, (shares_at_pool c pid p _ Hp).
  - intros t. rewrite Ht in Hw. apply ac_withdraw_all_spec in Hw as (_ & Hh & _); [|exact (ex_wf_account _ _ _ _ Hwf Hacc)|now apply pl_wf_nodup].
    change (held_by (ex_put_pool (ex_put (ex_set_twap c tw) (e_caller e) acc') pid p') (e_caller e) t) with (held_by (ex_put (ex_set_twap c tw) (e_caller e) acc') (e_caller e) t).
    rewrite held_by_put, String.eqb_refl, (held_by_account _ _ _ _ Hacc). apply Hh.
Qed.
Print Assumptions C57_add_simple.
(** add_stable_liquidity mints the shares predict_add_stable_liquidity answered before it. *)
Theorem C57_add_stable c e pid am mn c' ps sh :
  ex_add_stable_liquidity c e pid am mn = Some (c', ps, sh) ->
  v_predict_add_stable c (e_now e) pid am = Some sh /\
  (e_caller e <> ex_self c -> shares_at c' pid (e_caller e) = shares_at c pid (e_caller e) + sh).
Proof.
  intros H. apply ex_add_stable_liquidity_inv in H as (tw & p & p' & acc & acc' & _ & _ & Hp & _ & Hadd & _ & Hacc & Hw & _ & _ & ->).
  destruct (pl_add_stable_sim p _ _ _ "@view" am mn 0 (ex_fees c) (ex_fees c) (pl_shares p) p' sh (within_refl _) (conj eq_refl (or_intror eq_refl)) (N.le_0_l _) Hadd) as (K & _ & S).
  rewrite pl_with_same in K. split.
  - unfold v_predict_add_stable. rewrite Hp. cbn [mbind option_bind]. now rewrite K.
  - intros Hn. rewrite (shares_at_put (ex_put (ex_set_twap c tw) (e_caller e) acc') pid p p' pid (e_caller e) Hp). rewrite decide_True by done.
    rewrite S, (shares_at_pool c pid p _ Hp); [done|]. split; [exact Hn|]. intros x. discriminate.
Qed.
Print Assumptions C57_add_stable.
(** remove_liquidity pays what predict_remove_liquidity answered before it. *)
Theorem C57_remove c e pid sh mins c' out :
  ex_wf (e_now e) c -> ex_remove_liquidity c e pid sh mins = Some (c', out) -> v_predict_remove c pid sh = Some out.
Proof.
  intros Hwf H. apply ex_remove_liquidity_inv in H as (tw & p & p' & acc & acc' & _ & _ & Hp & _ & _ & _ & Hr & _).
  pose proof (pl_reachable_wf _ _ (ex_wf_pool _ _ _ _ Hwf Hp)) as Hpw. destruct (pl_remove_sim p _ "@view" _ _ _ _ Hpw Hr) as (p2 & K).
  unfold v_predict_remove. rewrite Hp. cbn [mbind option_bind]. now rewrite K.
Qed.
Print Assumptions C57_remove.
(** remove_liquidity_by_tokens burns what predict_remove_liquidity_by_tokens answered before it. *)
Theorem C57_remove_by_tokens c e pid am mx c' burn :
  ex_remove_by_tokens c e pid am mx = Some (c', burn) -> v_predict_remove_by_tokens c (e_now e) pid am = Some burn.
Proof.
  intros H. apply ex_remove_by_tokens_inv in H as (tw & p & p' & acc & acc' & _ & _ & Hp & _ & _ & _ & Hr & _).
  destruct (pl_remove_tokens_sim p _ _ _ "@view" _ _ (W128 - 1) _ _ _ Hr) as (p2 & K).
  unfold v_predict_remove_by_tokens. rewrite Hp. cbn [mbind option_bind]. now rewrite K.
Qed.
Print Assumptions C57_remove_by_tokens.
(** get_deposits, get_deposit and get_pool_shares show what the other theorems are about. *)
Theorem C57_balances now c a t pid :
  ex_wf now c ->
  v_get_deposit c a t = held_by c a t /\ default 0 (v_get_deposits c a !! t) = held_by c a t /\
  (forall x, v_get_pool_shares c pid a = Some x -> x = shares_at c pid a) /\
  (forall p x, ex_pool c pid = Some p -> v_get_pool_total_shares c pid = Some x -> x = msum (fun _ y => y) (pl_shares p)).
Proof.
  intros Hwf. split; [reflexivity|]. split; [|split].
  - unfold v_get_deposits, held_by, ac_held, ac_get_balance. destruct (ex_account c a) as [acc|]; [|now rewrite lookup_empty].
    rewrite lookup_union. destruct (ac_tokens acc !! t), (ac_legacy acc !! t); reflexivity.
  - unfold v_get_pool_shares, shares_at. intros x H. destruct (ex_pool c pid) as [p|]; [|discriminate]. injection H as <-. apply pl_share_balance_of.
  - unfold v_get_pool_total_shares. intros p x Hp. rewrite Hp. intros [= <-].
    pose proof (pl_reachable_wf _ _ (ex_wf_pool _ _ _ _ Hwf Hp)) as Hpw. destruct p as [q|q]; cbn [pl_supply pl_shares pl_wf] in *.
    + destruct Hpw as (_ & _ & _ & _ & _ & E). now rewrite <- E.
    + destruct Hpw as (_ & _ & _ & _ & _ & E & _). now rewrite <- E.
Qed.
Print Assumptions C57_balances.

(** ** Concrete cases *)
Lemma some_a_small : map_Forall (fun _ x => x < W128) some_a.
Proof. intros t x H. unfold some_a in H. cbn [list_to_map foldr fst snd] in H. apply lookup_insert_Some in H as [[_ <-]|[_ H]]; [vm_compute; reflexivity|]. now rewrite lookup_empty in H. Qed.
Lemma hops_small : Forall act_u128 hops.
Proof. unfold hops. apply Forall_cons; split; [vm_compute; reflexivity|]. apply Forall_cons; split; [exact I|]. apply Forall_cons; split; [exact I|]. apply Forall_nil. exact I. Qed.
(** The swaps of C14: predicted and executed. *)
Example C55_ex : exists c' outs m, ex_wf 120 rich /\ map_Forall (fun _ x => x < W128) some_a /\ Forall act_u128 hops /\
  ex_execute_in_va rich (env 120 "bo" 1) some_a hops (Some "rf"%string) true = Some (c', outs) /\
  v_predict_swap_actions rich 120 some_a hops = Some m /\ default 0 (m !! "a"%string) = 27288 /\ amount_in_list "a" outs = 27288.
Proof.
  eexists _, _, _. split; [apply rich_wf; lia|]. split; [exact some_a_small|]. split; [exact hops_small|].
  split; [apply (run_pair (rich, [])); vm_compute; reflexivity|]. split; [apply (run_default ∅); vm_compute; reflexivity|].
  split; vm_compute; reflexivity.
Qed.
Example C55_instant_ex : exists c' outs m, explicit hops /\ ex_direct rich (env 120 "a" 0) "a" 20000 (Some "rf"%string) hops true = Some (c', outs) /\
  v_predict_swap_actions rich 120 {["a"%string := 20000]} hops = Some m /\ default 0 (m !! "a"%string) = 27288 /\ amount_in_list "a" outs = 27288.
Proof.
  eexists _, _, _. split; [exact I|].
  split; [apply (run_pair (rich, [])); vm_compute; reflexivity|]. split; [apply (run_default ∅); vm_compute; reflexivity|].
  split; vm_compute; reflexivity.
Qed.
Definition zap_swaps : list Action := [ASwap 0 "a" (Some 4000) "b" 1].
Definition zap_into : list AddInfo := [mkAddInfo 0 [5000; 3000] (Some [1; 1]) None].
Example C56_ex : exists c' prs m, ex_wf 120 rich /\ Forall act_u128 zap_swaps /\ outside rich (ex_referral rich None) "bo" /\
  ex_hot_zap rich (env 120 "a" 0) "bo" "a" 10000 None zap_swaps zap_into true = Some c' /\
  v_predict_hot_zap rich 120 None (Some "bo"%string) "a" 10000 zap_swaps zap_into = Some (Some (prs, m)) /\
  default 0 (m !! "a"%string) = 2596 /\ held_by c' "bo" "a" = held_by rich "bo" "a" + 2596 /\
  foreseen 0 zap_into prs = 3765359999522204308747 /\ shares_at c' 0 "bo" = 3765359999522204308747.
Proof.
  eexists _, _, _. split; [apply rich_wf; lia|].
  split; [unfold zap_swaps; apply Forall_cons; split; [vm_compute; reflexivity|apply Forall_nil; exact I]|].
  split; [split; [vm_compute; discriminate|intros x; vm_compute; discriminate]|].
  split; [apply (run_default rich); vm_compute; reflexivity|].
  match goal with |- ?x = _ /\ _ => assert (E : match x with Some (Some _) => true | _ => false end = true) by (vm_compute; reflexivity) end.
  split; [match goal with |- ?x = _ => transitivity (Some (Some (fst (default ([], ∅) (default None x)), snd (default ([], ∅) (default None x))))) end; [|reflexivity]|].
  - revert E. match goal with |- context [match ?x with _ => _ end] => destruct x as [[[? ?]|]|] end; intros E; [reflexivity|discriminate E|discriminate E].
  - split; [vm_compute; reflexivity|]. split; [vm_compute; reflexivity|]. split; vm_compute; reflexivity.
Qed.
Example C57_ex :
  v_get_return rich 120 0 "a" 1000 "b" = Some 885 /\ done_ (ex_swap rich (env 120 "bo" 1) [ASwap 0 "a" (Some 1000) "b" 800] (Some "rf"%string) false) = true /\
  v_get_return_by_output rich 0 "a" 1000 "b" = Some 1130 /\
  done_ (ex_swap_by_output rich (env 120 "bo" 1) [ASwapByOutput 0 "a" (Some 1000) "b" (Some 1130)] None false) = true /\
  v_predict_remove_by_tokens rich 120 1 [1000; 2000] = Some 3000707067938074 /\ done_ (ex_remove_by_tokens rich (env 120 "al" 1) 1 [1000; 2000] (10 ^ 16)) = true /\
  v_predict_add_stable rich 120 1 [1000; 2000] = Some 2998961462583246 /\
  done_ (ex_add_stable_liquidity rich (env 120 "al" (10 ^ 24)) 1 [1000; 2000] (2998961462583246)) = true /\
  v_predict_remove rich 0 (10 ^ 20) = Some [90; 80] /\ done_ (ex_remove_liquidity rich (env 120 "al" 1) 0 (10 ^ 20) [90; 80]) = true /\
  v_predict_add_simple rich 0 [1000; 1000] = Some (mkPrediction [1000; 889] 1110000000000000000000) /\
  done_ (ex_add_liquidity rich (env 120 "al" (10 ^ 24)) 0 [1000; 1000] (Some [1000; 889])) = true.
Proof. split_and!; vm_compute; reflexivity. Qed.
