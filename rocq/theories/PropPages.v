(** * C94, C95: lists of pools, averages and quotes for the kind of the pool.
    Vocabulary: SpecTwap.v, SpecRecords.v. *)
From Verif Require Import Base BaseLemmas SimplePool SpecSimple StableMath StablePool Rates Echo Twap SpecTwap TwapInv PropTwap PropRecords.
From Verif Require Import Account Pool Exchange SpecExchange ExchangeInv SpecWorld SpecRecords Views Listing PropShown PropChosen.

(** A list of pools, of their details or of their volumes shows the pools [from], [from + 1], ... in order, as many as asked for and there are. *)
Theorem C94_lists c now from limit :
  let n := N.of_nat (length (ex_pools c)) in
  (forall l, v_get_pools c now from limit = Some l ->
     N.of_nat (length l) = N.min limit (n - from) /\ forall j x, l !! j = Some x -> v_get_pool c now (from + N.of_nat j) = Some x) /\
  (forall l, v_get_pool_details c now from limit = Some l ->
     N.of_nat (length l) = N.min limit (n - from) /\ forall j x, l !! j = Some x -> v_get_pool_detail c now (from + N.of_nat j) = Some x) /\
  (forall l, v_list_pool_volumes c from limit = Some l ->
     N.of_nat (length l) = N.min limit (n - from) /\
     forall j x, l !! j = Some x -> exists p, ex_pool c (from + N.of_nat j) = Some p /\ x = ex_volumes_of c (from + N.of_nat j) p).
Proof.
  intros n. split_and!; intros l H; pose proof (C94_page _ _ _ _ _ H) as [H1 H2]; (split; [exact H1|]); [exact H2..|].
  intros j x Hx. specialize (H2 j x Hx). unfold v_get_pool_volumes in H2. bnd H2 p Hp. injection H2 as <-. eauto.
Qed.
Print Assumptions C94_lists.

(** The average shown for a pool is that of its records together with what one share stands for now, over the interval set by the owner; it is shown only when
    there are sixty records and the pool has more than one share. *)
Theorem C94_average c now pid i h am :
  ex_twap c !! pid = Some i -> twap_history h i -> v_twap_amounts c now pid = Some (Some am) ->
  exists p i', ex_pool c pid = Some p /\ one_share p < pl_supply p /\
    twap_history (mkObs (nano_to_sec now) (stands_for p) (cf_interval (ex_cfg c)) :: h) i' /\ length (tw_records i') = 60%nat /\ twap_token_amounts i' = Some am.
Proof.
  intros Hi Hh H. unfold v_twap_amounts in H. rewrite Hi in H. cbn [mbind option_bind] in H. bnd H u Hu.
  pose proof (unit_amounts_value _ _ _ Hu) as (p & Hp & Eu). destruct (N.ltb_spec (one_share p) (pl_supply p)) as [Hlt|]; [|rewrite Eu in H; discriminate H].
  subst u. pose proof (ex_unit_amounts_small _ _ _ Hu) as (_ & _ & Hsm & _).
  assert (Hnow : nano_to_sec now < W32) by apply sec_small.
  destruct (C36_view_full h i (nano_to_sec now) (Some (stands_for p)) (cf_interval (ex_cfg c)) am Hh Hnow) as (am' & i' & [= <-] & H1 & H2 & H3); [now intros ? [= <-]|exact H|].
  exists p, i'. auto.
Qed.
Print Assumptions C94_average.

(** A quote at chosen rates, or at the recorded ones, is given for pools of the kind asked for only. *)
Theorem C95_kind c now k pid :
  (exists ti x to rs y, v_rated_return c now k pid ti x to rs = Some y) \/ (exists am rs y, v_rated_add c now k pid am rs = Some y) \/
  (exists am rs y, v_rated_remove c now k pid am rs = Some y) ->
  exists q, ex_pool c pid = Some (PStable q) /\ st_kind q = k /\ k <> KStable.
Proof.
  assert (R : forall q, rated_pool c k pid = Some q -> ex_pool c pid = Some (PStable q) /\ st_kind q = k /\ k <> KStable).
  { unfold rated_pool. intros q H. bnd H p Hp. destruct p as [|r]; [discriminate H|]. rewrite Hp. destruct k, (st_kind r) eqn:E; try discriminate H; injection H as ->; auto. }
  intros [(? & ? & ? & ? & ? & H)|[(? & ? & ? & H)|(? & ? & ? & H)]];
    [unfold v_rated_return in H|unfold v_rated_add in H|unfold v_rated_remove in H]; bnd H q Hq; exists q; now apply R.
Qed.
Print Assumptions C95_kind.

(** Sixty observations a minute apart, of pool 1 of [C94_ex] *)
Fixpoint observe (i : TwapInfo) (h os : list Obs) : option (TwapInfo * list Obs) :=
  match os with
  | [] => Some (i, h)
  | o :: r => if (ob_time o <? W32) && forallb (fun a => a <? W128) (ob_amounts o) then
                i' ← twap_update i (ob_time o) (ob_amounts o) (ob_interval o); observe i' (o :: h) r
              else None
  end.
Lemma observe_history os : forall i h i' h', twap_history h i -> observe i h os = Some (i', h') -> twap_history h' i'.
Proof.
  induction os as [|[t am iv] os IH]; intros i h i' h' Hh H; cbn [observe ob_time ob_amounts ob_interval] in H; [injection H as <- <-; done|].
  destruct (_ && _) eqn:E; [|done]. apply andb_true_iff in E as [E1 E2]. apply N.ltb_lt in E1. apply bind_Some in H as (i1 & Hu & H).
  eapply IH; [|exact H]. eapply th_update; eauto. rewrite Forall_forall. intros x Hx. rewrite forallb_forall in E2. apply N.ltb_lt, E2. now apply elem_of_list_In.
Qed.
Definition minutes : list Obs := (fun k => mkObs (10000 + 60 * N.of_nat k) [10 ^ 18 + N.of_nat k; 2 * 10 ^ 18] 60) <$> seq 1 60.
Definition observed : option (TwapInfo * list Obs) := observe (twap_new 10000 [10 ^ 18; 2 * 10 ^ 18]) [mkObs 10000 [10 ^ 18; 2 * 10 ^ 18] 60] minutes.
Definition c_observed : Exchange := match observed with Some (i, _) => ex_set_twap (w_ex w_added) {[1 := i]} | None => w_ex w_added end.
Lemma observed_is : match observed with Some (_, h) => length h | None => 0%nat end = 61%nat. Proof. vm_compute. reflexivity. Qed.
Lemma observed_average : v_twap_amounts c_observed (14000 * 10 ^ 9) 1 = Some (Some [898477157360415256; 1796954314720822335]). Proof. vm_compute. reflexivity. Qed.
Example C94_average_ex : exists i h,
  Exchange.ex_twap c_observed !! 1 = Some i /\ twap_history h i /\ length h = 61%nat /\
  v_twap_amounts c_observed (14000 * 10 ^ 9) 1 = Some (Some [898477157360415256; 1796954314720822335]).
Proof.
  pose proof observed_is as E. unfold c_observed. pose proof observed_average as A. unfold c_observed in A.
  destruct observed as [[i h]|] eqn:H; [|discriminate E]. exists i, h. split; [apply lookup_singleton|]. split; [|split; [exact E|exact A]].
  eapply observe_history; [|exact H]. apply th_new; [vm_compute; reflexivity|].
  repeat (apply Forall_cons; split; [vm_compute; reflexivity|]); apply Forall_nil; exact I.
Qed.
