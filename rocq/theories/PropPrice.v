(** * The displayed price of stable pool shares: C90 *)
From Verif Require Import PropSimple PropStable PropExact PropPrecise.
From Verif Require Import Base BaseLemmas SimplePool SpecSimple StableMath
  StableMathProofs StablePool SpecStable StablePoolProofs StablePoolInv StableFacts SpecExact StableExact StablePrecise.

(** [x] is the price, in hundred-millionths, of one of [supply] shares worth [value] together, rounded down. *)
Definition price_of_share (supply value x : N) : Prop :=
  if supply =? 0 then x = 10 ^ 8 else x * supply <= 10 ^ 8 * value /\ 10 ^ 8 * value < (x + 1) * supply.

Lemma lsum_total l : lsum l = total l.
Proof. induction l as [|a l IH]; cbn [lsum total foldr]; [done|]. unfold total in IH. now rewrite IH. Qed.

Lemma quotient_price S v x w :
  fit w (default 100000000 (cdiv (v * 100000000) S)) = Some x -> price_of_share S v x.
Proof.
  unfold price_of_share. intros H. apply fit_Some in H as [-> _]. change (10 ^ 8) with 100000000.
  unfold cdiv. destruct (S =? 0) eqn:E; cbv [default from_option id]; [done|]. apply N.eqb_neq in E.
  rewrite (N.mul_comm 100000000 v). set (y := v * 100000000). clearbody y.
  pose proof (N.mul_div_le y S E). pose proof (N.mul_succ_div_gt y S E).
  set (q := y / S) in *. clearbody q. split; nia.
Qed.

(** ** C90 *)
(** A stable pool shows the plain sum of its balances per share. *)
Theorem C90_price p e x :
  st_kind p = KStable -> st_get_share_price p e = Some x -> price_of_share (st_supply p) (total (st_c p)) x.
Proof.
  intros Hk H. unfold st_get_share_price in H. rewrite Hk in H.
  apply bind_Some in H as (s & Hs & H). apply bind_Some in H as (y & Hy & H).
  apply csum_Some in Hs. rewrite lsum_total in Hs. apply cmul_Some in Hy as [-> _]. subst s.
  rewrite N.add_0_l in H. eapply quotient_price, H.
Qed.
Print Assumptions C90_price.

(** A rated or degen pool shows the computed invariant of its balances at the current rates per share. *)
Theorem C90_rated_price p e x :
  st_kind p <> KStable -> st_get_share_price p e = Some x ->
  exists rates D, st_get_rates p e = Some rates /\ st_D p (pe_now e) rates (st_c p) = Some D /\
    price_of_share (st_supply p) D x.
Proof.
  intros Hk H. unfold st_get_share_price in H.
  assert (H' : (rates ← st_get_rates p e; d ← compute_d_with_rates (st_curve p (pe_now e) rates) (st_c p);
      x ← cmul W384 d 100000000; fit W128 (default 100000000 (cdiv x (st_supply p)))) = Some x).
  { destruct (st_kind p); [now destruct Hk|exact H..]. }
  clear H. apply bind_Some in H' as (rates & Hr & H). apply bind_Some in H as (d & Hd & H).
  apply bind_Some in H as (y & Hy & H). apply cmul_Some in Hy as [-> _].
  exists rates, d. split_and!; [done|exact Hd|]. eapply quotient_price, H.
Qed.
Print Assumptions C90_rated_price.

(** The price shown is never below the exact invariant per share, rounded down: for a stable pool ... *)
Lemma at_most_D_le_total A xs d : 0 < A -> xs <> [] -> at_most_D A xs d -> d <= total xs.
Proof.
  intros HA Hne H. destruct (decide (Forall (fun x => 0 < x) xs)) as [HF|HF].
  - now apply (at_most_D_total A).
  - assert (Hp : product xs = 0).
    { clear - HF. induction xs as [|a xs IH]; [destruct HF; constructor|]. cbn [product foldr].
      destruct (N.eq_0_gt_0_cases a) as [->|Ha]; [lia|].
      assert (product xs = 0) as E by (apply IH; intros F; apply HF; now constructor). unfold product in E. rewrite E. lia. }
    unfold at_most_D in H. cbv zeta in H. rewrite Hp, !N.mul_0_r, !N.add_0_r in H.
    rewrite N.add_1_r, N.pow_succ_r' in H. destruct (N.eq_0_gt_0_cases d) as [->|Hd]; [lia|].
    pose proof (N.pow_nonzero d (N.of_nat (length xs))). nia.
Qed.

Theorem C90_not_below_exact p e A x d :
  st_kind p = KStable -> st_get_share_price p e = Some x -> 0 < A -> st_c p <> [] -> 0 < st_supply p ->
  at_most_D A (st_c p) d -> 10 ^ 8 * d < (x + 1) * st_supply p.
Proof.
  intros Hk H HA Hne HS Hd. apply C90_price in H; [|done]. apply at_most_D_le_total in Hd; [|done|done].
  unfold price_of_share in H. replace (st_supply p =? 0) with false in H by (symmetry; apply N.eqb_neq; lia).
  destruct H as [_ H]. eapply N.le_lt_trans; [|exact H]. now apply N.mul_le_mono_l.
Qed.
Print Assumptions C90_not_below_exact.

(** ... and for a rated or degen pool. *)
Theorem C90_rated_not_below_exact now p e x d rates xs :
  st_reachable now p -> now <= pe_now e -> pe_now e < 2 ^ 64 -> xs <> [] ->
  st_kind p <> KStable -> st_get_share_price p e = Some x -> 0 < st_supply p ->
  st_get_rates p e = Some rates -> rate_balances (st_c p) rates = Some xs ->
  at_most_D (st_get_amp p (pe_now e)) xs d -> 10 ^ 8 * d < (x + 1) * st_supply p.
Proof.
  intros Hr Hle HW Hne Hk H HS Hrt Hx Hd. apply C90_rated_price in H; [|done].
  destruct H as (rates' & D & Hrt' & HD & H). rewrite Hrt in Hrt'. injection Hrt' as <-.
  pose proof (C59_computed_not_below_exact _ _ _ _ _ _ _ _ Hr Hle HW Hne Hx HD Hd) as Hd'.
  unfold price_of_share in H. replace (st_supply p =? 0) with false in H by (symmetry; apply N.eqb_neq; lia).
  destruct H as [_ H]. eapply N.le_lt_trans; [|exact H]. now apply N.mul_le_mono_l.
Qed.
Print Assumptions C90_rated_not_below_exact.

(** Redeeming shares pays, over all tokens and in kept decimals, what the shown price says: at most that of the
    next hundred-millionth, and less than one unit per token below. *)
Lemma redeem_sums k S sh ds cs mins out cs' :
  0 < S -> st_redeem_all k S sh ds cs mins = Some (out, cs') ->
  total cs' <= total cs /\
  S * (total cs - total cs') <= sh * total cs /\
  sh * total cs <= S * (total cs - total cs' + N.of_nat (length cs)) /\
  (cs <> [] -> sh * total cs < S * (total cs - total cs' + N.of_nat (length cs))).
Proof.
  intros HS. revert cs mins out cs'; induction ds as [|d ds IH]; intros [|c cs] [|mn mins] out cs' H;
    cbn [st_redeem_all] in H; try discriminate H.
  - inv. subst. cbn [total foldr length]. split_and!; [lia..|done].
  - apply bind_Some in H as ([a l] & H1 & H). apply bind_Some in H as ([als ls'] & H2 & H). inv. subst.
    apply st_redeem_Some in H1 as (_ & Hle & -> & _).
    destruct (IH _ _ _ _ H2) as (I1 & I2 & I3 & _). cbn [total foldr length].
    change (foldr N.add 0 cs) with (total cs). change (foldr N.add 0 ls') with (total ls').
    rewrite Nat2N.inj_succ, <- N.add_1_l.
    assert (Q1 : S * (c * sh / S) <= c * sh) by dlia. assert (Q2 : c * sh < S * (c * sh / S) + S) by dlia.
    set (q := c * sh / S) in *. set (X := total cs) in *. set (Y := total ls') in *. set (n := N.of_nat (length cs)) in *.
    clearbody q X Y n. clear H2 IH. 
    replace (c + X - (c - q + Y)) with (q + (X - Y)) by lia. set (z := X - Y) in *. clearbody z.
    split_and!; [lia|nia|nia|intros _; nia].
Qed.

Theorem C90_redemption_pays now p e x s sh mins v p' out :
  st_reachable now p -> st_kind p = KStable -> st_get_share_price p e = Some x ->
  st_tokens p <> [] -> 0 < st_supply p ->
  st_remove_by_shares p s sh mins v = Some (p', out) ->
  let paid := total (st_c p) - total (st_c p') in
  total (st_c p') <= total (st_c p) /\
  10 ^ 8 * paid <= (x + 1) * sh /\ x * sh < 10 ^ 8 * (paid + N.of_nat (length (st_tokens p))).
Proof.
  intros Hr Hk Hx Hne HS H. cbv zeta. apply C90_price in Hx; [|done].
  pose proof (st_reachable_wf _ _ Hr) as (_ & Hld & Hlc & _).
  apply st_remove_shares_inv in H as (c' & m & _ & Hred & Hle & -> & _). cbn [st_c st_set_supply st_set_shares st_set_c].
  apply redeem_sums in Hred as (R1 & R2 & _ & R3); [|done].
  assert (Hne' : st_c p <> []) by (destruct (st_c p), (st_tokens p); done). specialize (R3 Hne').
  rewrite <- Hlc. unfold price_of_share in Hx.
  replace (st_supply p =? 0) with false in Hx by (symmetry; apply N.eqb_neq; lia). destruct Hx as [X1 X2].
  set (S := st_supply p) in *. set (V := total (st_c p)) in *. set (Z := total c') in *. set (n := N.of_nat _) in *.
  set (q := V - Z) in *. clearbody S V Z n q. set (M := 10 ^ 8) in *. assert (HM : 0 < M) by reflexivity. clearbody M.
  split; [done|split].
  - apply (N.mul_le_mono_pos_l _ _ S); [done|].
    transitivity (M * (sh * V)); [nia|]. transitivity (sh * ((x + 1) * S)); [nia|]. lia.
  - apply (N.mul_lt_mono_pos_l S); [done|].
    apply (N.le_lt_trans _ (M * (sh * V))); [nia|].
    replace (S * (M * (q + n))) with (M * (S * (q + n))) by lia. apply N.mul_lt_mono_pos_l; [exact HM|exact R3].
Qed.
Print Assumptions C90_redemption_pays.

(** Redeeming shares does not lower the shown price. *)
Theorem C90_redemption_keeps_price now p e e' x x' s sh mins v p' out :
  st_reachable now p -> st_kind p = KStable -> st_get_share_price p e = Some x ->
  0 < st_supply p' -> st_remove_by_shares p s sh mins v = Some (p', out) ->
  st_get_share_price p' e' = Some x' -> x <= x'.
Proof.
  intros Hr Hk Hx HS' H Hx'. pose proof H as H0. apply st_remove_shares_inv in H0 as (c' & m & _ & Hred & Hle & -> & _).
  apply C90_price in Hx; [|done]. apply C90_price in Hx'; [|exact Hk].
  cbn [st_c st_supply st_set_supply st_set_shares st_set_c] in *.
  apply redeem_sums in Hred as (R1 & R2 & _ & _); [|lia].
  unfold price_of_share in Hx, Hx'.
  replace (st_supply p =? 0) with false in Hx by (symmetry; apply N.eqb_neq; lia).
  replace (st_supply p - sh =? 0) with false in Hx' by (symmetry; apply N.eqb_neq; lia).
  destruct Hx as [X1 _], Hx' as [_ X2].
  set (S := st_supply p) in *. set (V := total (st_c p)) in *. set (Z := total c') in *. clearbody S V Z.
  set (M := 10 ^ 8) in *. assert (HM : 0 < M) by reflexivity. clearbody M.
  destruct (N.le_gt_cases x x') as [|Hlt]; [done|exfalso].
  assert (E1 : (S - sh) * V <= S * Z) by nia.
  assert (E2 : x * S * (S - sh) <= M * (S * Z)).
  { transitivity (M * ((S - sh) * V)); [nia|]. apply N.mul_le_mono_l, E1. }
  assert (E3 : M * (S * Z) < S * ((x' + 1) * (S - sh))) by nia.
  assert (E4 : S * ((x' + 1) * (S - sh)) <= x * S * (S - sh)) by nia. lia.
Qed.
Print Assumptions C90_redemption_keeps_price.

(** ** The price a stable pool shows moves with trades *)
(** A trader can raise the price a stable pool shows by half with one trade, and lower it again by trading
    back, at the cost of the trading fee (here 0.14 per cent of the amount). *)
Definition price_env : PoolEnv := mkPoolEnv 1 (fun _ => Some (10 ^ 24)) (fun _ => true).
Definition price_pool (k : StableKind) : option StablePool :=
  p0 ← st_new k ["A"; "B"] [18; 18] 10 1;
  st_run p0 [(price_env, StAdd "alice" [10 ^ 24; 10 ^ 24] 0 ex_st_fees)].
Definition price_moves (k : StableKind) (a : N) : option (N * N * N * N) :=
  p ← price_pool k; x ← st_get_share_price p price_env;
  '(p1, out) ← st_swap p price_env "A" a "B" 1 ex_st_fees false; x1 ← st_get_share_price p1 price_env;
  '(p2, back) ← st_swap p1 price_env "B" out "A" 1 ex_st_fees false; x2 ← st_get_share_price p2 price_env;
  Some (x, x1, x2, back).

Theorem C90_trades_refuted :
  exists now p p1 p2 out back x x1 x2,
    st_reachable now p /\ now <= 1 /\ st_kind p = KStable /\
    st_swap p price_env "A" (2 * 10 ^ 24) "B" 1 ex_st_fees false = Some (p1, out) /\
    st_swap p1 price_env "B" out "A" 1 ex_st_fees false = Some (p2, back) /\
    st_get_share_price p price_env = Some x /\ st_get_share_price p1 price_env = Some x1 /\
    st_get_share_price p2 price_env = Some x2 /\
    3 * x < 2 * x1 /\ 2 * x2 < 3 * x /\ 998 * (2 * 10 ^ 24) < 1000 * back.
Proof.
  assert (E : price_moves KStable (2 * 10 ^ 24) = Some (100000000, 150747324, 100113507, 1997163928889891645117060))
    by (vm_compute; reflexivity).
  unfold price_moves in E. apply bind_Some in E as (p & Hp & E). apply bind_Some in E as (x & Hx & E).
  apply bind_Some in E as ([p1 out] & H1 & E). apply bind_Some in E as (x1 & Hx1 & E).
  apply bind_Some in E as ([p2 back] & H2 & E). apply bind_Some in E as (x2 & Hx2 & E).
  assert (Hk : st_kind p = KStable).
  { assert (E' : (st_kind <$> price_pool KStable) = Some KStable) by (vm_compute; reflexivity).
    rewrite Hp in E'. now injection E'. }
  unfold price_pool in Hp. apply bind_Some in Hp as (p0 & H0 & Hp).
  assert (Hr : exists now', now' <= 1 /\ st_reachable now' p).
  { cbn [st_run] in Hp. apply bind_Some in Hp as (p0' & Hs & Hp). injection Hp as ->. exists 1. split; [lia|].
    change 1 with (pe_now price_env). apply (st_reach_step 0 p0 _ _ _) in Hs; [exact Hs| |vm_compute; discriminate|vm_compute; reflexivity].
    eapply st_reach_new; [| | |exact H0]; [|done|done]. repeat constructor; set_solver. }
  destruct Hr as (now & Hn & Hr). injection E as -> -> -> ->.
  exists now, p, p1, p2, out, 1997163928889891645117060, 100000000, 150747324, 100113507.
  split; [exact Hr|]. split; [exact Hn|]. split; [exact Hk|]. split; [exact H1|]. split; [exact H2|].
  split; [exact Hx|]. split; [exact Hx1|]. split; [exact Hx2|]. split; [|split]; vm_compute; reflexivity.
Qed.
Print Assumptions C90_trades_refuted.

(** The same trades in a rated pool hardly move the price it shows. The pool of [C16_ex] meets the conditions
    of the theorems: price 1.00065337, before and after a redemption. *)
Example C90_ex :
  price_moves KRated (2 * 10 ^ 24) = Some (100000000, 100105515, 100113502, 1997163928889891645117076) /\
  (p ← ex_st_pre KStable; x ← st_get_share_price p price_env;
   '(p', out) ← st_remove_by_shares p "bob" (10 ^ 23) [1; 1; 1] false; x' ← st_get_share_price p' price_env;
   let paid := total (st_c p) - total (st_c p') in
   Some (x, x', (10 ^ 8 * paid <=? (x + 1) * 10 ^ 23) && (x * 10 ^ 23 <? 10 ^ 8 * (paid + 3)),
         at_most_Db 15 (st_c p) 4498623004054843124833952)) = Some (100065337, 100065337, true, true).
Proof. split; vm_compute; reflexivity. Qed.
