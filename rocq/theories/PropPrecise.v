(** * How exactly stable pools compute: C66, C67 *)
From Verif Require Import PropSimple PropStable PropExact.
From Verif Require Import Base BaseLemmas SimplePool SpecSimple StableMath
  StableMathProofs StablePool SpecStable StablePoolProofs StablePoolInv SpecExact StableExact StablePrecise.

(** ** C66 *)
(** If no balance is below the [B]-th part of the average and [2 (n + 1) B^n < A n^n], the computed invariant is
    the exact one rounded down, or one more: it is at least every integer that is at most the exact invariant, and
    the computed number less one is such an integer. In particular the iteration converges within its 256 steps. *)
Theorem C66_computed_exact now p t rates cs xs D B :
  st_reachable now p -> now <= t -> t < 2 ^ 64 -> xs <> [] ->
  rate_balances cs rates = Some xs -> st_D p t rates cs = Some D -> even_balances (st_get_amp p t) B xs ->
  at_most_D (st_get_amp p t) xs (D - 1) /\ forall d, at_most_D (st_get_amp p t) xs d -> d <= D.
Proof.
  intros Hr Hle HW Hne Hx HD He. split.
  - pose proof (st_reachable_amp _ _ Hr) as Hamp. rewrite <- W64_pow in HW.
    pose proof (st_amp_value now p t rates Hamp Hle HW) as HA.
    pose proof (amp_between _ _ HA) as Hb. cbn [st_curve cv_init cv_target] in Hb.
    assert (HA0 : 0 < st_get_amp p t).
    { destruct Hamp as (Hi & Ht & _). unfold MIN_AMP in *. clear - Hb Hi Ht. lia. }
    unfold st_D, compute_d_with_rates in HD. cbn [st_curve cv_rates] in HD. rewrite Hx in HD. cbn [mbind option_bind] in HD.
    eapply compute_d_even; eauto.
  - intros d Hd. eapply C59_computed_not_below_exact; eauto.
Qed.
Print Assumptions C66_computed_exact.

(** The condition is needed: with very unequal balances the iteration stops ninety units above. *)
Theorem C66_uneven_refuted :
  exists now p D, st_reachable now p /\ now <= 1 /\ st_D p 1 [PRECISION; PRECISION] [805560389; 1] = Some D /\
    ~ at_most_D (st_get_amp p 1) [805560389; 1] (D - 1).
Proof.
  destruct (st_new KStable ["A"; "B"] [18; 18] 10 0) as [p|] eqn:Hp; [|exfalso; vm_compute in Hp; discriminate Hp].
  exists 0, p, 4691259.
  split; [eapply st_reach_new; [| | |exact Hp]; [|done|done]; repeat constructor; set_solver|].
  split; [lia|]. rewrite <- at_most_Db_spec. vm_compute in Hp. injection Hp as <-.
  split; [vm_compute; reflexivity|]. intros E. vm_compute in E. discriminate E.
Qed.
Print Assumptions C66_uneven_refuted.

Definition even_balancesb (A B : N) (xs : list N) : bool :=
  let n := N.of_nat (length xs) in
  forallb (fun c => total xs <=? B * (n * c)) xs && (2 * (n + 1) * B ^ n <? A * n ^ n).
Lemma even_balancesb_spec A B xs : even_balancesb A B xs = true <-> even_balances A B xs.
Proof.
  unfold even_balancesb, even_balances. cbv zeta. rewrite andb_true_iff, forallb_forall, N.ltb_lt.
  apply and_iff_compat_r. rewrite Forall_forall. split; intros H x Hx; [apply N.leb_le|apply N.leb_le, H];
  [apply H|]; now apply elem_of_list_In.
Qed.

(** The balances of the pool of [C16_ex] (three tokens, amplification 15) satisfy it with [B = 3]; those of a pool at amplification
    240 may differ by a factor of nine from the average. *)
Example C66_ex :
  (p ← ex_st_pre KStable; let u := map (fun _ => PRECISION) (st_tokens p) in
   D ← st_D p (3 * DAY) u (st_c p); let A := st_get_amp p (3 * DAY) in
   Some (even_balancesb A 3 (st_c p), at_most_Db A (st_c p) (D - 1), at_most_Db A (st_c p) (D + 1),
         even_balancesb 240 9 [10 ^ 18; 9 * 10 ^ 18; 15 * 10 ^ 18]))
  = Some (true, true, false, true).
Proof. vm_compute. reflexivity. Qed.

(** ** C67 *)
(** A trade in a stable pool pays what the exact invariant dictates, less the fee: the pool's balance falls by [gross] less the
    fee rate times [gross], where paying three more units ([10^-18] of a token) than [gross] would bring the exact invariant of
    the pool down to the computed invariant [D] before the trade or below it. *)
Theorem C67_trade_pays_exact now p e ti a to mn f v p' out D :
  let A := st_get_amp p (pe_now e) in
  st_reachable now p -> now <= pe_now e -> pe_now e < 2 ^ 64 -> st_kind p = KStable ->
  st_swap p e ti a to mn f v = Some (p', out) ->
  st_D p (pe_now e) (map (fun _ => PRECISION) (st_tokens p)) (st_c p) = Some D -> 8 <= D ->
  exists gross,
    gross <= st_kept p to /\ st_kept p to - st_kept p' to = gross - gross * st_fee p / FEE_DIVISOR /\
    out = in_token_units 18 (st_dec p to) (st_kept p to - st_kept p' to) /\
    forall iy, st_tokens p !! iy = Some to -> at_least_D A (<[iy := st_kept p to - gross - 3]> (st_c p')) D.
Proof. apply st_swap_fair. Qed.
Print Assumptions C67_trade_pays_exact.

(** In a pool with even balances, [D] is at most one more than the exact invariant before the trade. *)
Theorem C67_even_pool now p e ti a to mn f v p' out D B :
  let A := st_get_amp p (pe_now e) in
  st_reachable now p -> now <= pe_now e -> pe_now e < 2 ^ 64 -> st_kind p = KStable ->
  st_swap p e ti a to mn f v = Some (p', out) ->
  st_D p (pe_now e) (map (fun _ => PRECISION) (st_tokens p)) (st_c p) = Some D -> 8 <= D -> even_balances A B (st_c p) ->
  exists gross d,
    st_kept p to - st_kept p' to = gross - gross * st_fee p / FEE_DIVISOR /\
    at_most_D A (st_c p) d /\
    forall iy, st_tokens p !! iy = Some to -> at_least_D A (<[iy := st_kept p to - gross - 3]> (st_c p')) (d + 1).
Proof.
  intros A Hr Hle HW Hk H HD HD8 He.
  destruct (C67_trade_pays_exact _ _ _ _ _ _ _ _ _ _ _ _ Hr Hle HW Hk H HD HD8) as (gross & _ & Hg & _ & Hall).
  exists gross, (D - 1). split; [exact Hg|]. replace (D - 1 + 1) with D by lia. split; [|exact Hall].
  pose proof (st_reachable_wf _ _ Hr) as (_ & _ & Hlc & HcW & _).
  assert (Hne : st_c p <> []).
  { apply st_swap_inv in H as (ix & iy & rates & r & x & y & di & do_ & cin & m & s2 & adm & _ & _ & _ & _ & _ & _ & _ & _ & Hx & _).
    intros E. rewrite E in Hx. done. }
  refine (proj1 (C66_computed_exact now p (pe_now e) _ _ (st_c p) D B Hr Hle HW Hne _ HD He)).
  apply rate_balances_unit; [lia|done].
Qed.
Print Assumptions C67_even_pool.

Definition at_least_Db (A : N) (xs : list N) (d : N) : bool :=
  let n := N.of_nat (length xs) in
  let P := n ^ n * product xs in
  A * n ^ n * total xs * P + d * P <=? d ^ (n + 1) + A * n ^ n * d * P.

(** The trade of [C16_ex]: fee 0.3 percent. Paying three more units brings the exact invariant down to [D], paying three less does not. *)
Example C67_ex :
  (p ← ex_st_pre KStable; let u := map (fun _ => PRECISION) (st_tokens p) in
   D ← st_D p (3 * DAY) u (st_c p); '(p', out) ← st_swap p (ex_env (3 * DAY)) "A" 70000000001 "B" 1 ex_st_fees false;
   let A := st_get_amp p (3 * DAY) in let gross := 70123229630796687036251 in let after g := <[1%nat := st_kept p "B" - g]> (st_c p') in
   Some (st_kept p "B" - st_kept p' "B" =? gross - gross * st_fee p / FEE_DIVISOR, even_balancesb A 3 (st_c p),
         8 <=? D, at_least_Db A (after (gross + 3)) D, at_least_Db A (after (gross - 3)) D, st_tokens p !! 1%nat))
  = Some (true, true, true, true, false, Some "B").
Proof. vm_compute. reflexivity. Qed.
