(** * Property C88: the exchange, the farm and the lender agree on shadow-staked shares *)
From Verif Require Import Base BaseLemmas SimplePool StableMath StablePool SpecStable Rates Account Pool Exchange SpecExchange SpecWorld WorldProofs
  SpecSwap SpecHistory HistoryProofs ExExample PropWorld PropShares SpecShadow ShadowProofs.

(** ** C88 *)
(** In every execution with an honest contract, its book plus what is under way is exactly what the exchange records as
    staked there, for every account and pool.  The other contract need not be honest. *)
Theorem C88_books_agree sd s0 s : s_start s0 -> s_reach sd s0 s ->
  forall a pid, staked sd (w_ex (s_world s)) pid a = s_book s sd a pid + under_way s sd a pid.
Proof.
  intros H0 H a pid. pose proof (s_inv_reach sd a pid 0 s0 s (s_inv_start _ _ _ _ H0) H) as [_ _ _ _ Hag]. lia.
Qed.
Print Assumptions C88_books_agree.
(** Once nothing of theirs is under way, both record the same. *)
Theorem C88_settled sd s0 s a pid : s_start s0 -> s_reach sd s0 s ->
  (forall id r, requests (s_world s) !! id = Some r -> rq_from r <> a \/ rq_pool r <> pid \/ side_of (rq_act r) <> sd) ->
  s_book s sd a pid = staked sd (w_ex (s_world s)) pid a.
Proof.
  intros H0 H Hq. rewrite (C88_books_agree sd s0 s H0 H). unfold under_way. rewrite msum_zero; [lia|].
  intros id r Hr. unfold waits. destruct (same_place _ _ _ _ _ _) eqn:E; [|done]. apply same_place_spec in E as (E1 & E2 & E3). destruct (Hq _ _ Hr) as [?|[?|?]]; congruence.
Qed.
Print Assumptions C88_settled.
(** The contract never credits anybody with more shares than they hold, as long as the locks hold (C33). *)
Theorem C88_never_overcounted sd s0 s a pid : s_start s0 -> s_reach sd s0 s -> all_locked (w_ex (s_world s)) ->
  s_book s sd a pid <= shares_at (w_ex (s_world s)) pid a.
Proof.
  intros H0 H Hl. pose proof (C88_books_agree sd s0 s H0 H a pid) as Hag. destruct (Hl pid a) as [Hf Hb]. unfold staked in Hag. destruct sd; lia.
Qed.
Print Assumptions C88_never_overcounted.
(** The report of an answer always does its work: a refused stake and an accepted release are taken off the record, an
    accepted stake and a refused release change nothing. *)
Theorem C88_report sd s0 s id e ok w' r : s_start s0 -> s_reach sd s0 s ->
  w_step (s_world s) (EvShadowCallback id e ok) = Some w' -> fair sd s (EvShadowCallback id e ok) w' ->
  requests (s_world s) !! id = Some r -> side_of (rq_act r) = sd ->
  staked sd (w_ex w') (rq_pool r) (rq_from r) + (if Bool.eqb (is_cast (rq_act r)) ok then 0 else rq_amount r) =
    staked sd (w_ex (s_world s)) (rq_pool r) (rq_from r).
Proof.
  intros H0 H Hs Hf Hr Hsd. pose proof (s_inv_reach sd (rq_from r) (rq_pool r) 0 s0 s (s_inv_start _ _ _ _ H0) H) as Hi.
  pose proof (s_inv_callback _ _ _ _ _ _ _ _ _ Hi Hs Hf) as Hi'. destruct Hi as [_ _ _ _ Hag]. destruct Hi' as [_ _ _ _ Hag'].
  cbn [s_world s_book] in Hag'.
  rewrite (under_way_split _ _ _ _ _ _ Hr) in Hag. destruct Hf as [Hans _]. rewrite Hans in Hag.
  unfold w_step in Hs. cbv zeta in Hs. apply bind_Some in Hs as (u & Hu & Hs). apply bind_Some in Hs as (f & Hfl & Hs).
  destruct f as [|p|]; try discriminate Hs. destruct p as [| | | | | |act from pid x fee|]; try discriminate Hs. injection Hs as <-.
  pose proof Hr as Hr'. rewrite requests_lookup, Hfl in Hr'. injection Hr' as <-. cbn [rq_act rq_from rq_pool rq_amount] in *.
  unfold under_way in Hag'. cbn [s_world s_answers] in Hag'.
  rewrite requests_delete in Hag'. rewrite (answers_elsewhere (s_answers s) (delete id (s_answers s))) in Hag' by (intros i Hne; apply lookup_delete_ne; congruence).
  cbn [w_ex] in *. rewrite Hag, Hag'. set (m := msum _ _). clearbody m. unfold waits. cbn [rq_act rq_from rq_pool rq_amount rq_final].
  rewrite (proj2 (same_place_spec _ _ _ _ _ _)) by done. cbn [andb negb]. destruct (is_cast act), ok; cbn [Bool.eqb]; lia.
Qed.
Print Assumptions C88_report.
(** What the exchange records beyond the book and what is under way stays so whatever the account does: such shares
    remain locked until a liquidation takes them.  (The final messages of liquidations have been answered before.) *)
Theorem C88_excess_kept sd s0 s1 s2 a pid d : s_start s0 -> s_reach Lending s0 s1 ->
  (forall id r, requests (s_world s1) !! id = Some r -> rq_final r = true -> is_Some (s_answers s1 !! id)) ->
  s_reach sd s1 s2 ->
  staked sd (w_ex (s_world s1)) pid a = s_book s1 sd a pid + under_way s1 sd a pid + d ->
  staked sd (w_ex (s_world s2)) pid a = s_book s2 sd a pid + under_way s2 sd a pid + d.
Proof.
  intros H0 H1 Hfin H2 Hd. destruct (s_inv_reach Lending a pid 0 s0 s1 (s_inv_start _ _ _ _ H0) H1) as [Hok Hids _ Hpos _].
  assert (Hi : s_inv sd a pid d s1) by (split; auto). now destruct (s_inv_reach sd a pid d s1 s2 Hi H2) as [_ _ _ _ Hag].
Qed.
Print Assumptions C88_excess_kept.

(** *** Executions as lists *)
Inductive Move := Happens (ev : Event) | Answers (id : N) (ok : bool).
Definition saves_b (c : Exchange) (a : AccountId) (freed : N) : bool :=
  match ex_account c a with Some acc => (ac_storage_usage acc <=? ac_near acc) && (ac_near acc + freed <? W128) | None => true end.
Definition fair_b (sd : Side) (s : Shadows) (ev : Event) : bool :=
  match ev with
  | EvShadowCallback id e ok => bool_decide (s_answers s !! id = Some ok) &&
      match requests (s_world s) !! id with Some r => saves_b (w_ex (s_world s)) (rq_from r) (e_freed e) | None => true end
  | EvCall _ (CLiquidation _ vic sid x _) =>
      match sd, shadow_id_to_pool_id sid with Lending, Some pid => x <=? s_book s Lending vic pid | _, _ => false end
  | _ => true
  end.
Definition s_next (sd : Side) (s : Shadows) (m : Move) : option Shadows :=
  match m with
  | Happens ev => _ ← ensure (fair_b sd s ev); w' ← w_step (s_world s) ev; Some (mkShadows w' (settle (s_book s) ev) (after_callback (s_answers s) ev))
  | Answers id ok =>
      r ← requests (s_world s) !! id;
      _ ← ensure (negb (bool_decide (is_Some (s_answers s !! id))) && (negb ok || is_cast (rq_act r) || (rq_amount r <=? s_book s (side_of (rq_act r)) (rq_from r) (rq_pool r))));
      Some (mkShadows (s_world s) (if ok then accept (s_book s) r else s_book s) (<[id := ok]> (s_answers s)))
  end.
Fixpoint s_run (sd : Side) (s : Shadows) (l : list Move) : option Shadows := match l with [] => Some s | m :: l => s' ← s_next sd s m; s_run sd s' l end.
Lemma s_next_step sd s m s' : s_next sd s m = Some s' -> s_step sd s s'.
Proof.
  intros H. destruct m as [ev|id ok]; cbn [s_next] in H.
  - apply bind_Some in H as (u & Hu & H). apply bind_Some in H as (w' & Hw & H). injection H as <-. apply s_event; [done|]. apply ensure_Some in Hu.
    destruct ev; try exact I; cbn [fair fair_b] in *.
    + match goal with x : Call |- _ => destruct x; try exact I end. destruct sd; [discriminate Hu|]. intros pid Hp. rewrite Hp in Hu. now apply N.leb_le.
    + apply andb_true_iff in Hu as [Hu1 Hu2]. apply bool_decide_eq_true in Hu1. split; [done|]. intros r Hr. rewrite Hr in Hu2. unfold saves, saves_b in *.
      destruct (ex_account _ _); [|done]. apply andb_true_iff in Hu2 as [A B]. apply N.leb_le in A. apply N.ltb_lt in B. done.
  - apply bind_Some in H as (r & Hr & H). apply bind_Some in H as (u & Hu & H). injection H as <-. apply ensure_Some in Hu. apply andb_true_iff in Hu as [Hu1 Hu2].
    apply s_answer; [done| |].
    + destruct (s_answers s !! id); [|done]. now rewrite bool_decide_eq_true_2 in Hu1 by eauto.
    + intros -> Hc. rewrite Hc in Hu2. now apply N.leb_le.
Qed.
Lemma s_run_reach sd l : forall s s', s_run sd s l = Some s' -> s_reach sd s s'.
Proof.
  assert (G : forall s0 s s', s_reach sd s0 s -> s_run sd s l = Some s' -> s_reach sd s0 s').
  { induction l as [|m l IH]; intros s0 s s' H0 H; cbn [s_run] in H; [now injection H as <-|]. apply bind_Some in H as (s1 & H1 & H).
    eapply IH; [|exact H]. eapply s_reach_step; [exact H0|]. now apply s_next_step with m. }
  intros s s' H. eapply G; [apply s_reach_refl|exact H].
Qed.
(** The world of the examples, with correct books. *)
Definition s_rich : Shadows := mkShadows w_rich (fun sd a pid => staked sd (w_ex w_rich) pid a) ∅.
Lemma s_rich_start : s_start s_rich.
Proof.
  assert (Hok : w_ok w_rich).
  { eapply w_reach_ok; [apply w_start_ok, w_fresh_start|]. eapply w_run_reach; [|apply w_rich_runs]. eapply w_run_reach; [apply w_reach_refl|apply w_live_runs]. }
  destruct Hok as [Hwf Hids]. split; [exact Hwf|]. split; [intros id f; apply Hids|]. split; [|split; [done|done]]. apply map_to_list_empty_iff. vm_compute. reflexivity.
Qed.
Definition n0 : N := w_next w_rich.
(** al stakes half in farming, which the farm accepts, and a third in lending, which is refused; then asks for a quarter
    back from the farm, and gets it. *)
Definition C88_moves : list Move :=
  [ Happens (EvCall (env 120 "al" (10 ^ 24)) (CShadow ToFarming 0 (Some (al_shares / 2))));
    Happens (EvCall (env 121 "al" (10 ^ 24)) (CShadow ToBurrowland 0 (Some (al_shares / 3))));
    Answers (n0 + 3) false; Answers (n0 + 1) true;
    Happens (EvShadowCallback (n0 + 3) (env 122 "ref" 0) false);
    Happens (EvCall (env 123 "al" (10 ^ 24)) (CShadow FromFarming 0 (Some (al_shares / 4)))); Answers (n0 + 4) true;
    Happens (EvShadowCallback (n0 + 1) (env 123 "ref" 0) true);
    Happens (EvCall (env 124 "al" 1) (CRemoveLiquidity 0 (al_shares / 3) [1; 1])) ].
Definition s_mid : Shadows := default s_rich (s_run Farming s_rich C88_moves).
Definition s_end : Shadows := default s_rich (s_run Farming s_mid [Happens (EvShadowCallback (n0 + 4) (env 125 "ref" 0) true)]).
Lemma srun_default sd s l d : done_ (s_run sd s l) = true -> s_run sd s l = Some (default d (s_run sd s l)).
Proof. now destruct (s_run sd s l). Qed.
Example C88_ex : s_reach Farming s_rich s_mid /\ under_way s_mid Farming "al" 0 = al_shares / 4 /\ staked Farming (w_ex (s_world s_mid)) 0 "al" = al_shares / 2 /\
  s_reach Farming s_mid s_end /\ under_way s_end Farming "al" 0 = 0 /\ staked Farming (w_ex (s_world s_end)) 0 "al" = al_shares / 2 - al_shares / 4 /\
  staked Lending (w_ex (s_world s_end)) 0 "al" = 0.
Proof.
  split; [apply (s_run_reach Farming C88_moves), srun_default; vm_compute; reflexivity|]. split; [vm_compute; reflexivity|]. split; [vm_compute; reflexivity|].
  split; [apply (s_run_reach Farming [Happens (EvShadowCallback (n0 + 4) (env 125 "ref" 0) true)]), srun_default; vm_compute; reflexivity|].
  split_and!; vm_compute; reflexivity.
Qed.

(** *** Liquidations that reach into the farm *)
(** al has staked everything in lending.  While half is on its way to the farm, three quarters are liquidated: the
    exchange takes a quarter off the farm's record and tells the farm.  The farm, never having had anything, refuses that,
    and then refuses the stake as well.  The report of the refusal fails for lack of record, and a quarter stays recorded
    as staked in a farm whose book is empty. *)
Definition C88_locked : list Move :=
  [ Happens (EvCall (env 120 "al" (10 ^ 24)) (CShadow ToBurrowland 0 None)); Answers (n0 + 1) true;
    Happens (EvShadowCallback (n0 + 1) (env 121 "ref" 0) true);
    Happens (EvCall (env 122 "al" (10 ^ 24)) (CShadow ToFarming 0 (Some (al_shares / 2))));
    Happens (EvCall (env 123 "bur" 0) (CLiquidation "bo" "al" "shadow_ref_v1-0" (al_shares * 3 / 4) [1; 1])); Answers (n0 + 4) false;
    Answers (n0 + 3) false; Happens (EvShadowCallback (n0 + 3) (env 124 "ref" 0) false) ].
Definition s_locked : Shadows := default s_rich (s_run Lending s_rich C88_locked).
Theorem C88_liquidation_locks_refuted :
  s_start s_rich /\ s_reach Lending s_rich s_locked /\
  0 < staked Farming (w_ex (s_world s_locked)) 0 "al" /\ s_book s_locked Farming "al" 0 = 0 /\ under_way s_locked Farming "al" 0 = 0 /\
  staked Farming (w_ex (s_world s_locked)) 0 "al" = shares_at (w_ex (s_world s_locked)) 0 "al" /\ staked Lending (w_ex (s_world s_locked)) 0 "al" <> 0 /\
  forall s2, s_reach Farming s_locked s2 -> staked Farming (w_ex (s_world s_locked)) 0 "al" <= staked Farming (w_ex (s_world s2)) 0 "al".
Proof.
  assert (R : s_reach Lending s_rich s_locked) by (apply (s_run_reach Lending C88_locked), srun_default; vm_compute; reflexivity).
  assert (B : s_book s_locked Farming "al" 0 = 0) by (vm_compute; reflexivity). assert (U : under_way s_locked Farming "al" 0 = 0) by (vm_compute; reflexivity).
  split; [apply s_rich_start|]. split; [done|]. split; [vm_compute; reflexivity|]. split; [done|]. split; [done|]. split; [vm_compute; reflexivity|]. split; [vm_compute; discriminate|].
  intros s2 H2. rewrite (C88_excess_kept Farming s_rich s_locked s2 "al" 0 (staked Farming (w_ex (s_world s_locked)) 0 "al") s_rich_start R); [lia| |done|lia].
  assert (F : map_Forall (fun id r => negb (rq_final r) || bool_decide (is_Some (s_answers s_locked !! id)) = true) (requests (s_world s_locked))).
  { apply map_Forall_to_list. vm_compute. repeat constructor. }
  intros id r Hr Hf. specialize (F _ _ Hr). cbn beta in F. rewrite Hf in F. now apply bool_decide_eq_true in F.
Qed.
Print Assumptions C88_liquidation_locks_refuted.
(** Same with the stake accepted after the removal was refused: the farm's book then exceeds what al holds. *)
Definition C88_over : list Move :=
  take 6 C88_locked ++ [ Answers (n0 + 3) true; Happens (EvShadowCallback (n0 + 3) (env 124 "ref" 0) true) ].
Definition s_over : Shadows := default s_rich (s_run Lending s_rich C88_over).
Theorem C88_liquidation_overcount_refuted :
  s_start s_rich /\ s_reach Lending s_rich s_over /\
  shares_at (w_ex (s_world s_over)) 0 "al" < s_book s_over Farming "al" 0 /\ staked Farming (w_ex (s_world s_over)) 0 "al" < s_book s_over Farming "al" 0 /\
  under_way s_over Farming "al" 0 = 0.
Proof.
  split; [apply s_rich_start|]. split; [apply (s_run_reach Lending C88_over), srun_default; vm_compute; reflexivity|]. split_and!; vm_compute; reflexivity.
Qed.
Print Assumptions C88_liquidation_overcount_refuted.
