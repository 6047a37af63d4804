(** * C100: ref-farming and the token contract agree *)
From Verif Require Import Base BaseLemmas Token SpecToken TokenProofs Farming SpecFarming FarmingProofs FarmingInv SpecFarmLive SpecFarmToken.
From Verif Require StakeProofs PropFarming PropFarmLive ExExample.

Lemma drop_nth_sum {A} (v : A -> N) (l : list A) i x : l !! i = Some x -> lsum (v <$> l) = v x + lsum (v <$> drop_nth i l).
Proof.
  intros H. unfold drop_nth. revert i H. induction l as [|y l IH]; intros i H; [done|]. destruct i as [|i].
  - injection H as ->. reflexivity.
  - change (lsum (v <$> y :: l)) with (v y + lsum (v <$> l)). change (lsum (v <$> take (S i) (y :: l) ++ drop (S (S i)) (y :: l))) with (v y + lsum (v <$> take i l ++ drop (S i) l)).
    rewrite (IH i H). lia.
Qed.
Lemma Forall_drop_nth {A} (P : A -> Prop) i l : Forall P l -> Forall P (drop_nth i l).
Proof. intros H. apply Forall_app. split; [now apply Forall_take|now apply Forall_drop]. Qed.

Record g_inv (t fa : AccountId) (g : Farmed) : Prop := {
  gi_farm : freachable (g_f g);
  gi_books : token_of (g_k g) fa = mget (w_hold (g_f g)) t + coming g + refunds g;
  gi_in : Forall (fun q => q.1.1 <> fa) (g_in g);
  gi_back : Forall (fun q => q.1 <> fa) (g_back g);
  gi_other : Forall (fun q => q.1.1 <> fa /\ q.1.2 <> fa /\ q.1.1 <> q.1.2) (g_other g);
  gi_wf : tk_wf (g_k g);
}.
Lemma executed_step f i p : freachable f -> w_pend f !! i = Some p -> pend_res p = None -> fstep f (EvRemote i true) = Some (executed f i p).
Proof.
  intros Hw Hi Hp. pose proof (StakeProofs.pending_hold _ _ _ Hw Hi Hp) as Hh. cbn [fstep]. rewrite Hi. cbn [mbind option_bind]. rewrite Hp, csub_intro by exact Hh. reflexivity.
Qed.
Lemma g_start_inv t fa g : g_start t fa g -> g_inv t fa g.
Proof.
  intros (Hf & Hb & Ha & Hl & E1 & E2 & E3). constructor; auto.
  - unfold coming, refunds. rewrite E1, E2, Hb. cbn. lia.
  - rewrite E1. constructor.
  - rewrite E2. constructor.
  - rewrite E3. constructor.
  - now split.
Qed.
Lemma g_step_inv t fa m g g' : g_inv t fa g -> g_step t fa m g g' -> g_inv t fa g'.
Proof.
  intros [Hf Hb Hi Hbk Ho Hw] H. unfold coming, refunds in Hb.
  destruct H as [a x k Ha Hr H|x|a r x y k Ha Hr H|i s r x ans k u b Hq H|a x y k f Ha H Hs|a x y msg k Ha H|i s x msg now f Hq Hs|i s x msg Hq|i s x k u b Hq H|i p k Hq Hp Ht H|ev f He Hs].
  - destruct (call_frame _ _ _ _ _ fa H) as [Ef Er]; [auto|destruct x; cbn [receiver_of]; congruence|].
    constructor; auto; cbn [g_k g_f g_in g_back]; [unfold coming, refunds; cbn [g_in g_back]; congruence|]. apply (call_moved m) in H as [H _]. auto.
  - constructor; auto.
  - assert (Ef := H). apply transfer_effect in Ef as (Hne & _ & _ & _ & Ef & _). constructor; auto; cbn [g_k g_f g_in g_back g_other].
    + rewrite Ef by auto. exact Hb.
    + constructor; [cbn [fst snd]; auto|exact Ho].
    + apply (transfer_moved m) in H as [H _]. auto.
  - pose proof (Forall_lookup_1 _ _ _ _ Ho Hq) as (Q1 & Q2 & Q3). cbn [fst snd] in Q1, Q2, Q3.
    destruct (resolve_effect _ _ _ _ _ _ _ _ Q3 H) as (_ & _ & _ & Ef & _). constructor; auto; cbn [g_k g_f g_in g_back g_other].
    + rewrite Ef by auto. exact Hb.
    + now apply Forall_drop_nth.
    + apply (resolve_moved m) in H as [H _]; auto.
  - assert (Ef := H). apply transfer_effect in Ef as (Hne & _ & _ & Er & _). constructor; auto; cbn [g_k g_f g_in g_back g_other].
    + eapply StakeProofs.freachable_step; eauto.
    + cbn [fstep] in Hs. injection Hs as <-. cbn [w_hold]. unfold mget at 1. rewrite lookup_insert, Er, Hb. cbn [from_option]. unfold id, coming, refunds. cbn [g_in g_back]. lia.
    + apply (transfer_moved m) in H as [H _]. auto.
  - assert (Ef := H). apply transfer_effect in Ef as (Hne & _ & _ & Er & _). constructor; auto; cbn [g_k g_f g_in g_back g_other].
    + rewrite Er, Hb. unfold coming, refunds. cbn [g_in g_back]. change (lsum (snd ∘ fst <$> (a, x, msg) :: g_in g)) with (x + lsum (snd ∘ fst <$> g_in g)). lia.
    + constructor; [exact Ha|exact Hi].
    + apply (transfer_moved m) in H as [H _]. auto.
  - pose proof (drop_nth_sum (snd ∘ fst) _ _ _ Hq) as E. cbn [compose fst snd] in E. constructor; auto; cbn [g_k g_f g_in g_back g_other].
    + eapply StakeProofs.freachable_step; eauto.
    + cbn [fstep] in Hs. apply bind_Some in Hs as (u & _ & Hs). apply bind_Some in Hs as (c' & _ & Hs). injection Hs as <-. cbn [w_hold]. unfold mget at 1. rewrite lookup_insert, Hb.
      unfold coming, refunds. cbn [g_in g_back]. unfold compose in *. rewrite E. cbn [from_option]. unfold id. lia.
    + now apply Forall_drop_nth.
  - pose proof (drop_nth_sum (snd ∘ fst) _ _ _ Hq) as E. pose proof (Forall_lookup_1 _ _ _ _ Hi Hq) as Q. cbn [compose fst snd] in E, Q. constructor; auto; cbn [g_k g_f g_in g_back g_other].
    + rewrite Hb. unfold coming, refunds. cbn [g_in g_back]. change (lsum (snd <$> (s, x) :: g_back g)) with (x + lsum (snd <$> g_back g)). unfold compose in *. rewrite E. lia.
    + now apply Forall_drop_nth.
    + constructor; [exact Q|exact Hbk].
  - pose proof (drop_nth_sum snd _ _ _ Hq) as E. pose proof (Forall_lookup_1 _ _ _ _ Hbk Hq) as Q. cbn [fst snd] in E, Q.
    destruct (resolve_effect _ _ _ _ _ _ _ _ Q H) as (A & _). rewrite N.min_r in A by lia. constructor; auto; cbn [g_k g_f g_in g_back g_other].
    + unfold coming, refunds. cbn [g_in g_back]. lia.
    + now apply Forall_drop_nth.
    + apply (resolve_moved m) in H as [H _]; auto.
  - assert (Ef := H). apply transfer_effect in Ef as (Hne & Hx & Es & _). pose proof (StakeProofs.pending_hold _ _ _ Hf Hq Hp) as Hh. constructor; auto; cbn [g_k g_f g_in g_back g_other].
    + eapply StakeProofs.freachable_step; [exact Hf|]. eapply executed_step; eauto.
    + unfold executed. cbn [w_hold]. rewrite Ht in *. unfold mget at 1. rewrite lookup_insert. cbn [from_option]. unfold id, coming, refunds. cbn [g_in g_back]. lia.
    + apply (transfer_moved m) in H as [H _]. auto.
  - constructor; auto; cbn [g_k g_f g_in g_back g_other].
    + eapply StakeProofs.freachable_step; eauto.
    + rewrite Hb. unfold coming, refunds. cbn [g_in g_back]. f_equal; f_equal. symmetry. eapply StakeProofs.fstep_hold; [exact Hs|]. destruct ev; auto.
Qed.
Lemma g_reach_inv t fa m g0 g : g_start t fa g0 -> g_reach t fa m g0 g -> g_inv t fa g.
Proof. intros Hs H. induction H as [|g g' _ IH H]; [now apply g_start_inv|]. eapply g_step_inv; eauto. Qed.

(** Whatever both contracts do, the farm only makes steps of its own executions with an honest token, and the token contract's
    balance of the farm is what these executions say, with what is on its way to be accepted or returned. *)
Theorem C100_refines t fa m g0 g : g_start t fa g0 -> g_reach t fa m g0 g ->
  freachable (g_f g) /\ token_of (g_k g) fa = mget (w_hold (g_f g)) t + coming g + refunds g.
Proof. intros Hs Hr. destruct (g_reach_inv _ _ _ _ _ Hs Hr). auto. Qed.
Print Assumptions C100_refines.
(** Stakes, claimed rewards, the rewards of all farms, withdrawals under way and refunds are covered at every moment. *)
Theorem C100_solvent t fa m g0 g : g_start t fa g0 -> g_reach t fa m g0 g -> farm_debt (g_f g) t + coming g + refunds g <= token_of (g_k g) fa.
Proof.
  intros Hs Hr. destruct (C100_refines _ _ _ _ _ Hs Hr) as [Hf Hb]. pose proof (PropFarming.C45_rewards_solvent _ t Hf) as H. unfold farm_debt. lia.
Qed.
Print Assumptions C100_solvent.
(** A withdrawal of the farm is executed exactly if the receiver is another, registered account and the amount is not zero; it
    never fails for lack of tokens. *)
Theorem C100_pays t fa m g0 g i p : g_start t fa g0 -> g_reach t fa m g0 g -> w_pend (g_f g) !! i = Some p -> pend_res p = None -> pend_asset p = t ->
  (is_Some (tk_ft_transfer (g_k g) fa (pend_to p) (pend_amount p) 1) <-> pend_to p <> fa /\ 0 < pend_amount p /\ is_Some (tk_bal (g_k g) !! pend_to p)) /\
  forall k, tk_ft_transfer (g_k g) fa (pend_to p) (pend_amount p) 1 = Some k ->
    fstep (g_f g) (EvRemote i true) = Some (executed (g_f g) i p) /\ g_step t fa m g (mkFarmed k (executed (g_f g) i p) (g_in g) (g_back g) (g_other g)) /\
    token_of k (pend_to p) = token_of (g_k g) (pend_to p) + pend_amount p /\ token_of k fa + pend_amount p = token_of (g_k g) fa.
Proof.
  intros Hs Hr Hi Hp Ht. destruct (g_reach_inv _ _ _ _ _ Hs Hr) as [Hf Hb _ _ _ [Ha Hl]]. pose proof (StakeProofs.pending_hold _ _ _ Hf Hi Hp) as Hh. rewrite Ht in Hh.
  assert (Hbal : pend_amount p <= token_of (g_k g) fa) by lia. set (r := pend_to p) in *. set (x := pend_amount p) in *. split.
  - split.
    + intros [k Hk]. apply transfer_effect in Hk as (A & B & _ & _ & _ & _ & _ & _ & _ & C). split_and!; auto; lia.
    + intros (A & B & [br C]). assert (Hsb : tk_bal (g_k g) !! fa = Some (token_of (g_k g) fa)).
      { unfold token_of in Hbal |- *. destruct (tk_bal (g_k g) !! fa); [reflexivity|cbn in Hbal; lia]. }
      pose proof (two_tokens (g_k g) fa r (not_eq_sym A)) as H2. assert (Er : token_of (g_k g) r = br) by (unfold token_of; now rewrite C). rewrite Er in H2.
      unfold tk_ft_transfer. rewrite ensure_intro by reflexivity. cbn [mbind option_bind]. unfold tk_transfer.
      rewrite (ensure_intro (negb (String.eqb fa r))) by (apply negb_true_iff, String.eqb_neq; auto). cbn [mbind option_bind].
      rewrite ensure_intro by now apply N.ltb_lt. cbn [mbind option_bind]. unfold tk_withdraw. cbn [tk_attach tk_bal tk_supply tk_near]. rewrite Hsb. cbn [mbind option_bind].
      rewrite (csub_intro _ _ Hbal). cbn [mbind option_bind]. rewrite csub_intro by (pose proof (token_of_le (g_k g) fa); lia). cbn [mbind option_bind].
      unfold tk_deposit. cbn [tk_attach tk_bal tk_supply tk_near]. rewrite lookup_insert_ne, C by auto. cbn [mbind option_bind].
      rewrite cadd_intro by lia. cbn [mbind option_bind]. rewrite cadd_intro by lia. cbn [mbind option_bind]. eauto.
  - intros k Hk. split; [now apply executed_step|]. split; [now apply gs_pay|]. apply transfer_effect in Hk as (_ & _ & A & B & _). auto.
Qed.
Print Assumptions C100_pays.
(** A transfer the farm has refused is returned in full, whenever its refund is processed; one it has accepted stays. *)
Theorem C100_returned t fa m g0 g i s x : g_start t fa g0 -> g_reach t fa m g0 g -> g_back g !! i = Some (s, x) ->
  exists k u b, tk_resolve (g_k g) s fa x None = Some (k, u, b) /\ token_of k fa + x = token_of (g_k g) fa /\
    (is_Some (tk_bal (g_k g) !! s) -> token_of k s = token_of (g_k g) s + x) /\
    g_step t fa m g (mkFarmed k (g_f g) (g_in g) (drop_nth i (g_back g)) (g_other g)).
Proof.
  intros Hs Hr Hi. destruct (g_reach_inv _ _ _ _ _ Hs Hr) as [_ Hb _ Hbk _ Hw]. pose proof (Forall_lookup_1 _ _ _ _ Hbk Hi) as Q. cbn [fst] in Q.
  destruct (resolve_runs (g_k g) s fa x None Hw Q) as (k & u & b & E). exists k, u, b. split; [exact E|].
  assert (Hx : x <= refunds g) by (unfold refunds; rewrite (drop_nth_sum snd _ _ _ Hi); cbn [snd]; lia).
  destruct (resolve_effect _ _ _ _ _ _ _ _ Q E) as (A & B & _). rewrite N.min_r in A, B by lia. split; [exact A|]. split; [|eapply gs_refund; eauto].
  intros Hreg. now destruct (B Hreg) as [B1 _].
Qed.
Print Assumptions C100_returned.
Theorem C100_kept k s fa x : tk_resolve k s fa x (Some 0) = Some (k, x, 0).
Proof. unfold tk_resolve. rewrite N.min_0_r. reflexivity. Qed.
Print Assumptions C100_kept.
(** A farmer registered with the token contract gets any part of a claimed reward: the withdrawal and the transfer it causes
    succeed in whatever state both contracts are. *)
Theorem C100_reward t fa m g0 g now a x : g_start t fa g0 -> g_reach t fa m g0 g -> fs_running (w_c (g_f g)) = true -> in_time (g_f g) now ->
  0 < x <= reward_balance (w_c (g_f g)) a t -> a <> fa -> is_Some (tk_bal (g_k g) !! a) ->
  exists f1 g1 g2, fstep (g_f g) (EvCall now a (CWithdrawReward 1 t (Some x))) = Some f1 /\ g1 = mkFarmed (g_k g) f1 (g_in g) (g_back g) (g_other g) /\
    g_step t fa m g g1 /\ g_step t fa m g1 g2 /\
    reward_balance (w_c (g_f g2)) a t + x = reward_balance (w_c (g_f g)) a t /\
    token_of (g_k g2) a = token_of (g_k g) a + x /\ token_of (g_k g2) fa + x = token_of (g_k g) fa.
Proof.
  intros Hs Hr Hon Ht [H0 Hx] Ha Hreg. destruct (fs_farmers (w_c (g_f g)) !! a) as [r|] eqn:Ea; [|unfold reward_balance in Hx; rewrite Ea in Hx; lia].
  assert (Eb : reward_balance (w_c (g_f g)) a t = mget (fr_rewards r) t) by (unfold reward_balance; now rewrite Ea). rewrite Eb in *.
  destruct (fr_rewards r !! t) as [v|] eqn:Ev; [|unfold mget in Hx; rewrite Ev in Hx; cbn in Hx; lia].
  assert (Em : mget (fr_rewards r) t = v) by (unfold mget; now rewrite Ev). rewrite Em in *.
  set (r1 := fr_set_rewards r (<[t := v - x]> (fr_rewards r))). set (c1 := fs_set_farmers (w_c (g_f g)) (<[a := r1]> (fs_farmers (w_c (g_f g))))).
  set (f1 := mkFW now c1 (w_hold (g_f g)) (<[w_next (g_f g) := PReward t a x None]> (w_pend (g_f g))) (S (w_next (g_f g)))).
  assert (Hstep : fstep (g_f g) (EvCall now a (CWithdrawReward 1 t (Some x))) = Some f1).
  { cbn [fstep]. rewrite (PropFarmLive.in_time_tick _ _ Ht). cbn [mbind option_bind fcall_exec]. unfold withdraw_reward. rewrite (ensure_intro (1 =? 1)) by reflexivity. cbn [mbind option_bind].
    rewrite (ensure_intro (fs_running _)) by exact Hon. cbn [mbind option_bind]. rewrite Ea. cbn [mbind option_bind]. unfold fr_sub_reward. rewrite Ev. cbn [mbind option_bind from_option].
    change (id x) with x. rewrite ensure_intro by now apply N.leb_le. cbn [mbind option_bind]. rewrite (proj2 (N.eqb_neq x 0)) by lia. reflexivity. }
  set (g1 := mkFarmed (g_k g) f1 (g_in g) (g_back g) (g_other g)).
  assert (S1 : g_step t fa m g g1) by (eapply gs_rest; [|exact Hstep]; exact I).
  assert (R1 : g_reach t fa m g0 g1) by (econstructor; eauto).
  destruct (C100_pays t fa m g0 g1 (w_next (g_f g)) (PReward t a x None) Hs R1) as [[_ P1] P2]; [apply lookup_insert|reflexivity|reflexivity|].
  destruct P1 as [k Hk]; [cbn [pend_to pend_amount]; auto|]. destruct (P2 k Hk) as (_ & S2 & T1 & T2).
  exists f1, g1. eexists. split; [exact Hstep|]. split; [reflexivity|]. split; [exact S1|]. split; [exact S2|]. split; [|split; [exact T1|exact T2]].
  assert (Ec : reward_balance c1 a t = v - x).
  { unfold reward_balance. assert (El : fs_farmers c1 !! a = Some r1) by (unfold c1; apply lookup_insert). rewrite El. unfold mget.
    assert (Er : fr_rewards r1 !! t = Some (v - x)) by (unfold r1; apply lookup_insert). now rewrite Er. }
  cbn [g_f]. change (w_c (executed (g_f g1) (w_next (g_f g)) (PReward t a x None))) with c1. rewrite Ec. lia.
Qed.
Print Assumptions C100_reward.

(** ** Example *)
(** The sponsor of a farm sends its rewards, and 100 more that the farm refuses; alice and bob stake, claim and withdraw. *)
Inductive GTag := GA (a : AccountId) (x : N) (msg : option FarmId) | GY (i : nat) (now : N) | GN (i : nat) | GB (i : nat) | GP (i : nat) | GF (ev : fevent).
Definition aside_b (t : AccountId) (f : FWorld) (ev : fevent) : bool :=
  match ev with
  | EvToken _ s _ _ _ | EvDonate s _ => negb (String.eqb s t)
  | EvRemote i true => match w_pend f !! i with Some p => negb (String.eqb (pend_asset p) t) | None => true end
  | _ => true
  end.
Lemma aside_ok t f ev : aside_b t f ev = true -> aside t f ev.
Proof.
  destruct ev; cbn [aside_b aside]; auto; try (intros H; apply negb_true_iff, String.eqb_neq in H; exact H).
  destruct ok; [|auto]. intros H p Hp. rewrite Hp in H. apply negb_true_iff, String.eqb_neq in H; exact H.
Qed.
Definition g_exec (t fa : AccountId) (g : Farmed) (e : GTag) : option Farmed :=
  match e with
  | GA a x msg => _ ← ensure (negb (String.eqb a fa)); k ← tk_ft_transfer (g_k g) a fa x 1; Some (mkFarmed k (g_f g) ((a, x, msg) :: g_in g) (g_back g) (g_other g))
  | GY i now => '(s, x, msg) ← g_in g !! i; f ← fstep (g_f g) (EvToken now t s x msg); Some (mkFarmed (g_k g) f (drop_nth i (g_in g)) (g_back g) (g_other g))
  | GN i => '(s, x, msg) ← g_in g !! i; Some (mkFarmed (g_k g) (g_f g) (drop_nth i (g_in g)) ((s, x) :: g_back g) (g_other g))
  | GB i => '(s, x) ← g_back g !! i; '(k, _, _) ← tk_resolve (g_k g) s fa x None; Some (mkFarmed k (g_f g) (g_in g) (drop_nth i (g_back g)) (g_other g))
  | GP i => p ← w_pend (g_f g) !! i; _ ← ensure (match pend_res p with None => true | Some _ => false end && String.eqb (pend_asset p) t);
      k ← tk_ft_transfer (g_k g) fa (pend_to p) (pend_amount p) 1; Some (mkFarmed k (executed (g_f g) i p) (g_in g) (g_back g) (g_other g))
  | GF ev => _ ← ensure (aside_b t (g_f g) ev); f ← fstep (g_f g) ev; Some (mkFarmed (g_k g) f (g_in g) (g_back g) (g_other g))
  end.
Lemma g_exec_step t fa m g e g' : g_exec t fa g e = Some g' -> g_step t fa m g g'.
Proof.
  destruct e; cbn [g_exec]; intros H.
  - apply bind_Some in H as (u & Hu & H). apply ensure_Some, negb_true_iff, String.eqb_neq in Hu. apply bind_Some in H as (k & Hk & H). injection H as <-. eapply gs_arrive; eauto.
  - apply bind_Some in H as ([[s x] msg] & Hq & H). apply bind_Some in H as (f & Hf & H). injection H as <-. eapply gs_accept; eauto.
  - apply bind_Some in H as ([[s x] msg] & Hq & H). injection H as <-. eapply gs_refuse; eauto.
  - apply bind_Some in H as ([s x] & Hq & H). apply bind_Some in H as ([[k u] b] & Hk & H). injection H as <-. eapply gs_refund; eauto.
  - apply bind_Some in H as (p & Hp & H). apply bind_Some in H as (u & Hu & H). apply ensure_Some, andb_true_iff in Hu as [Hu1 Hu2]. apply String.eqb_eq in Hu2.
    apply bind_Some in H as (k & Hk & H). injection H as <-. apply gs_pay; auto. destruct (pend_res p); [discriminate Hu1|reflexivity].
  - apply bind_Some in H as (u & Hu & H). apply ensure_Some in Hu. apply bind_Some in H as (f & Hf & H). injection H as <-. eapply gs_rest; eauto. now apply aside_ok.
Qed.
Fixpoint g_run (t fa : AccountId) (g : Farmed) (l : list GTag) : option Farmed :=
  match l with [] => Some g | e :: r => g' ← g_exec t fa g e; g_run t fa g' r end.
Lemma g_run_reach t fa m g0 l : forall g g', g_reach t fa m g0 g -> g_run t fa g l = Some g' -> g_reach t fa m g0 g'.
Proof.
  induction l as [|e l IH]; intros g g' Hr H; cbn [g_run] in H; [now injection H as <-|]. apply bind_Some in H as (g1 & H1 & H).
  eapply IH; [|exact H]. econstructor; [exact Hr|]. eapply g_exec_step; eauto.
Qed.
Definition g_begin : Farmed :=
  mkFarmed (mkToken (<["sponsor"%string := 6000]> (<["farm"%string := 0]> (<["bob"%string := 0]> ∅))) 6000 (6000 + 3 * 125))
    (PropFarming.ex_world (take 4 PropFarming.ex_prefix)) [] [] [].
Definition g_events : list GTag :=
  [ GA "sponsor" 5500 (Some PropFarming.ex_fid); GA "sponsor" 100 None; GN 0; GY 0 (PropFarming.sec 120);
    GF (EvCall (PropFarming.sec 180) "alice" (CClaimFarm PropFarming.ex_fid)); GF (EvToken (PropFarming.sec 190) "lp" "bob" 700 None);
    GF (EvCall (PropFarming.sec 305) "bob" (CClaimSeed "lp")) ].
Definition g_mid : Farmed := default g_begin (g_run "rew" "farm" g_begin g_events).
Definition g_more : list GTag := [ GF (EvCall (PropFarming.sec 311) "bob" (CWithdrawReward 1 "rew" (Some 1000))); GP 0; GB 0; GF (EvCallback (PropFarming.sec 312) 0) ].
Definition g_end : Farmed := default g_mid (g_run "rew" "farm" g_mid g_more).
Lemma g_begin_ok : g_start "rew" "farm" g_begin.
Proof. split; [apply PropFarming.ex_reachable, PropFarming.is_Some_bool; vm_compute; reflexivity|]. split_and!; vm_compute; reflexivity. Qed.
Example C100_ex :
  g_start "rew" "farm" g_begin /\ g_reach "rew" "farm" 125 g_begin g_mid /\ g_reach "rew" "farm" 125 g_begin g_end /\
  fs_running (w_c (g_f g_mid)) = true /\ in_time (g_f g_mid) (PropFarming.sec 311) /\ reward_balance (w_c (g_f g_mid)) "bob" "rew" = 1400 /\ is_Some (tk_bal (g_k g_mid) !! "bob"%string) /\
  g_back g_mid = [("sponsor"%string, 100)] /\ (farm_debt (g_f g_mid) "rew", refunds g_mid, token_of (g_k g_mid) "farm") = (5500, 100, 5600) /\
  (token_of (g_k g_end) "bob", token_of (g_k g_end) "sponsor", token_of (g_k g_end) "farm", farm_debt (g_f g_end) "rew") = (1000, 500, 4500, 4500).
Proof.
  assert (H1 : g_run "rew" "farm" g_begin g_events = Some g_mid) by (apply ExExample.run_default; vm_compute; reflexivity).
  assert (H2 : g_run "rew" "farm" g_mid g_more = Some g_end) by (apply ExExample.run_default; vm_compute; reflexivity).
  assert (R1 : g_reach "rew" "farm" 125 g_begin g_mid) by (eapply g_run_reach; [constructor|exact H1]).
  split; [apply g_begin_ok|]. split; [exact R1|]. split; [eapply g_run_reach; [exact R1|exact H2]|]. split; [vm_compute; reflexivity|].
  split; [split; vm_compute; [discriminate|reflexivity]|]. split; [vm_compute; reflexivity|]. split; [vm_compute; eauto|]. split_and!; vm_compute; reflexivity.
Qed.
