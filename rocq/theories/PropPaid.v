(** * C102: wrapped NEAR is paid out as NEAR exactly when asked for *)
From Verif Require Import Base BaseLemmas SimplePool SimplePoolProofs SpecSimple SimplePoolInv StableMath StablePool
  SpecStable StablePoolProofs StablePoolInv Rates Echo Twap Account Pool Exchange SpecExchange AccountProofs PoolFacts
  ExchangeProofs ExchangeInv ExchangeEffect ExchangeFrames SpecWorld WorldProofs SpecSwap SwapProofs SpecHistory HistoryProofs ExExample.

(** what a call says about unwrapping; only two calls can say anything *)
Definition wish (x : Call) : option bool :=
  match x with CWithdraw _ _ _ s => s | CWithdrawOwner _ _ s => s | _ => None end.
(** [Some false] means: do not skip the unwrapping *)
Definition as_near (c : Exchange) (s : option bool) (t : AccountId) : Prop := cf_wnear (ex_cfg c) = Some t /\ s = Some false.
(** A payment of [t] unwraps if it is to be made as NEAR, and is an ordinary transfer otherwise. *)
Definition form_ok (c : Exchange) (s : option bool) (p : Promise) : Prop :=
  match p with
  | PSend t _ _ => ~ as_near c s t
  | PUnwrap t _ _ => as_near c s t
  | PSendMsg _ _ _ => False
  | _ => True
  end.
Lemma send_form c r t x s : form_ok c s (ex_send c r t x s).
Proof.
  unfold ex_send. destruct (bool_decide_reflect (cf_wnear (ex_cfg c) = Some t)) as [H|H]; cbn [andb].
  - destruct s as [[|]|]; cbn [default from_option negb form_ok]; unfold id, as_near; cbn [negb form_ok]; [intros [_ K]; done|done|intros [_ K]; done].
  - cbn [form_ok]. intros [K _]. done.
Qed.
Lemma check_storage_form c s e ps : check_storage e = Some ps -> Forall (form_ok c s) ps.
Proof. unfold check_storage. intros H. bnd H r Hr. injection H as <-. destruct (0 <? r); repeat constructor. Qed.
Theorem C102_calls c e x c' ps : ex_call c e x = Some (c', ps) -> Forall (form_ok c (wish x)) ps.
Proof.
  intros H. destruct (is_settings x) eqn:Es.
  - destruct x; try discriminate Es; clear Es; cbn [ex_call] in H; try (apply quiet_inv in H as [H ->]; constructor).
    apply ex_retrieve_inv in H as (_ & _ & _ & ->). repeat constructor.
  - call_cases x Es H; try (constructor; fail); try (eapply check_storage_form; eauto; fail); try (repeat constructor; fail);
      try (constructor; [apply send_form|constructor]; fail).
  all: try (unfold refund_to; destruct (0 <? _); repeat constructor; fail).
    + match goal with K : _ \/ _ |- _ => destruct K as [->| ->] end; repeat constructor.
    + apply Forall_app. split; [eapply check_storage_form; eauto|repeat constructor].
    + destruct (0 <? seed); repeat constructor.
Qed.
Print Assumptions C102_calls.
(** Messages: with an echo the tokens go to the sender with a message, otherwise to the recipient named, or the
    sender, in the form asked for; each amount is positive. *)
Theorem C102_messages c e s x m c' ps : ex_ft_on_transfer c e s x m = Some (c', ps) ->
  match m with
  | MsgExecute _ _ true _ _ _ => Forall (fun p => exists t y, p = PSendMsg t s y /\ 0 < y) ps
  | MsgExecute _ _ false su rc _ => Forall (fun p => form_ok c su p /\ exists t y, (p = PSend t (default s rc) y \/ p = PUnwrap t (default s rc) y) /\ 0 < y) ps
  | _ => ps = []
  end.
Proof.
  intros H. pose proof (ex_ft_on_transfer_settings _ _ _ _ _ _ _ H) as (Hc & _).
  unfold ex_ft_on_transfer in H. cbv zeta in H. grd H. grd H. destruct m as [|r l echo su rc skip|r l infos skip].
  - grd H. bnd H c1 H1. now injection H as <- <-.
  - grd H. grd H. bnd H u Hu. bnd H d Hd. destruct d as [c1 outs]. grd H. injection H as <- <-.
    apply ex_direct_inv in Hd as (va & prev & va' & res & _ & _ & ->).
    assert (Hp : forall q, q ∈ va_out va' -> 0 < q.2). { intros q Hq. unfold va_out in Hq. apply elem_of_list_filter in Hq as [Hq _]. now apply N.ltb_lt in Hq. }
    destruct echo; apply Forall_fmap, Forall_forall; intros [t y] Hq; specialize (Hp _ Hq); unfold compose; cbn [fst snd] in *; [exists t, y; done|].
    pose proof (send_form c1 (default s rc) t y su) as Hf. split; [|exists t, y; split; [unfold ex_send; destruct (bool_decide _ && _); auto|done]].
    unfold form_ok, as_near in *. rewrite Hc in Hf. exact Hf.
  - bnd H c1 H1. now injection H as <- <-.
Qed.
Print Assumptions C102_messages.
(** Wrapped NEAR withdrawn three ways, and another token. *)
Definition wn_events : list Event :=
  [ EvCall (env 120 "own" 1) (CModifyWnear "a") ].
Definition w_wn : World := default w_live (w_run w_live wn_events).
Example C102_ex :
  (ex_call (w_ex w_wn) (env 130 "bo" 1) (CWithdraw "a" 100 false (Some false)) ≫= fun r => Some r.2) = Some [PUnwrap "a" "bo" 100] /\
  (ex_call (w_ex w_wn) (env 130 "bo" 1) (CWithdraw "a" 100 false (Some true)) ≫= fun r => Some r.2) = Some [PSend "a" "bo" 100] /\
  (ex_call (w_ex w_wn) (env 130 "bo" 1) (CWithdraw "a" 100 false None) ≫= fun r => Some r.2) = Some [PSend "a" "bo" 100] /\
  (ex_call (w_ex w_wn) (env 130 "al" 1) (CWithdraw "b" 100 false (Some false)) ≫= fun r => Some r.2) = Some [PSend "b" "al" 100].
Proof. vm_compute. repeat split; reflexivity. Qed.
