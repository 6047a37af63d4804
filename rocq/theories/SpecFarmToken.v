(** * ref-farming together with a token contract

    The farm records tokens as stakes and rewards; the token contract [t] records what the farm has.  A transfer to the farm,
    its notification (ft_on_transfer), the refund of a refused one (ft_resolve_transfer), a withdrawal, its execution by the token
    contract and its callback are separate receipts; anything else may happen in between. *)
From Verif Require Import Base BaseLemmas Token SpecToken Farming SpecFarming.

(** [g_in]: transfers the token contract has made and the farm has not been asked about; [g_back]: those it has refused and
    that have not been sent back yet; [g_other]: transfers with a message among other accounts. *)
Record Farmed := mkFarmed {
  g_k : Token;
  g_f : FWorld;
  g_in : list (AccountId * N * option FarmId);
  g_back : list (AccountId * N);
  g_other : list (AccountId * AccountId * N);
}.
Definition coming (g : Farmed) : N := lsum (snd ∘ fst <$> g_in g).
Definition refunds (g : Farmed) : N := lsum (snd <$> g_back g).

(** What happens to the farm and does not concern the token contract: calls, other tokens, callbacks.  Any transfer may fail. *)
Definition aside (t : AccountId) (f : FWorld) (ev : fevent) : Prop :=
  match ev with
  | EvToken _ s _ _ _ | EvDonate s _ => s <> t
  | EvRemote i true => forall p, w_pend f !! i = Some p -> pend_asset p <> t
  | _ => True
  end.
(** The farm after its transfer [i] was executed. *)
Definition executed (f : FWorld) (i : nat) (p : fpend) : FWorld :=
  mkFW (w_now f) (w_c f) (<[pend_asset p := mget (w_hold f) (pend_asset p) - pend_amount p]> (w_hold f))
    (<[i := pend_set_res p (Some true)]> (w_pend f)) (w_next f).
(** To whom a transfer goes *)
Definition pend_to (p : fpend) : AccountId := match p with PReward _ a _ _ => a | PSeed _ a _ _ => a end.
Definition drop_nth {A} (i : nat) (l : list A) : list A := take i l ++ drop (S i) l.

Inductive g_step (t fa : AccountId) (m : N) (g : Farmed) : Farmed -> Prop :=
| gs_call a x k :                   (* another account calls the token contract, no transfer to the farm *)
    a <> fa -> match x with TkTransfer r _ _ => r <> fa | _ => True end -> tk_call m (g_k g) a x = Some k ->
    g_step t fa m g (mkFarmed k (g_f g) (g_in g) (g_back g) (g_other g))
| gs_near x :
    g_step t fa m g (mkFarmed (tk_attach (g_k g) x) (g_f g) (g_in g) (g_back g) (g_other g))
| gs_send a r x y k :               (* ... makes a transfer with a message to a third account *)
    a <> fa -> r <> fa -> tk_ft_transfer (g_k g) a r x y = Some k ->
    g_step t fa m g (mkFarmed k (g_f g) (g_in g) (g_back g) ((a, r, x) :: g_other g))
| gs_answer i s r x ans k u b :     (* ... which is answered *)
    g_other g !! i = Some (s, r, x) -> tk_resolve (g_k g) s r x ans = Some (k, u, b) ->
    g_step t fa m g (mkFarmed k (g_f g) (g_in g) (g_back g) (drop_nth i (g_other g)))
| gs_gift a x y k f :               (* ... transfers to the farm without a message *)
    a <> fa -> tk_ft_transfer (g_k g) a fa x y = Some k -> fstep (g_f g) (EvDonate t x) = Some f ->
    g_step t fa m g (mkFarmed k f (g_in g) (g_back g) (g_other g))
| gs_arrive a x y msg k :           (* ... with a message *)
    a <> fa -> tk_ft_transfer (g_k g) a fa x y = Some k ->
    g_step t fa m g (mkFarmed k (g_f g) ((a, x, msg) :: g_in g) (g_back g) (g_other g))
| gs_accept i s x msg now f :       (* ft_on_transfer of the farm succeeds; it answers 0 and nothing is refunded *)
    g_in g !! i = Some (s, x, msg) -> fstep (g_f g) (EvToken now t s x msg) = Some f ->
    g_step t fa m g (mkFarmed (g_k g) f (drop_nth i (g_in g)) (g_back g) (g_other g))
| gs_refuse i s x msg :             (* ... panics; the refund comes later *)
    g_in g !! i = Some (s, x, msg) ->
    g_step t fa m g (mkFarmed (g_k g) (g_f g) (drop_nth i (g_in g)) ((s, x) :: g_back g) (g_other g))
| gs_refund i s x k u b :           (* ft_resolve_transfer after a refused transfer *)
    g_back g !! i = Some (s, x) -> tk_resolve (g_k g) s fa x None = Some (k, u, b) ->
    g_step t fa m g (mkFarmed k (g_f g) (g_in g) (drop_nth i (g_back g)) (g_other g))
| gs_pay i p k :                    (* ft_transfer by the farm is executed *)
    w_pend (g_f g) !! i = Some p -> pend_res p = None -> pend_asset p = t ->
    tk_ft_transfer (g_k g) fa (pend_to p) (pend_amount p) 1 = Some k ->
    g_step t fa m g (mkFarmed k (executed (g_f g) i p) (g_in g) (g_back g) (g_other g))
| gs_rest ev f :                    (* anything else that happens to the farm *)
    aside t (g_f g) ev -> fstep (g_f g) ev = Some f ->
    g_step t fa m g (mkFarmed (g_k g) f (g_in g) (g_back g) (g_other g)).
(** The beginning: a farm with any past, nothing on its way, and both books agree. *)
Definition g_start (t fa : AccountId) (g : Farmed) : Prop :=
  freachable (g_f g) /\ token_of (g_k g) fa = mget (w_hold (g_f g)) t /\ tokens_of_all (g_k g) = tk_supply (g_k g) /\ tk_supply (g_k g) < W128 /\
  g_in g = [] /\ g_back g = [] /\ g_other g = [].
Inductive g_reach (t fa : AccountId) (m : N) (g0 : Farmed) : Farmed -> Prop :=
| g_refl : g_reach t fa m g0 g0
| g_next g g' : g_reach t fa m g0 g -> g_step t fa m g g' -> g_reach t fa m g0 g'.
(** All that the farm owes in token [t]: stakes, claimed rewards, rewards of its farms, withdrawals not executed. *)
Definition farm_debt (f : FWorld) (t : AccountId) : N := seed_total (w_c f) t + rewards_sum (w_c f) t + farms_owe (w_c f) t + inflight f t.
