(** * Executions of the wrapped-NEAR contract alone and together with the exchange *)
From Verif Require Import Base BaseLemmas SimplePool SpecSimple StableMath StablePool SpecStable Rates Account Pool Exchange SpecExchange Token SpecWorld.

(** ** The token contract alone *)
(** What an account has, and what all accounts have. *)
Definition token_of (k : Token) (a : AccountId) : N := default 0 (tk_bal k !! a).
Definition tokens_of_all (k : Token) : N := msum (fun (_ : AccountId) v => v) (tk_bal k).
Definition registered (k : Token) : N := msum (fun (_ : AccountId) (_ : N) => 1) (tk_bal k).

(** The contract and the transfers by ft_transfer_call whose answer has not come yet: sender, receiver, amount. *)
Record TokenWorld := mkTokenWorld { tw_token : Token; tw_open : list (AccountId * AccountId * N) }.
Inductive TokenEvent :=
| TvCall (a : AccountId) (x : TokenCall)                            (* anybody calls a method *)
| TvSend (a to : AccountId) (amount yocto : N)                      (* ft_transfer_call *)
| TvAnswer (i : nat) (ans : option N)                               (* ft_resolve_transfer, any answer, any order *)
| TvNear (amount : N)                                               (* NEAR sent to the contract, or bounced back *).
Definition tw_step (m : N) (w : TokenWorld) (ev : TokenEvent) : option TokenWorld :=
  match ev with
  | TvCall a x => k ← tk_call m (tw_token w) a x; Some (mkTokenWorld k (tw_open w))
  | TvSend a r x y => k ← tk_ft_transfer (tw_token w) a r x y; Some (mkTokenWorld k ((a, r, x) :: tw_open w))
  | TvAnswer i ans =>
      '(s, r, x) ← tw_open w !! i;
      '(k, _, _) ← tk_resolve (tw_token w) s r x ans;
      Some (mkTokenWorld k (take i (tw_open w) ++ drop (S i) (tw_open w)))
  | TvNear x => Some (mkTokenWorld (tk_attach (tw_token w) x) (tw_open w))
  end.
Inductive tw_reach (m : N) (w0 : TokenWorld) : TokenWorld -> Prop :=
| tw_refl : tw_reach m w0 w0
| tw_next w ev w' : tw_reach m w0 w -> tw_step m w ev = Some w' -> tw_reach m w0 w'.

(** ** The exchange with the books of the token contract

    [j_w] is the world of SpecWorld.v, in which a refused transfer returns with its notification and a transfer with a
    message is answered when it is made.  [j_k] is the token contract itself, where refunds are receipts of their own:
    [j_back] are refused transfers to the exchange that have not been sent back yet, [j_out] transfers with a message the
    exchange has made that have not been answered yet, by the id of their flight, [j_other] those of other accounts. *)
Record Joint := mkJoint {
  j_k : Token;
  j_w : World;
  j_back : list (AccountId * N);
  j_out : gmap N N;
  j_other : list (AccountId * AccountId * N);
}.
Definition j_self (j : Joint) : AccountId := ex_self (w_ex (j_w j)).
Definition returning (j : Joint) : N := lsum (snd <$> j_back j).
Definition going (j : Joint) : N := msum (fun (_ : N) x => x) (j_out j).

(** Events of the world that do not concern the token contract [t]. *)
Definition elsewhere (t : AccountId) (j : Joint) (ev : Event) : Prop :=
  match ev with
  | EvArrive u _ _ _ | EvGift u _ | EvRogue u _ => u <> t
  | EvFake e _ _ _ => e_caller e <> t
  | EvNotify id _ => match w_flights (j_w j) !! id with Some (Arriving u _ _ _) => u <> t | _ => True end
  | EvRemote id _ _ =>
      match w_flights (j_w j) !! id with
      | Some (Leaving (PSend u _ _ | PUnwrap u _ _ | PSendMsg u _ _ | PRetrieve u _ _)) => u <> t
      | _ => True
      end
  | _ => True
  end.

(** One receipt.  [t] is the token contract, [m] its storage price. *)
Inductive j_step (t : AccountId) (m : N) (j : Joint) : Joint -> Prop :=
| js_call a x k :                   (* another account calls the token contract, no transfer to the exchange *)
    a <> j_self j -> match x with TkTransfer r _ _ => r <> j_self j | _ => True end -> tk_call m (j_k j) a x = Some k ->
    j_step t m j (mkJoint k (j_w j) (j_back j) (j_out j) (j_other j))
| js_near x :
    j_step t m j (mkJoint (tk_attach (j_k j) x) (j_w j) (j_back j) (j_out j) (j_other j))
| js_send a r x y k :               (* ... makes a transfer with a message to a third account *)
    a <> j_self j -> r <> j_self j -> tk_ft_transfer (j_k j) a r x y = Some k ->
    j_step t m j (mkJoint k (j_w j) (j_back j) (j_out j) ((a, r, x) :: j_other j))
| js_answer i s r x ans k u b :     (* ... which is answered *)
    j_other j !! i = Some (s, r, x) -> tk_resolve (j_k j) s r x ans = Some (k, u, b) ->
    j_step t m j (mkJoint k (j_w j) (j_back j) (j_out j) (take i (j_other j) ++ drop (S i) (j_other j)))
| js_gift a x y k w :               (* ... transfers to the exchange without a message *)
    a <> j_self j -> tk_ft_transfer (j_k j) a (j_self j) x y = Some k -> w_step (j_w j) (EvGift t x) = Some w ->
    j_step t m j (mkJoint k w (j_back j) (j_out j) (j_other j))
| js_arrive a x y msg k w :         (* ... with a message *)
    a <> j_self j -> tk_ft_transfer (j_k j) a (j_self j) x y = Some k -> w_step (j_w j) (EvArrive t a x msg) = Some w ->
    j_step t m j (mkJoint k w (j_back j) (j_out j) (j_other j))
| js_accepted id e s x msg c ps w : (* ft_on_transfer of the exchange succeeds; it answers 0 and nothing is refunded *)
    w_flights (j_w j) !! id = Some (Arriving t s x msg) -> ex_ft_on_transfer (w_ex (j_w j)) e s x msg = Some (c, ps) ->
    w_step (j_w j) (EvNotify id e) = Some w ->
    j_step t m j (mkJoint (j_k j) w (j_back j) (j_out j) (j_other j))
| js_refused id e s x msg w :       (* ... panics; the refund comes later *)
    w_flights (j_w j) !! id = Some (Arriving t s x msg) -> ex_ft_on_transfer (w_ex (j_w j)) e s x msg = None ->
    w_step (j_w j) (EvNotify id e) = Some w ->
    j_step t m j (mkJoint (j_k j) w ((s, x) :: j_back j) (j_out j) (j_other j))
| js_refund i s x k u b :           (* ft_resolve_transfer after a refused transfer *)
    j_back j !! i = Some (s, x) -> tk_resolve (j_k j) s (j_self j) x None = Some (k, u, b) ->
    j_step t m j (mkJoint k (j_w j) (take i (j_back j) ++ drop (S i) (j_back j)) (j_out j) (j_other j))
| js_pay id p r x k w :             (* ft_transfer by the exchange is executed *)
    w_flights (j_w j) !! id = Some (Leaving p) -> (p = PSend t r x \/ p = PRetrieve t r x) ->
    tk_ft_transfer (j_k j) (j_self j) r x 1 = Some k -> w_step (j_w j) (EvRemote id true 0) = Some w ->
    j_step t m j (mkJoint k w (j_back j) (j_out j) (j_other j))
| js_unwrap id r x k w :            (* near_withdraw by the exchange is executed *)
    w_flights (j_w j) !! id = Some (Leaving (PUnwrap t r x)) ->
    tk_near_withdraw (j_k j) (j_self j) x 1 = Some k -> w_step (j_w j) (EvRemote id true 0) = Some w ->
    j_step t m j (mkJoint k w (j_back j) (j_out j) (j_other j))
| js_failed id p r x w :            (* either fails; also ft_transfer_call of the exchange fails *)
    w_flights (j_w j) !! id = Some (Leaving p) ->
    (p = PSend t r x \/ p = PRetrieve t r x \/ p = PUnwrap t r x \/ p = PSendMsg t r x) -> j_out j !! id = None ->
    w_step (j_w j) (EvRemote id false 0) = Some w ->
    j_step t m j (mkJoint (j_k j) w (j_back j) (j_out j) (j_other j))
| js_message id r x k :             (* ft_transfer_call by the exchange moves the tokens *)
    w_flights (j_w j) !! id = Some (Leaving (PSendMsg t r x)) -> j_out j !! id = None ->
    tk_ft_transfer (j_k j) (j_self j) r x 1 = Some k ->
    j_step t m j (mkJoint k (j_w j) (j_back j) (<[id := x]> (j_out j)) (j_other j))
| js_answered id r x ans k u b w :  (* ... and is answered; the refund is booked back *)
    w_flights (j_w j) !! id = Some (Leaving (PSendMsg t r x)) -> j_out j !! id = Some x ->
    tk_resolve (j_k j) (j_self j) r x ans = Some (k, u, b) -> w_step (j_w j) (EvRemote id true u) = Some w ->
    j_step t m j (mkJoint k w (j_back j) (delete id (j_out j)) (j_other j))
| js_rest ev w :                    (* anything else that happens to the exchange *)
    elsewhere t j ev -> careful t (j_w j) ev -> w_step (j_w j) ev = Some w ->
    j_step t m j (mkJoint (j_k j) w (j_back j) (j_out j) (j_other j)).
(** The beginning: nothing on its way, both books agree, and the executions from there. *)
Definition j_start (t : AccountId) (j : Joint) : Prop :=
  w_start (j_w j) /\ token_of (j_k j) (j_self j) = w_hold (j_w j) t /\ tokens_of_all (j_k j) = tk_supply (j_k j) /\ tk_supply (j_k j) < W128 /\
  j_back j = [] /\ j_out j = ∅ /\ j_other j = [].
Inductive j_reach (t : AccountId) (m : N) (j0 : Joint) : Joint -> Prop :=
| j_reach_refl : j_reach t m j0 j0
| j_reach_step j j' : j_reach t m j0 j -> j_step t m j j' -> j_reach t m j0 j'.
(** What of token [t] the exchange has promised to send and the token contract has not moved yet. *)
Definition unsent (t : AccountId) (j : Joint) : N := total_in_flight (j_w j) t - going j.
