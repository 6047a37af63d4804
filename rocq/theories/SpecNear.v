(** * NEAR of the users: what is credited, paid out, kept for storage and kept altogether *)
From Verif Require Import Base BaseLemmas SimplePool StablePool SpecStable Rates Echo Account Pool Exchange SpecExchange SpecWorld.

(** NEAR credited to all accounts. *)
Definition near_of (v : VAccount) : N := ac_near (into_current v).
Definition total_near (c : Exchange) : N := msum (fun _ v => near_of v) (ex_accounts c).
(** NEAR that is sent away. *)
Definition near_sent (ps : list Promise) : N := lsum ((fun p => match p with PNear _ x => x | _ => 0 end) <$> ps).

(** Calls that charge for the storage they take, from the attached NEAR, and return the rest. *)
Definition charges (x : Call) : bool :=
  match x with
  | CAddSimplePool _ _ | CAddStablePool _ _ _ _ _ | CAddLiquidity _ _ _ | CAddStableLiquidity _ _ _ | CMftRegister _ _
  | CShadow ToFarming _ _ | CShadow ToBurrowland _ _ => true
  | _ => false
  end.
(** Calls that give back what the storage they free has cost. *)
Definition releases (x : Call) : bool :=
  match x with CMftUnregister _ | CDonateShare _ _ _ | CLiquidation _ _ _ _ _ => true | _ => false end.
(** Calls that keep whatever is attached. *)
Definition swallows (x : Call) : bool :=
  match x with
  | CExecute _ _ _ | CExecuteVa _ _ _ _ | CSwap _ _ _ | CSwapByOutput _ _ _ | CShadow FromFarming _ _ | CShadow FromBurrowland _ _ => true
  | _ => false
  end.
(** What the exchange keeps of the attached NEAR: the price of storage, nothing of a storage deposit, the one yocto of all other calls. *)
Definition kept (e : Env) (x : Call) : N :=
  if charges x then e_grow e else match x with CStorageDeposit _ _ => 0 | _ => e_attached e end.

(** The NEAR of the exchange along histories, without the price of the storage that was charged to users: calls bring the
    attached amount, an executed unwrapping brings its amount, freed storage unlocks its price; payments and charged storage
    use it up.  Storage that no user is charged for (kept volumes, entries of the lost and found) is not counted. *)
Definition near_in (w : World) (ev : Event) : N :=
  match ev with
  | EvCall e x => e_attached e + (if releases x then e_freed e else 0)
  | EvCallback id _ => match w_flights w !! id with Some (Answered (PUnwrap _ _ x) true) => x | _ => 0 end
  | EvShadowCallback _ e _ => e_freed e
  | _ => 0
  end.
Definition near_out (w : World) (ev : Event) : N :=
  match ev with
  | EvCall e x => (if charges x then e_grow e else 0) + match ex_call (w_ex w) e x with Some (_, ps) => near_sent ps | None => 0 end
  | EvNotify id e =>
      match w_flights w !! id with
      | Some (Arriving _ s x (MsgHotZap r l infos skip)) =>
          match ex_ft_on_transfer (w_ex w) e s x (MsgHotZap r l infos skip) with Some _ => e_grow e | None => 0 end
      | _ => 0
      end
  | EvFake e s x (MsgHotZap r l infos skip) => match ex_ft_on_transfer (w_ex w) e s x (MsgHotZap r l infos skip) with Some _ => e_grow e | None => 0 end
  | EvCallback id e =>
      match w_flights w !! id with
      | Some (Answered (PUnwrap _ r x) ok) => match ex_callback_near (w_ex w) e r x ok with Some (_, ps) => near_sent ps | None => 0 end
      | _ => 0
      end
  | EvShadowCallback id e ok =>
      match w_flights w !! id with
      | Some (Leaving (PShadow act s pid x fee)) => match ex_callback_shadow (w_ex w) e act s pid x fee ok with Some (_, ps) => near_sent ps | None => 0 end
      | _ => 0
      end
  | _ => 0
  end.
Inductive near_ledger (w0 : World) (h0 : N) : World -> N -> Prop :=
| nl_start : near_ledger w0 h0 w0 h0
| nl_step w h ev w' : near_ledger w0 h0 w h -> w_step w ev = Some w' -> near_ledger w0 h0 w' (h + near_in w ev - near_out w ev).

(** When staking is refused, the storage that was paid for it is freed again. *)
Definition refund_freed (w : World) (ev : Event) : Prop :=
  match ev with
  | EvShadowCallback id e false =>
      match w_flights w !! id with Some (Leaving (PShadow _ _ _ _ fee)) => fee <= e_freed e | _ => True end
  | _ => True
  end.
Inductive near_ledger_fair (w0 : World) (h0 : N) : World -> N -> Prop :=
| nf_start : near_ledger_fair w0 h0 w0 h0
| nf_step w h ev w' : near_ledger_fair w0 h0 w h -> refund_freed w ev -> w_step w ev = Some w' ->
    near_ledger_fair w0 h0 w' (h + near_in w ev - near_out w ev).

(** Stake records of all accounts; storage is measured truly when each record costs [k]. *)
Definition records (c : Exchange) : N := msum (fun _ v => N.of_nat (size (ac_shadow (into_current v)))) (ex_accounts c).
Definition measured (k : N) (w : World) (ev : Event) (w' : World) : Prop :=
  match ev with
  | EvCall e (CShadow _ _ _) | EvShadowCallback _ e _ =>
      e_grow e = k * (records (w_ex w') - records (w_ex w)) /\ e_freed e = k * (records (w_ex w) - records (w_ex w'))
  | _ => True
  end.
Inductive near_ledger_measured (k : N) (w0 : World) (h0 : N) : World -> N -> Prop :=
| nm_start : near_ledger_measured k w0 h0 w0 h0
| nm_step w h ev w' : near_ledger_measured k w0 h0 w h -> w_step w ev = Some w' -> measured k w ev w' ->
    near_ledger_measured k w0 h0 w' (h + near_in w ev - near_out w ev).
