(** * The exchange among token contracts: its holdings, messages in flight, and all executions *)
From Verif Require Import Base BaseLemmas SimplePool SpecSimple StableMath StablePool SpecStable Rates Account Pool Exchange SpecExchange.

(** A message between contracts that has been sent and not yet fully processed. *)
Inductive Flight :=
| Arriving (token sender : AccountId) (amount : N) (m : TokenMsg)
    (* tokens were moved to the exchange by ft_transfer_call, ft_on_transfer has not run yet *)
| Leaving (p : Promise)              (* scheduled by the exchange, not executed yet *)
| Answered (p : Promise) (ok : bool) (* executed with this outcome, the exchange's callback has not run yet *).

(** The exchange, the balances token contracts record for it, and the messages in flight. *)
Record World := mkWorld {
  w_ex : Exchange;
  w_hold : AccountId -> N;
  w_flights : gmap N Flight;
  w_next : N;
  w_now : N;
}.

Definition credit_hold (h : AccountId -> N) (t : AccountId) (x : N) (u : AccountId) : N := if String.eqb t u then h u + x else h u.
Definition debit_hold (h : AccountId -> N) (t : AccountId) (x : N) (u : AccountId) : N := if String.eqb t u then h u - x else h u.

(** What can happen.  Callbacks and remote executions come in any order and at any time. *)
Inductive Event :=
| EvCall (e : Env) (x : Call)                              (* anybody calls a public method *)
| EvArrive (token sender : AccountId) (amount : N) (m : TokenMsg) (* ft_transfer_call to the exchange *)
| EvNotify (id : N) (e : Env)                              (* the token contract calls ft_on_transfer for an arrival *)
| EvGift (token : AccountId) (amount : N)                  (* ft_transfer to the exchange *)
| EvRemote (id : N) (ok : bool) (used : N)                 (* a scheduled transfer is executed by the token contract *)
| EvCallback (id : N) (e : Env)                            (* the callback after such a transfer *)
| EvMftResolve (id : N) (e : Env) (ret : option N)         (* mft_resolve_transfer after any answer *)
| EvShadowCallback (id : N) (e : Env) (ok : bool)          (* callback_on_shadow after any answer *)
| EvOracle (now : N) (a : OracleAnswer)                    (* any answer of an oracle *)
| EvFake (e : Env) (sender : AccountId) (amount : N) (m : TokenMsg)
    (* the account [e_caller e] calls ft_on_transfer without having moved tokens *)
| EvRogue (token : AccountId) (amount : N)                 (* a token contract sets the exchange's balance at will *).

Definition next_time (w : World) (now : N) : option unit := ensure ((w_now w <=? now) && (now <? 2 ^ 64)).
(** Queue what a call scheduled. *)
Fixpoint enqueue (m : gmap N Flight) (next : N) (ps : list Promise) : gmap N Flight * N :=
  match ps with [] => (m, next) | p :: r => enqueue (<[next := Leaving p]> m) (next + 1) r end.
Definition w_queue (w : World) (c : Exchange) (h : AccountId -> N) (m : gmap N Flight) (ps : list Promise) (now : N) : World :=
  let '(m', n') := enqueue m (w_next w) ps in mkWorld c h m' n' now.

(** An event that is possible in the world, and the world afterwards.  A call that panics changes
    nothing and is no event; a notification or callback that panics still ends its flight. *)
Definition w_step (w : World) (ev : Event) : option World :=
  let c := w_ex w in let h := w_hold w in let m := w_flights w in
  match ev with
  | EvCall e x =>
      _ ← next_time w (e_now e);
      _ ← ensure (negb (String.eqb (e_caller e) (ex_self c)));
      '(c', ps) ← ex_call c e x;
      Some (w_queue w c' h m ps (e_now e))
  | EvArrive t s x msg =>
      _ ← fit W128 (h t + x);
      Some (mkWorld c (credit_hold h t x) (<[w_next w := Arriving t s x msg]> m) (w_next w + 1) (w_now w))
  | EvNotify id e =>
      _ ← next_time w (e_now e);
      f ← m !! id;
      match f with
      | Arriving t s x msg =>
          _ ← ensure (String.eqb (e_caller e) t);
          match ex_ft_on_transfer c e s x msg with
          | Some (c', ps) => Some (w_queue w c' h (delete id m) ps (e_now e))
          | None => Some (mkWorld c (debit_hold h t (N.min x (h t))) (delete id m) (w_next w) (e_now e))
          end
      | _ => None
      end
  | EvGift t x =>
      _ ← fit W128 (h t + x);
      Some (mkWorld c (credit_hold h t x) m (w_next w) (w_now w))
  | EvRemote id ok used =>
      f ← m !! id;
      match f with
      | Leaving (PSend t _ x as p) | Leaving (PUnwrap t _ x as p) =>
          _ ← ensure (negb ok || (x <=? h t));
          Some (mkWorld c (if ok then debit_hold h t x else h) (<[id := Answered p ok]> m) (w_next w) (w_now w))
      | Leaving (PSendMsg t _ x as p) =>
          _ ← ensure (negb ok || ((used <=? x) && (x <=? h t)));
          Some (mkWorld c (if ok then debit_hold h t used else h) (<[id := Answered p ok]> m) (w_next w) (w_now w))
      | Leaving (PRetrieve t _ x) =>
          _ ← ensure (negb ok || (x <=? h t));
          Some (mkWorld c (if ok then debit_hold h t x else h) (delete id m) (w_next w) (w_now w))
      | _ => None
      end
  | EvCallback id e =>
      _ ← next_time w (e_now e);
      f ← m !! id;
      match f with
      | Answered (PSend t r x) ok | Answered (PSendMsg t r x) ok =>
          Some (mkWorld (default c (ex_callback_withdraw c e t r x ok)) h (delete id m) (w_next w) (e_now e))
      | Answered (PUnwrap t r x) ok =>
          Some (mkWorld (default c (fst <$> ex_callback_near c e r x ok)) h (delete id m) (w_next w) (e_now e))
      | _ => None
      end
  | EvMftResolve id e ret =>
      _ ← next_time w (e_now e);
      f ← m !! id;
      match f with
      | Leaving (PMft tid s r x) =>
          Some (mkWorld (default c (ex_mft_resolve c tid s r x ret)) h (delete id m) (w_next w) (e_now e))
      | _ => None
      end
  | EvShadowCallback id e ok =>
      _ ← next_time w (e_now e);
      f ← m !! id;
      match f with
      | Leaving (PShadow act s pid x fee) =>
          Some (mkWorld (default c (fst <$> ex_callback_shadow c e act s pid x fee ok)) h (delete id m) (w_next w) (e_now e))
      | _ => None
      end
  | EvOracle now a =>
      _ ← next_time w now;
      c' ← ex_oracle c now a;
      Some (mkWorld c' h m (w_next w) now)
  | EvFake e s x msg =>
      _ ← next_time w (e_now e);
      '(c', ps) ← ex_ft_on_transfer c e s x msg;
      Some (w_queue w c' h m ps (e_now e))
  | EvRogue t x => Some (mkWorld c (fun u => if String.eqb t u then x else h u) m (w_next w) (w_now w))
  end.

(** Tokens of kind [t] on their way and not covered by deposits, pools or lost-and-found. *)
Definition in_flight (t : AccountId) (f : Flight) : N :=
  match f with
  | Arriving u _ x _ => only u t x
  | Leaving p => promised t p + retrieved t p
  | Answered p ok => if ok then 0 else promised t p
  end.
Definition total_in_flight (w : World) (t : AccountId) : N := msum (fun _ f => in_flight t f) (w_flights w).
Definition is_unwrap (f : Flight) : option AccountId :=
  match f with Leaving (PUnwrap t _ _) | Answered (PUnwrap t _ _) _ => Some t | _ => None end.

(** Token [t] behaves as a standard token in the event. *)
Definition honest (t : AccountId) (ev : Event) : Prop :=
  match ev with EvFake e _ _ _ => e_caller e <> t | EvRogue u _ => u <> t | _ => True end.
(** The owner retrieves token [t] only beyond what is owed, and changes the wrapped-NEAR token only
    when no unwrapping is under way. *)
Definition careful (t : AccountId) (w : World) (ev : Event) : Prop :=
  match ev with
  | EvCall _ (CRetrieve u x) => u = t -> owed (w_ex w) t + total_in_flight w t + x <= w_hold w t
  | EvCall _ (CModifyWnear _) => map_Forall (fun _ f => is_unwrap f = None) (w_flights w)
  | _ => True
  end.

(** The exchange at any moment of its life without messages in flight, fully backed. *)
Definition w_start (w : World) : Prop :=
  ex_wf (w_now w) (w_ex w) /\ w_flights w = ∅ /\ forall t, owed (w_ex w) t <= w_hold w t < W128.
(** Worlds reachable by any events. *)
Inductive w_reach (w0 : World) : World -> Prop :=
| w_reach_refl : w_reach w0 w0
| w_reach_step w ev w' : w_reach w0 w -> w_step w ev = Some w' -> w_reach w0 w'.
(** ... in which token [t] is standard and the owner is careful about it. *)
Inductive w_backed (t : AccountId) (w0 : World) : World -> Prop :=
| w_backed_refl : w_backed t w0 w0
| w_backed_step w ev w' : w_backed t w0 w -> honest t ev -> careful t w ev -> w_step w ev = Some w' -> w_backed t w0 w'.

(** What the exchange pays out of token [t] in the event because a pool keeps the token with fewer decimals
    than the token has. *)
Definition rounded (t : AccountId) (w : World) (ev : Event) : N :=
  match ev with EvCall _ x => call_rounding (w_ex w) x t | _ => 0 end.
(** ... and in a whole execution. *)
Inductive w_rounds (t : AccountId) (w0 : World) : N -> World -> Prop :=
| w_rounds_refl : w_rounds t w0 0 w0
| w_rounds_step d w ev w' :
    w_rounds t w0 d w -> honest t ev -> careful t w ev -> w_step w ev = Some w' -> w_rounds t w0 (d + rounded t w ev) w'.

(** A transfer of tokens out of the exchange: token, receiver, amount. *)
Definition transfers (p : Promise) : option (AccountId * AccountId * N) :=
  match p with PSend t r x | PSendMsg t r x | PUnwrap t r x => Some (t, r, x) | _ => None end.
(** The account has an entry for the token, or its NEAR pays for a new one. *)
Definition has_room (acc : Account) (t : AccountId) : Prop :=
  is_Some (ac_get_balance acc t) \/ ac_storage_usage acc + 148 * 10 ^ 19 <= ac_near acc.
(** [x] of token [t] was added to the deposit of [a], and no other deposit or lost-and-found entry changed. *)
Definition deposit_credited (c c' : Exchange) (a t : AccountId) (x : N) : Prop :=
  (forall b u, held_by c' b u = held_by c b u + (if String.eqb a b then only t u x else 0)) /\
  (forall b u, lost_of c' b u = lost_of c b u).
(** ... to the lost-and-found entry of [a]. *)
Definition lost_credited (c c' : Exchange) (a t : AccountId) (x : N) : Prop :=
  (forall b u, held_by c' b u = held_by c b u) /\
  (forall b u, lost_of c' b u = lost_of c b u + (if String.eqb a b then only t u x else 0)).
(** What event [ev] queued for [a] in token [t] if it is a claim by [a]. *)
Definition claimed (a t : AccountId) (ev : Event) (w : World) (w' : World) : N :=
  match ev with
  | EvCall e (CClaimLostfound u) =>
      if String.eqb (e_caller e) a && String.eqb u t then
        match w_flights w' !! w_next w with
        | Some (Leaving p) => match transfers p with Some (v, r, x) => if String.eqb v t && String.eqb r a then x else 0 | None => 0 end
        | _ => 0
        end
      else 0
  | _ => 0
  end.
(** Executions with the amounts recorded in lost-and-found by failed transfers and paid out by claims. *)
Inductive lost_run (a t : AccountId) (w0 : World) : World -> N -> N -> Prop :=
| lost_run_refl : lost_run a t w0 w0 0 0
| lost_run_step w ev w' recorded paid :
    lost_run a t w0 w recorded paid -> w_step w ev = Some w' ->
    lost_run a t w0 w' (recorded + (lost_of (w_ex w') a t - lost_of (w_ex w) a t)) (paid + claimed a t ev w w').
