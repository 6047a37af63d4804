(** * Small specification: whose doing is a new token on an account's list of tokens *)
From Verif Require Import Base Account Pool Exchange SpecWorld.

(** the account records a balance of the token, possibly zero; every such entry costs storage the account pays *)
Definition listed (c : Exchange) (a t : AccountId) : Prop :=
  exists acc, ex_account c a = Some acc /\ is_Some (ac_get_balance acc t).
(** a payment under way to [a] that is made in [t], or in NEAR for the wrapped NEAR [t] *)
Definition pays (c : Exchange) (p : Promise) (a t : AccountId) : Prop :=
  match p with
  | PSend u r _ | PSendMsg u r _ => u = t /\ r = a
  | PUnwrap _ r _ => cf_wnear (ex_cfg c) = Some t /\ r = a
  | _ => False
  end.
(** the calls that move deposited tokens to another account of the exchange *)
Definition sends (x : Call) (a t : AccountId) : Prop :=
  match x with CMftTransfer id r _ => id = t /\ r = a | CMftTransferCall id r _ => id = t /\ r = a | _ => False end.
(** The ways in which an event may put [t] on the list of [a]. *)
Inductive may_list (w : World) : Event -> AccountId -> AccountId -> Prop :=
| ml_own e x a t : e_caller e = a -> 0 < e_attached e \/ ex_whitelisted (w_ex w) t = true -> may_list w (EvCall e x) a t
| ml_owner ev t : may_list w ev (cf_owner (ex_cfg (w_ex w))) t
| ml_sent e x a t : sends x a t -> listed (w_ex w) (e_caller e) t -> may_list w (EvCall e x) a t
| ml_seized e a vic sid x mins pid p t :
    e_caller e = cf_burrow (ex_cfg (w_ex w)) -> shadow_id_to_pool_id sid = Some pid -> ex_pool (w_ex w) pid = Some p ->
    t ∈ pl_tokens p -> may_list w (EvCall e (CLiquidation a vic sid x mins)) a t
| ml_arrived id e u x m a t :
    w_flights w !! id = Some (Arriving u a x m) -> t = u \/ ex_whitelisted (w_ex w) t = true -> may_list w (EvNotify id e) a t
| ml_claimed e x m a t : t = e_caller e \/ ex_whitelisted (w_ex w) t = true -> may_list w (EvFake e a x m) a t
| ml_back id e p a t : w_flights w !! id = Some (Answered p false) -> pays (w_ex w) p a t -> may_list w (EvCallback id e) a t
| ml_refused id e ret s r x a t :
    w_flights w !! id = Some (Leaving (PMft t s r x)) -> listed (w_ex w) r t ->
    a = s \/ a = ex_self (w_ex w) /\ ex_account (w_ex w) s = None -> may_list w (EvMftResolve id e ret) a t.
