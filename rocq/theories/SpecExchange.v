(** * Vocabulary of the exchange properties: what users own, what the exchange owes *)
From Verif Require Import Base BaseLemmas SimplePool SpecSimple StableMath StablePool SpecStable Rates Account Pool Exchange.

(** [x] if the two tokens are the same *)
Definition only (t u : AccountId) (x : N) : N := if String.eqb t u then x else 0.
(** the amount of token [u] in a list of tokens with amounts *)
Fixpoint amount_in_list (u : AccountId) (l : list (AccountId * N)) : N :=
  match l with [] => 0 | (t, x) :: l' => only t u x + amount_in_list u l' end.

(** What get_deposit shows for one account (views.rs get_deposit, 0 for a token without entry). *)
Definition ac_held (a : Account) (t : AccountId) : N := default 0 (ac_get_balance a t).
(** No token has both an old-style and a new-style entry. *)
Definition ac_disjoint (a : Account) : Prop := forall t x, ac_legacy a !! t = Some x -> ac_tokens a !! t = None.
(** The recorded NEAR covers the storage of the account. *)
Definition ac_covered (a : Account) : Prop := ac_storage_usage a <= ac_near a.

Definition held_by (c : Exchange) (a t : AccountId) : N :=
  match ex_account c a with Some acc => ac_held acc t | None => 0 end.
Definition lost_of (c : Exchange) (a t : AccountId) : N :=
  match ex_lost c !! a with Some m => default 0 (m !! t) | None => 0 end.

(** The reserve of a token shown by get_pool. *)
Definition pl_reserve (p : Pool) (t : AccountId) : N :=
  match p with PSimple q => sp_reserve q t | PStable q => st_reserve q t end.
(** LP shares of an account. *)
Definition pl_share_of (p : Pool) (a : AccountId) : N :=
  match p with PSimple q => sp_share_of q a | PStable q => st_share_of q a end.
(** LP shares of an account in the pool with id [pid]. *)
Definition shares_at (c : Exchange) (pid : N) (a : AccountId) : N :=
  match ex_pool c pid with Some p => pl_share_of p a | None => 0 end.
(** The pool keeps token [t] with at least the token's own precision. *)
Definition pl_exact (p : Pool) (t : AccountId) : Prop :=
  match p with PSimple _ => True | PStable q => st_dec q t <= kept_decimals (st_kind q) end.
(** What is lost of token [t] when the amounts [am] are rounded down to what the pool can represent. *)
Definition pl_rounding (p : Pool) (am : list N) (t : AccountId) : N :=
  match p with
  | PSimple _ => 0
  | PStable q => beside t (st_tokens q) am mod 10 ^ (st_dec q t - kept_decimals (st_kind q))
  end.
(** ... by a withdrawal of chosen amounts, and by any call. *)
Definition rounding_at (c : Exchange) (pid : N) (am : list N) (t : AccountId) : N :=
  match ex_pool c pid with Some p => pl_rounding p am t | None => 0 end.
Definition call_rounding (c : Exchange) (x : Call) (t : AccountId) : N :=
  match x with CRemoveByTokens pid am _ => rounding_at c pid am t | _ => 0 end.
(** Every pool keeps [t] with enough precision. *)
Definition exact_token (c : Exchange) (t : AccountId) : Prop := Forall (fun p => pl_exact p t) (ex_pools c).
Definition is_simple (p : Pool) : Prop := match p with PSimple _ => True | PStable _ => False end.

(** Pools reachable from their creation at times up to [now]. *)
Definition pl_reachable (now : N) (p : Pool) : Prop :=
  match p with PSimple q => sp_reachable q | PStable q => exists n, n <= now /\ st_reachable n q end.

Definition total_deposits (c : Exchange) (t : AccountId) : N :=
  msum (fun _ v => ac_held (into_current v) t) (ex_accounts c).
Definition total_reserves (c : Exchange) (t : AccountId) : N := lsum ((fun p => pl_reserve p t) <$> ex_pools c).
Definition total_lost (c : Exchange) (t : AccountId) : N :=
  msum (fun _ (m : gmap AccountId N) => default 0 (m !! t)) (ex_lost c).
(** Everything the exchange owes of token [t]. *)
Definition owed (c : Exchange) (t : AccountId) : N := total_deposits c t + total_reserves c t + total_lost c t.

(** Tokens leaving the exchange by a scheduled transfer out of a deposit, a pool or lost-and-found. *)
Definition promised (t : AccountId) (p : Promise) : N :=
  match p with
  | PSend u _ x | PSendMsg u _ x | PUnwrap u _ x => only u t x
  | _ => 0
  end.
(** Tokens leaving by the owner's retrieve_unmanaged_token. *)
Definition retrieved (t : AccountId) (p : Promise) : N :=
  match p with PRetrieve u _ x => only u t x | _ => 0 end.
Definition promised_all (t : AccountId) (ps : list Promise) : N := lsum (promised t <$> ps).

(** Facts every state has: the pools are reachable pools, no token is entered twice in an account. *)
Definition ex_wf (now : N) (c : Exchange) : Prop :=
  Forall (pl_reachable now) (ex_pools c) /\
  map_Forall (fun _ v => ac_disjoint (into_current v)) (ex_accounts c).
