(** * Vocabulary of histories: storage cover, locked shares, what can happen to the exchange *)
From Verif Require Import Base BaseLemmas SimplePool StableMath StablePool SpecStable Rates Account Pool Exchange SpecExchange SpecWorld SpecSwap.

(** The NEAR recorded for [a] pays for the storage of their account, if there is one. *)
Definition covered_at (c : Exchange) (a : AccountId) : Prop :=
  match ex_account c a with Some acc => ac_storage_usage acc <= ac_near acc | None => True end.
(** Shares [a] has shadow-staked in farming respectively lending. *)
Definition shadow_at (c : Exchange) (pid : N) (a : AccountId) : ShadowRecord :=
  match ex_account c a with Some acc => default (mkShadow 0 0) (ac_shadow acc !! pid) | None => mkShadow 0 0 end.
Definition farm_at (c : Exchange) (pid : N) (a : AccountId) : N := sh_farm (shadow_at c pid a).
Definition burrow_at (c : Exchange) (pid : N) (a : AccountId) : N := sh_burrow (shadow_at c pid a).
(** Nobody has shadow-staked more than they hold. *)
Definition all_locked (c : Exchange) : Prop :=
  forall pid a, farm_at c pid a <= shares_at c pid a /\ burrow_at c pid a <= shares_at c pid a.

(** Executions all of whose events satisfy [P]. *)
Inductive w_along (P : World -> Event -> Prop) (w0 : World) : World -> Prop :=
| w_along_refl : w_along P w0 w0
| w_along_step w ev w' : w_along P w0 w -> P w ev -> w_step w ev = Some w' -> w_along P w0 w'.

(** The account is registered for the pool's shares. *)
Definition pl_holder (p : Pool) (a : AccountId) : Prop :=
  match p with PSimple q => is_Some (sp_shares q !! a) | PStable q => is_Some (st_shares q !! a) end.
(** [x] shares of pool [pid] moved from [s] to [r]; nobody else's shares, no other pool's and no deposit changed. *)
Definition shares_moved (c c' : Exchange) (pid : N) (s r : AccountId) (x : N) : Prop :=
  (forall q a, shares_at c' q a + (if q =? pid then only s a x else 0) = shares_at c q a + (if q =? pid then only r a x else 0)) /\
  (forall a t, held_by c' a t = held_by c a t) /\ (forall t, total_reserves c' t = total_reserves c t) /\
  (forall q p, ex_pool c q = Some p -> exists p', ex_pool c' q = Some p' /\ pl_supply p' = pl_supply p).
(** [x] of deposited token [t] moved from [s] to [r]; nothing else changed. *)
Definition deposits_moved (c c' : Exchange) (t s r : AccountId) (x : N) : Prop :=
  (forall a u, held_by c' a u + (if String.eqb s a then only t u x else 0) = held_by c a u + (if String.eqb r a then only t u x else 0)) /\
  ex_pools c' = ex_pools c.
(** A share transfer id names a pool, otherwise it names a deposited token. *)
Definition mft_moved (c c' : Exchange) (id : string) (s r : AccountId) (x : N) : Prop :=
  match mft_pool_of id with Some pid => shares_moved c c' pid s r x | None => deposits_moved c c' id s r x end.

(** A donation of shares leaves at least what the donor has staked. *)
Definition donates_free (c : Exchange) (e : Env) (x : Call) : Prop :=
  match x with
  | CDonateShare pid am _ =>
      default (shares_at c pid (e_caller e)) am + N.max (farm_at c pid (e_caller e)) (burrow_at c pid (e_caller e)) <= shares_at c pid (e_caller e)
  | _ => True
  end.
(** Nobody donates staked shares. *)
Definition respects_locks (c : Exchange) (ev : Event) : Prop := match ev with EvCall e x => donates_free c e x | _ => True end.
