(** * Shadow stakes among three contracts: what the exchange, the farm and the lender each record *)
From Verif Require Import Base BaseLemmas SimplePool StableMath StablePool SpecStable Rates Account Pool Exchange SpecExchange SpecWorld SpecSwap SpecHistory.

(** The two contracts that can be told about staked shares. *)
Inductive Side := Farming | Lending.
Definition side_of (act : ShadowAction) : Side := match act with ToFarming | FromFarming => Farming | ToBurrowland | FromBurrowland => Lending end.
(** What the exchange records as staked there. *)
Definition staked (sd : Side) (c : Exchange) (pid : N) (a : AccountId) : N :=
  match sd with Farming => farm_at c pid a | Lending => burrow_at c pid a end.

(** A message to the farm or the lender (shadow_actions.rs:12-15 on_cast_shadow, on_remove_shadow; sent at 123, 146 and,
    in a liquidation, at 219): stake or release [rq_amount] shares of [rq_from].  After a liquidation the
    exchange does not care about the answer ([rq_final]). *)
Record Request := mkRequest { rq_act : ShadowAction; rq_from : AccountId; rq_pool : N; rq_amount : N; rq_final : bool }.
Definition asks (f : Flight) : option Request :=
  match f with
  | Leaving (PShadow act a pid x _) => Some (mkRequest act a pid x false)
  | Leaving (PRemoveShadow a pid x) => Some (mkRequest FromFarming a pid x true)
  | _ => None
  end.
Definition requests (w : World) : gmap N Request := omap asks (w_flights w).

(** The contracts behind the interface are not in the repository; only what is assumed of them is stated here.
    The exchange with its world, the books of the two contracts, and the answers already given to requests. *)
Record Shadows := mkShadows { s_world : World; s_book : Side -> AccountId -> N -> N; s_answers : gmap N bool }.
Definition same_place (sd sd' : Side) (a a' : AccountId) (pid pid' : N) : bool :=
  (match sd, sd' with Farming, Farming | Lending, Lending => true | _, _ => false end) && String.eqb a a' && (pid =? pid').
Definition book_add (b : Side -> AccountId -> N -> N) sd a pid x : Side -> AccountId -> N -> N :=
  fun sd' a' pid' => if same_place sd sd' a a' pid pid' then b sd' a' pid' + x else b sd' a' pid'.
Definition book_sub (b : Side -> AccountId -> N -> N) sd a pid x : Side -> AccountId -> N -> N :=
  fun sd' a' pid' => if same_place sd sd' a a' pid pid' then b sd' a' pid' - x else b sd' a' pid'.
(** The contract's book after a request it accepts. *)
Definition accept (b : Side -> AccountId -> N -> N) (r : Request) : Side -> AccountId -> N -> N :=
  if is_cast (rq_act r) then book_add b (side_of (rq_act r)) (rq_from r) (rq_pool r) (rq_amount r)
  else book_sub b (side_of (rq_act r)) (rq_from r) (rq_pool r) (rq_amount r).
(** The lender's book after a liquidation of [x] shares. *)
Definition settle (b : Side -> AccountId -> N -> N) (ev : Event) : Side -> AccountId -> N -> N :=
  match ev with
  | EvCall _ (CLiquidation _ vic sid x _) => match shadow_id_to_pool_id sid with Some pid => book_sub b Lending vic pid x | None => b end
  | _ => b
  end.
(** The account can be saved. *)
Definition saves (c : Exchange) (a : AccountId) (freed : N) : Prop :=
  match ex_account c a with Some acc => ac_storage_usage acc <= ac_near acc /\ ac_near acc + freed < W128 | None => True end.

(** Honest contracts.  Callbacks report the answer given; the lender liquidates only what it has in its book.  For the
    farm's book: no liquidation reaches into what is staked in farming. *)
Definition fair (sd : Side) (s : Shadows) (ev : Event) (w' : World) : Prop :=
  match ev with
  | EvShadowCallback id e ok =>
      s_answers s !! id = Some ok /\ forall r, requests (s_world s) !! id = Some r -> saves (w_ex (s_world s)) (rq_from r) (e_freed e)
  | EvCall _ (CLiquidation _ vic sid x _) =>
      match sd with
      | Lending => forall pid, shadow_id_to_pool_id sid = Some pid -> x <= s_book s Lending vic pid
      | Farming => forall pid a, farm_at (w_ex w') pid a = farm_at (w_ex (s_world s)) pid a
      end
  | _ => True
  end.
Definition after_callback (m : gmap N bool) (ev : Event) : gmap N bool :=
  match ev with EvShadowCallback id _ _ => delete id m | _ => m end.
(** Whatever happens to the exchange, and the answers: each request is answered at most once, in any order; a release is
    accepted only if the book has that much. *)
Inductive s_step (sd : Side) (s : Shadows) : Shadows -> Prop :=
| s_event ev w' : w_step (s_world s) ev = Some w' -> fair sd s ev w' ->
    s_step sd s (mkShadows w' (settle (s_book s) ev) (after_callback (s_answers s) ev))
| s_answer id r (ok : bool) : requests (s_world s) !! id = Some r -> s_answers s !! id = None ->
    (ok = true -> is_cast (rq_act r) = false -> rq_amount r <= s_book s (side_of (rq_act r)) (rq_from r) (rq_pool r)) ->
    s_step sd s (mkShadows (s_world s) (if ok then accept (s_book s) r else s_book s) (<[id := ok]> (s_answers s))).
Inductive s_reach (sd : Side) (s0 : Shadows) : Shadows -> Prop :=
| s_reach_refl : s_reach sd s0 s0
| s_reach_step s s' : s_reach sd s0 s -> s_step sd s s' -> s_reach sd s0 s'.
(** No request under way and the books are right. *)
Definition s_start (s : Shadows) : Prop :=
  ex_wf (w_now (s_world s)) (w_ex (s_world s)) /\ (forall id f, w_flights (s_world s) !! id = Some f -> id < w_next (s_world s)) /\
  requests (s_world s) = ∅ /\ s_answers s = ∅ /\ forall sd a pid, s_book s sd a pid = staked sd (w_ex (s_world s)) pid a.

(** Shares recorded by the exchange and not in the book: stakes not yet accepted (or refused and not yet taken back) and
    releases accepted and not yet reported. *)
Definition waits (sd : Side) (a : AccountId) (pid : N) (answer : option bool) (r : Request) : N :=
  if same_place (side_of (rq_act r)) sd (rq_from r) a (rq_pool r) pid && negb (rq_final r) then
    match is_cast (rq_act r), answer with true, Some true => 0 | true, _ => rq_amount r | false, Some true => rq_amount r | false, _ => 0 end
  else 0.
Definition under_way (s : Shadows) (sd : Side) (a : AccountId) (pid : N) : N :=
  msum (fun id r => waits sd a pid (s_answers s !! id) r) (requests (s_world s)).
