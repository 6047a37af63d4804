(** * What a chain of swaps did: trades and their sums, stated apart from the loops that execute them *)
From Verif Require Import Base BaseLemmas SimplePool StablePool SpecStable Rates Account Pool Exchange SpecExchange.

(** One executed trade: [td_paid] of [td_in] went into pool [td_pool] and [td_got] of [td_out] came out. *)
Record Trade := mkTrade { td_pool : N; td_in : AccountId; td_paid : N; td_out : AccountId; td_got : N }.

(** The trade is the one the action asked for, within the limit the action set. *)
Definition obeys (a : Action) (d : Trade) : Prop :=
  td_pool d = act_pool a /\ td_in d = act_in a /\ td_out d = act_out a /\
  match a with
  | ASwap _ _ am _ mn => (forall x, am = Some x -> td_paid d = x) /\ mn <= td_got d
  | ASwapByOutput _ _ am _ mx => (forall x, am = Some x -> td_got d = x) /\ (forall m, mx = Some m -> td_paid d <= m)
  end.
(** Exact-input actions without an amount spend what the previous action produced. *)
Fixpoint forward (prev : option N) (l : list Action) (ts : list Trade) : Prop :=
  match l, ts with
  | ASwap _ _ am _ _ :: l', d :: ts' => (am = None -> prev = Some (td_paid d)) /\ forward (Some (td_got d)) l' ts'
  | [], [] => True
  | _, _ => False
  end.
(** Exact-output actions without an amount produce what the previous action consumes. *)
Fixpoint backward (prev : option (AccountId * N)) (l : list Action) (ts : list Trade) : Prop :=
  match l, ts with
  | ASwapByOutput _ _ am _ _ :: l', d :: ts' =>
      (am = None -> prev = Some (td_out d, td_got d)) /\ backward (Some (td_in d, td_paid d)) l' ts'
  | [], [] => True
  | _, _ => False
  end.

(** One trade at the price the pool itself gives in that state; only that pool is replaced. *)
Definition trade_step (e : Env) (r : option (AccountId * N)) (c : Exchange) (d : Trade) (c' : Exchange) : Prop :=
  exists p p', ex_pool c (td_pool d) = Some p /\ ex_pools c' = <[N.to_nat (td_pool d) := p']> (ex_pools c) /\
  ((exists mn, pl_swap p (ex_rates c) (e_now e) (td_in d) (td_paid d) (td_out d) mn (ex_fees_ref c r) false = Some (p', td_got d)) \/
   (exists mx, pl_swap_by_output p (td_in d) (td_got d) (td_out d) mx (ex_fees_ref c r) false = Some (p', td_paid d))).
Inductive trades (e : Env) (r : option (AccountId * N)) : Exchange -> list Trade -> Exchange -> Prop :=
| trades_nil c c' : ex_pools c' = ex_pools c -> trades e r c [] c'
| trades_cons c d c1 ts c' : trade_step e r c d c1 -> trades e r c1 ts c' -> trades e r c (d :: ts) c'.

(** Sums of one token over the trades. *)
Definition paid (ts : list Trade) (t : AccountId) : N := lsum ((fun d => only (td_in d) t (td_paid d)) <$> ts).
Definition got (ts : list Trade) (t : AccountId) : N := lsum ((fun d => only (td_out d) t (td_got d)) <$> ts).

(** The outputs the exact-output actions ask for explicitly. *)
Definition requested (l : list Action) (t : AccountId) : N :=
  lsum ((fun a => match a with ASwapByOutput _ _ (Some x) to _ => only to t x | _ => 0 end) <$> l).
(** The inputs at the ends of the chains: of actions which the next action does not produce. *)
Definition fresh_start (l : list Action) : bool :=
  match l with ASwapByOutput _ _ None _ _ :: _ => false | _ => true end.
Fixpoint chain_ends (l : list Action) (ts : list Trade) (t : AccountId) : N :=
  match l, ts with
  | _ :: l', d :: ts' => (if fresh_start l' then only (td_in d) t (td_paid d) else 0) + chain_ends l' ts' t
  | _, _ => 0
  end.

(** Recorded trading volume of a pool's token, as (input, output). *)
Definition vol_at (c : Exchange) (key : N) (i : nat) : N * N :=
  match ex_volumes c !! key with Some v => default (0, 0) (v !! i) | None => (0, 0) end.
(** The slots in which a trade is counted; a simple pool counts both sides in the slot of the input token. *)
Definition slot_in (c : Exchange) (d : Trade) : option nat :=
  match ex_pool c (td_pool d) with Some p => position (td_in d) (pl_tokens p) | None => None end.
Definition slot_out (c : Exchange) (d : Trade) : option nat :=
  match ex_pool c (td_pool d) with
  | Some (PSimple p) => position (td_in d) (pl_tokens (PSimple p))
  | Some (PStable p) => position (td_out d) (pl_tokens (PStable p))
  | None => None
  end.
(** Volume keys are the low 32 bits of the pool's id. *)
Definition counted (slot : Trade -> option nat) (amount : Trade -> N) (ts : list Trade) (key : N) (i : nat) : N :=
  lsum ((fun d => if (td_pool d mod W32 =? key) && bool_decide (slot d = Some i) then amount d else 0) <$> ts).
Definition volumes_grow (c : Exchange) (ts : list Trade) (c' : Exchange) : Prop :=
  forall key i,
    fst (vol_at c' key i) = fst (vol_at c key i) + counted (slot_in c) td_paid ts key i /\
    snd (vol_at c' key i) = snd (vol_at c key i) + counted (slot_out c) td_got ts key i.
