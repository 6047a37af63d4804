(** * View methods of the exchange.
    /repo/ref-exchange/src/views.rs, lib.rs:908-1054.
    A view reads the state and the block time and changes nothing, so it is a function of both.
    [None]: the view panics. JSON wrappers (U128, ValidAccountId) and the formatting of results are dropped. *)
From Verif Require Import Base SimplePool StableMath StablePool Rates Echo Twap Account Pool Exchange.

(** ** Predicted chains of swaps: nothing is stored, the touched pools are kept in a cache *)
(** lib.rs:1011, 1038, views.rs:940: the cached pool, else the stored one *)
Definition pc_get (c : Exchange) (pc : gmap N Pool) (pid : N) : option Pool :=
  match pc !! pid with Some p => Some p | None => ex_pool c pid end.
(** lib.rs:1001-1026 internal_pool_swap_by_cache *)
Definition pc_swap (c : Exchange) (now : N) (pc : gmap N Pool) (pid : N) (token_in : AccountId) (amount_in : N)
    (token_out : AccountId) (min_out : N) (r : option (AccountId * N)) : option (gmap N Pool * N) :=
  p ← pc_get c pc pid;
  '(p', out) ← pl_swap p (ex_rates c) now token_in amount_in token_out min_out (ex_fees_ref c r) true;
  Some (<[pid := p']> pc, out).
(** lib.rs:1028-1053 internal_pool_swap_by_output_by_cache *)
Definition pc_swap_by_output (c : Exchange) (pc : gmap N Pool) (pid : N) (token_in : AccountId) (amount_out : N)
    (token_out : AccountId) (max_in : option N) (r : option (AccountId * N)) : option (gmap N Pool * N) :=
  p ← pc_get c pc pid;
  '(p', inp) ← pl_swap_by_output p token_in amount_out token_out max_in (ex_fees_ref c r) true;
  Some (<[pid := p']> pc, inp).
(** lib.rs:955-999 internal_execute_action_by_cache *)
Definition pc_exec_action (c : Exchange) (now : N) (pc : gmap N Pool) (m : gmap AccountId N) (r : option (AccountId * N))
    (a : Action) (prev : option N) : option (gmap N Pool * gmap AccountId N * N) :=
  match a with
  | ASwap pid ti am to mn =>
      x ← (match am with Some x => Some x | None => prev end);
      m1 ← tc_sub m ti x;
      '(pc', out) ← pc_swap c now pc pid ti x to mn r;
      m2 ← tc_add m1 to out;
      Some (pc', m2, out)
  | ASwapByOutput pid ti am to mx =>
      x ← (match am with Some x => Some x | None => prev end);
      '(pc', i) ← pc_swap_by_output c pc pid ti x to mx r;
      Some (pc', m, i)
  end.
(** lib.rs:927-931 *)
Fixpoint pc_swap_loop (c : Exchange) (now : N) (pc : gmap N Pool) (m : gmap AccountId N) (r : option (AccountId * N))
    (l : list Action) (prev : option N) : option (gmap N Pool * gmap AccountId N) :=
  match l with
  | [] => Some (pc, m)
  | a :: l' => '(pc', m', x) ← pc_exec_action c now pc m r a prev; pc_swap_loop c now pc' m' r l' (Some x)
  end.
(** lib.rs:949-953 finalize_prev_swap_chain_by_cache *)
Definition pc_finalize (m : gmap AccountId N) (prev_in : option AccountId) (prev : option N) : option (gmap AccountId N) :=
  match prev_in with
  | Some t => x ← prev; tc_sub m t x
  | None => Some m
  end.
(** lib.rs:932-945 *)
Fixpoint pc_output_loop (c : Exchange) (now : N) (pc : gmap N Pool) (m : gmap AccountId N) (r : option (AccountId * N))
    (l : list Action) (prev_in : option AccountId) (prev : option N) : option (gmap N Pool * gmap AccountId N) :=
  match l with
  | [] => m' ← pc_finalize m prev_in prev; Some (pc, m')
  | a :: l' =>
      m1 ← (match a with
            | ASwapByOutput _ _ (Some x) to _ => m0 ← pc_finalize m prev_in prev; tc_add m0 to x
            | ASwapByOutput _ _ None to _ => t ← prev_in; _ ← ensure (String.eqb t to); Some m
            | ASwap _ _ _ _ _ => None
            end);
      '(pc', m2, x) ← pc_exec_action c now pc m1 r a prev;
      pc_output_loop c now pc' m2 r l' (Some (act_in a)) (Some x)
  end.
(** lib.rs:909-949 internal_execute_actions_by_cache *)
Definition pc_execute (c : Exchange) (now : N) (m : gmap AccountId N) (r : option (AccountId * N)) (l : list Action)
    (prev : option N) : option (gmap N Pool * gmap AccountId N) :=
  _ ← same_action_type l;
  _ ← no_frozen c (act_tokens l);
  a0 ← l !! 0%nat;
  if is_swap a0 then pc_swap_loop c now ∅ m r l prev else pc_output_loop c now ∅ m r l None prev.
(** views.rs:854-870 predict_swap_actions *)
Definition v_predict_swap_actions (c : Exchange) (now : N) (deposit : gmap AccountId N) (l : list Action)
  : option (gmap AccountId N) :=
  '(_, m) ← pc_execute c now deposit None l None;
  Some m.
(** views.rs:872-882 batch_predict_swap_actions *)
Fixpoint v_batch_predict (c : Exchange) (now : N) (ds : list (gmap AccountId N)) (ls : list (list Action))
  : option (list (gmap AccountId N)) :=
  match ls, ds with
  | [], _ => Some []
  | l :: ls', d :: ds' => m ← v_predict_swap_actions c now d l; ms ← v_batch_predict c now ds' ls'; Some (m :: ms)
  | _ :: _, [] => None
  end.

(** ** Predicted zaps *)
(** views.rs:101-104 AddLiquidityPrediction *)
Record Prediction := mkPrediction { pr_need : list N; pr_shares : N }.
(** views.rs:939-989: one added position *)
Definition v_zap_one (c : Exchange) (now : N) (pc : gmap N Pool) (m : gmap AccountId N) (i : AddInfo)
  : option (gmap N Pool * gmap AccountId N * Prediction) :=
  p ← pc_get c pc (ai_pool i);
  '(p', amounts, shares) ←
    (match p with
     | PSimple _ => pl_add_liquidity p "@view" (ai_amounts i) true
     | PStable _ =>
         '(p', s) ← pl_add_stable_liquidity p (ex_rates c) now "@view" (ai_amounts i) 0 (ex_fees c) true;
         Some (p', ai_amounts i, s)
     end);
  _ ← pl_assert_tvl p' (ex_rates c) now (cf_limits (ex_cfg c) !! ai_pool i);
  m' ← tc_sub_all m (zip (pl_tokens p) amounts);
  Some (<[ai_pool i := p']> pc, m', mkPrediction amounts shares).
Fixpoint v_zap_loop (c : Exchange) (now : N) (pc : gmap N Pool) (m : gmap AccountId N) (l : list AddInfo)
  : option (gmap AccountId N * list Prediction) :=
  match l with
  | [] => Some (m, [])
  | i :: l' =>
      '(pc', m', pr) ← v_zap_one c now pc m i;
      '(m'', prs) ← v_zap_loop c now pc' m' l';
      Some (m'', pr :: prs)
  end.
(** views.rs:884-993 predict_hot_zap; the inner [None]: nothing to do *)
Definition v_predict_hot_zap (c : Exchange) (now : N) (r : option AccountId) (account : option AccountId)
    (token : AccountId) (amount : N) (l : list Action) (infos : list AddInfo)
  : option (option (list Prediction * gmap AccountId N)) :=
  match l, infos with
  | [], _ | _, [] => Some None
  | a0 :: _, _ :: _ =>
      ts ← ex_infos_tokens c infos;
      let all := act_tokens l ++ ts in
      _ ← (match account with
           | Some a => acc ← ex_account c a; known_tokens c acc all
           | None => ensure (forallb (ex_whitelisted c) all)
           end);
      _ ← no_frozen c all;
      m0 ← tc_add ∅ token amount;
      '(pc, m) ← pc_execute c now m0 (ex_referral c r) l (if is_swap a0 then Some amount else None);
      '(m', prs) ← v_zap_loop c now pc m infos;
      Some (Some (prs, m'))
  end.

(** ** Single quotes and predictions *)
(** views.rs:572-581 get_return, 584-593 get_return_by_output *)
Definition v_get_return (c : Exchange) (now pid : N) (token_in : AccountId) (amount_in : N) (token_out : AccountId) : option N :=
  p ← ex_pool c pid;
  '(_, out) ← pl_swap p (ex_rates c) now token_in amount_in token_out 0 (ex_fees c) true;
  Some out.
Definition v_get_return_by_output (c : Exchange) (pid : N) (token_in : AccountId) (amount_out : N) (token_out : AccountId) : option N :=
  p ← ex_pool c pid;
  '(_, inp) ← pl_swap_by_output p token_in amount_out token_out None (ex_fees c) true;
  Some inp.
(** views.rs:644-656 predict_add_simple_liquidity, 658-666 predict_add_stable_liquidity *)
Definition v_predict_add_simple (c : Exchange) (pid : N) (amounts : list N) : option Prediction :=
  p ← ex_pool c pid;
  '(_, taken, shares) ← pl_add_liquidity p "@view" amounts true;
  Some (mkPrediction taken shares).
Definition v_predict_add_stable (c : Exchange) (now pid : N) (amounts : list N) : option N :=
  p ← ex_pool c pid;
  '(_, shares) ← pl_add_stable_liquidity p (ex_rates c) now "@view" amounts 0 (ex_fees c) true;
  Some shares.
(** views.rs:668-675 predict_remove_liquidity, 677-685 predict_remove_liquidity_by_tokens *)
Definition v_predict_remove (c : Exchange) (pid shares : N) : option (list N) :=
  p ← ex_pool c pid;
  '(_, out) ← pl_remove_liquidity p "@view" shares (repeat 0 (length (pl_tokens p))) true;
  Some out.
Definition v_predict_remove_by_tokens (c : Exchange) (now pid : N) (amounts : list N) : option N :=
  p ← ex_pool c pid;
  '(_, burn) ← pl_remove_by_tokens p (ex_rates c) now "@view" amounts (W128 - 1) (ex_fees c) true;
  Some burn.

(** ** Balances *)
(** views.rs:565-569 get_deposit, account_deposit.rs:570-578 internal_get_deposit *)
Definition v_get_deposit (c : Exchange) (a t : AccountId) : N :=
  match ex_account c a with Some acc => default 0 (ac_get_balance acc t) | None => 0 end.
(** views.rs:513-523 get_deposits, account_deposit.rs:110-118 get_tokens *)
Definition v_get_deposits (c : Exchange) (a : AccountId) : gmap AccountId N :=
  match ex_account c a with
  | Some acc => ac_tokens acc ∪ ac_legacy acc
  | None => ∅
  end.
(** views.rs:486-492 get_pool_shares, 503-509 get_pool_total_shares *)
Definition v_get_pool_shares (c : Exchange) (pid : N) (a : AccountId) : option N := p ← ex_pool c pid; Some (pl_share_balance p a).
Definition v_get_pool_total_shares (c : Exchange) (pid : N) : option N := p ← ex_pool c pid; Some (pl_supply p).
