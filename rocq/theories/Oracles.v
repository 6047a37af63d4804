(** * The contracts the exchange asks for prices, and the questions in flight.
    Paths relative to /repo: mock-price-oracle/src/lib.rs, mock-pyth/src/lib.rs,
    test-rated-token/src/lib.rs (price part), ref-exchange/src/lib.rs:562-643,
    rated_swap/*_rate.rs async_update, degen_swap/{degen,price_oracle,pyth_oracle}.rs.

    Simplifications: contracts other than the exchange are their stored prices; the tests' stand-ins
    are taken as the definition of the three kinds of price contract (their set methods are open to
    everyone, which only adds histories); lists made from the keys of a HashMap are in the order of
    [map_to_list]; the optional confidence interval of a pyth price is dropped; a price is what
    parses as such (the ranges of its fields are checked when it is set); the three views of a rated
    token (get_st_near_price, ft_price, get_nearx_price) return the same stored price. *)
From Verif Require Import Base StableMath StablePool Rates SpecRates.

(** ** The price contracts *)
(** mock-price-oracle lib.rs:37-41 (the map), 51-53 set_price_data *)
Definition po_set (m : gmap AccountId OPrice) (a : AccountId) (p : OPrice) : option (gmap AccountId OPrice) :=
  _ ← ensure ((op_multiplier p <? W128) && (op_decimals p <? 256)); Some (<[a := p]> m).
(** lib.rs:55-79 get_price_data with a list of assets *)
Definition po_get (m : gmap AccountId OPrice) (now : N) (l : list AccountId) : PriceData :=
  mkPriceData now 90 ((fun a => (a, m !! a)) <$> l).
(** mock-pyth lib.rs:86-88 set_price *)
Definition in_i (bits : Z) (z : Z) : bool := (- 2 ^ (bits - 1) <=? z)%Z && (z <? 2 ^ (bits - 1))%Z.
Definition pyth_set (m : gmap string PythPrice) (i : string) (p : PythPrice) : option (gmap string PythPrice) :=
  _ ← ensure (in_i 64 (py_price p) && in_i 32 (py_expo p) && in_i 64 (py_publish p)); Some (<[i := p]> m).
(** mock-pyth lib.rs:98-106 list_prices_no_older_than (the age is ignored) *)
Fixpoint pyth_list (m : gmap string PythPrice) (l : list string) : gmap string (option PythPrice) :=
  match l with [] => ∅ | i :: r => <[i := m !! i]> (pyth_list m r) end.

(** ** Questions and answers *)
Inductive Ask :=
| AskToken (t : AccountId)                          (* the price view of a rated token *)
| AskPrices (o : AccountId) (l : list AccountId)    (* get_price_data *)
| AskPyth (o : AccountId) (i : string)              (* get_price *)
| AskPythList (o : AccountId) (l : list string).    (* list_prices_no_older_than *)
Inductive Got :=
| GU128 (x : N) | GPrices (d : PriceData) | GPyth (p : option PythPrice)
| GPythList (m : gmap string (option PythPrice)) | GFail.
(** the callback waiting for the answers: lib.rs:580, 632, price_oracle.rs:100, pyth_oracle.rs:95 *)
Inductive Then :=
| ThenRate (t : AccountId) | ThenDegen (t : AccountId)
| ThenBatchPrice (decs : gmap AccountId N) | ThenBatchPyth (ids : list (string * list AccountId)).
Definition Flight : Type := Then * list (Ask * option Got).

Record OWorld := mkOWorld {
  ow_rates : RateState;
  ow_po : gmap AccountId (gmap AccountId OPrice);   (* price oracle contracts *)
  ow_py : gmap AccountId (gmap string PythPrice);   (* pyth contracts *)
  ow_rated : gmap AccountId N;                      (* rated token contracts *)
  ow_fl : list Flight;
}.
Definition ow_set_rates (w : OWorld) s := mkOWorld s (ow_po w) (ow_py w) (ow_rated w) (ow_fl w).
Definition ow_set_po (w : OWorld) x := mkOWorld (ow_rates w) x (ow_py w) (ow_rated w) (ow_fl w).
Definition ow_set_py (w : OWorld) x := mkOWorld (ow_rates w) (ow_po w) x (ow_rated w) (ow_fl w).
Definition ow_set_rated (w : OWorld) x := mkOWorld (ow_rates w) (ow_po w) (ow_py w) x (ow_fl w).
Definition ow_set_fl (w : OWorld) x := mkOWorld (ow_rates w) (ow_po w) (ow_py w) (ow_rated w) x.

(** What a contract answers at time [now]; a contract that is not there fails. *)
Definition answer (w : OWorld) (now : N) (a : Ask) : Got :=
  match a with
  | AskToken t => match ow_rated w !! t with Some x => GU128 x | None => GFail end
  | AskPrices o l => match ow_po w !! o with Some m => GPrices (po_get m now l) | None => GFail end
  | AskPyth o i => match ow_py w !! o with Some m => GPyth (m !! i) | None => GFail end
  | AskPythList o l => match ow_py w !! o with Some m => GPythList (pyth_list m l) | None => GFail end
  end.

(** stnear_rate.rs:38-40 and siblings, sfrax_rate.rs:86-97 async_update *)
Definition rate_async (r : Rate) : list Ask :=
  match rt_kind r with
  | RSfrax (SfraxPriceOracle o base _ _) => [AskPrices o [base; rt_contract r]]
  | RSfrax (SfraxPyth o b q _) => [AskPyth o b; AskPyth o q]
  | _ => [AskToken (rt_contract r)]
  end.
(** price_oracle.rs:53-56, pyth_oracle.rs:44-47 async_update *)
Definition degen_async (s : RateState) (d : Degen) : option (list Ask) :=
  match dg_src d with
  | DPriceOracle _ => c ← rs_price_cfg s; Some [AskPrices (poc_oracle c) [dg_token d]]
  | DPyth i => c ← rs_pyth_cfg s; Some [AskPyth (pyc_oracle c) i]
  end.
(** degen.rs:304-309: price identifier -> tokens *)
Fixpoint group_ids (l : list (string * AccountId)) : gmap string (list AccountId) :=
  match l with
  | [] => ∅
  | (i, t) :: r => let m := group_ids r in <[i := t :: default [] (m !! i)]> m
  end.
(** degen.rs:296-319, price_oracle.rs:80-94, pyth_oracle.rs:74-89 *)
Definition batch_async (s : RateState) (ts : list AccountId) : option (list (Then * list Ask)) :=
  '(a, b) ← rs_split_degens s ts;
  x ← (if decide (a = ∅) then Some []
       else c ← rs_price_cfg s; Some [(ThenBatchPrice a, [AskPrices (poc_oracle c) (map_to_list a).*1])]);
  y ← (match b with
       | [] => Some []
       | _ :: _ => let g := map_to_list (group_ids b) in
           c ← rs_pyth_cfg s; Some [(ThenBatchPyth g, [AskPythList (pyc_oracle c) g.*1])]
       end);
  Some (x ++ y).

(** What the callback does with its answers: the price event it is, [None] when it panics on its
    input or has nothing to do.  lib.rs:582-603, 633; price_oracle.rs:101-102; pyth_oracle.rs:96-97;
    a null pyth price does not parse as a price (pyth_oracle.rs:49, sfrax_rate.rs:126). *)
Definition flight_event (f : Flight) : option rate_event :=
  match fst f, (snd <$> snd f) with
  | ThenRate t, [Some (GU128 x)] => Some (EvRateAnswer t (AnsU128 x))
  | ThenRate t, [Some (GPrices d)] => Some (EvRateAnswer t (AnsPrices d))
  | ThenRate t, [Some (GPyth (Some b)); Some (GPyth (Some q))] => Some (EvRateAnswer t (AnsPyth b q))
  | ThenDegen t, [Some (GPrices d)] => Some (EvDegenAnswer t (DAnsPrices d))
  | ThenDegen t, [Some (GPyth (Some p))] => Some (EvDegenAnswer t (DAnsPyth p))
  | ThenBatchPrice decs, [Some (GPrices d)] => Some (EvBatchPrices decs d)
  | ThenBatchPyth ids, [Some (GPythList m)] => Some (EvBatchPyth ids (omap id m))
  | _, _ => None
  end.
Definition flight_done (f : Flight) : bool := forallb (fun x => match snd x with Some _ => true | None => false end) (snd f).

(** ** What can happen *)
Inductive OEvent :=
| OSetPrice (o t : AccountId) (p : OPrice)
| OSetPyth (o : AccountId) (i : string) (p : PythPrice)
| ORemovePyth (o : AccountId) (i : string)
| OSetRated (t : AccountId) (x : N)
| OOwner (ev : rate_event)          (* registrations and settings, owner.rs *)
| OUpdateRate (t : AccountId)       (* update_token_rate, lib.rs:563-577 *)
| OUpdateDegen (t : AccountId)      (* update_degen_token_price, lib.rs:622-628 *)
| OBatch (ts : list AccountId)      (* batch_update_degen_token_price, lib.rs:617-619; also the end of every swap, 756-759 *)
| OAnswer (j i : nat)               (* the contract asked by question [i] of flight [j] answers *)
| ODeliver (j : nat).               (* the callback of flight [j] runs *)

Definition is_answer (ev : rate_event) : bool :=
  match ev with EvRateAnswer _ _ | EvDegenAnswer _ _ | EvBatchPrices _ _ | EvBatchPyth _ _ => true | _ => false end.

(** The questions an update method asks; [None]: it panics.  An unrated token asks nothing. *)
Definition requests (w : OWorld) (e : OEvent) : option (list (Then * list Ask)) :=
  let s := ow_rates w in
  match e with
  | OUpdateRate t => Some (match rs_rates s !! t with Some r => [(ThenRate t, rate_async r)] | None => [] end)
  | OUpdateDegen t => d ← rs_degens s !! t; a ← degen_async s d; Some [(ThenDegen t, a)]
  | OBatch ts => batch_async s ts
  | _ => None
  end.
Definition fresh_flight (q : Then * list Ask) : Flight := (fst q, (fun a => (a, None)) <$> snd q).

(** One step; [None]: not possible or panics.  A callback that panics only loses its flight. *)
Definition o_exec (w : OWorld) (now : N) (e : OEvent) : option OWorld :=
  match e with
  | OSetPrice o t p =>
      m ← po_set (default ∅ (ow_po w !! o)) t p; Some (ow_set_po w (<[o := m]> (ow_po w)))
  | OSetPyth o i p =>
      m ← pyth_set (default ∅ (ow_py w !! o)) i p; Some (ow_set_py w (<[o := m]> (ow_py w)))
  | ORemovePyth o i => m ← ow_py w !! o; Some (ow_set_py w (<[o := delete i m]> (ow_py w)))
  | OSetRated t x => x ← fit W128 x; Some (ow_set_rated w (<[t := x]> (ow_rated w)))
  | OOwner ev => _ ← ensure (negb (is_answer ev)); s ← rate_exec (ow_rates w) now ev; Some (ow_set_rates w s)
  | OUpdateRate _ | OUpdateDegen _ | OBatch _ =>
      rq ← requests w e; Some (ow_set_fl w (ow_fl w ++ (fresh_flight <$> rq)))
  | OAnswer j i =>
      f ← ow_fl w !! j;
      match snd f !! i with
      | Some (a, None) =>
          Some (ow_set_fl w (<[j := (fst f, <[i := (a, Some (answer w now a))]> (snd f))]> (ow_fl w)))
      | _ => None
      end
  | ODeliver j =>
      f ← ow_fl w !! j;
      _ ← ensure (flight_done f);
      let s := match flight_event f with
               | Some ev => default (ow_rates w) (rate_exec (ow_rates w) now ev)
               | None => ow_rates w
               end in
      Some (ow_set_fl (ow_set_rates w s) (delete j (ow_fl w)))
  end.
