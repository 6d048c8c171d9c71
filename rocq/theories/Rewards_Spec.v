(** Vocabulary: when Ethereum's rules change on the main network, and what a block pays. *)
From Verif Require Import Base Rewards_Model.

(** The block from which each set of rules is in force on the main network
    (ethereum/execution-specs, network-upgrades/mainnet-upgrades). *)
Definition activation (s : spec_id) : option N :=
  match s with
  | FRONTIER => Some 0
  | FRONTIER_THAWING => Some 200000
  | HOMESTEAD => Some 1150000
  | DAO_FORK => Some 1920000
  | TANGERINE => Some 2463000
  | SPURIOUS_DRAGON => Some 2675000
  | BYZANTIUM => Some 4370000
  | CONSTANTINOPLE | PETERSBURG => Some 7280000
  | ISTANBUL => Some 9069000
  | MUIR_GLACIER => Some 9200000
  | BERLIN => Some 12244000
  | LONDON => Some 12965000
  | ARROW_GLACIER => Some 13773000
  | GRAY_GLACIER => Some 15050000
  | MERGE => Some 15537394
  | SHANGHAI => Some 17034870
  | CANCUN => Some 19426587
  | PRAGUE => Some 22431084
  end.
(** [a] is a later set of rules than [b]. *)
Definition later (a b : spec_id) : Prop := spec_rank b < spec_rank a.
(** [s] is the latest set of rules in force at block [n]. *)
Definition rules_at (n : N) (s : spec_id) : Prop :=
  (exists b, activation s = Some b /\ b <= n) /\
  forall s' b', later s' s -> activation s' = Some b' -> n < b'.

(** Proof-of-work reward of block [n], in wei. *)
Definition reward (n : N) : N :=
  if n <? 4370000 then 5 * 10 ^ 18
  else if n <? 7280000 then 3 * 10 ^ 18
  else if n <? 15537394 then 2 * 10 ^ 18
  else 0.
(** The payments of block [b] with uncles [us]: to the miner the reward and a thirty-second of it
    per uncle, to the author of an uncle of [k] generations ago [8 - k] eighths of it, and to each
    withdrawal its amount of gwei. *)
Definition payments (b : block) (us : list header) : list (N * N) :=
  let n := number (b_header b) in
  (beneficiary (b_header b), reward n + blen us * (reward n / 32)) ::
  map (fun u => (beneficiary u, (8 - (n - number u)) * reward n / 8)) us ++
  match b_withdrawals b with
  | Some l => map (fun w => (w_address w, w_amount w * 10 ^ 9)) l
  | None => []
  end.
Fixpoint sum (l : list N) : N := match l with [] => 0 | x :: r => x + sum r end.
(** What a list of payments pays to [a], and in all. *)
Definition paid_to (l : list (N * N)) (a : N) : N := sum (map (fun x => if fst x =? a then snd x else 0) l).
Definition paid (l : list (N * N)) : N := sum (map snd l).
(** An uncle is an ancestor's sibling, one to seven generations ago, and block numbers are far
    from their limit. *)
Definition uncle_of (n : N) (u : header) : Prop := number u < n /\ n <= number u + 7 /\ number u + 8 < 2 ^ 64.
