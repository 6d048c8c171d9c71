(** Writing history files: /repo/bin/e2hs-writer/src/subcommands/full_block.rs and
    single_generator/{mod,e2hs_builder,provider,era_binary_search}.rs, with
    /repo/crates/ethereum-rpc-client/src/execution.rs [get_receipts_range].

    The servers are an argument: what they answer, already decoded (EraFiles_Model reads the files).  A server answers
    the same question always in the same way.  Of a directory there is the temporary file of the index and the finished one. *)
From Verif Require Import Base Trie_Model Header_Model Header_Spec LegacyHistory_Model E2Store_Model EraFiles_Model Builders_Model Builders_Spec.

Section Writer.
Context {tx rct wdl wd : Type}.
Context (HC : codec full_header) (HL : codec (list full_header)) (TC : codec tx) (RC : codec rct) (WC : codec wdl).
Context (keccak : bytes -> bytes) (trie_root : list bytes -> bytes) (sha : bytes -> bytes) (fk : forks).
Context (rest : el_header -> bytes) (to_wd : wd -> wdl) (decode_tx : bytes -> outcome tx) (requests_root : list bytes -> bytes).
Context (bloom_root extra_root : bytes -> bytes) (txs_root : list bytes -> bytes) (wds_root : list wd -> bytes) (requests_tree : el_requests -> bytes).
Context (debug : bool) (pre_merge_roots roots_acc : list bytes).
Context (hp_pack : full_header * header_proof -> bytes) (b_pack : @block_body tx wdl -> bytes) (r_pack : list rct -> bytes).
Notation body := (@block_body tx wdl).

(** full_block.rs:9-13 [FullBlock] and 31-43, the conversion to a tuple: the tuple itself. *)
Notation full_block := (@tuple3 (full_header * header_proof) body (list rct)).
(** full_block.rs:16-28 [validate_block] *)
Definition validate_block (v : validator) (source : option (list summary)) (b : full_block) : validator * outcome unit :=
  let (v, r) := validate_header_with_proof sha fk v source (view HC keccak (fst (u_header b))) (snd (u_header b)) in
  (v, obind r (fun _ =>
      if negb (validate_against_header HL TC WC keccak trie_root (u_body b) (fst (u_header b))) then Err
      else if beqb (receipts_trie_root RC trie_root (u_receipts b)) (receipts_root (fst (u_header b))) then Ok tt else Err)).

(** Builders_Model.build, with the header as LegacyHistory_Model sees it *)
Definition build_block (f : fork_name) (b : el_block wd) (br sr : list bytes) : outcome (full_header * header_proof * body) :=
  omap (fun x => (lower rest (fst (fst x)), snd (fst x), snd x))
    (build TC WC to_wd decode_tx trie_root (fun h => hash_slow HC keccak (lower rest h)) (keccak (enc HL [])) requests_root sha bloom_root extra_root txs_root wds_root requests_tree f b br sr).

(** provider.rs:48-54 [MinimalEra] and 74-85; [ev_index]: [Era::epoch_index] *)
Record era_view := { ev_blocks : list (fork_name * el_block wd); ev_block_roots : list bytes; ev_state_roots : list bytes; ev_summaries : option (list summary); ev_index : N }.
(** [execution_block_number] *)
Definition exec_number (b : fork_name * el_block wd) : N := p_block_number (b_payload (snd b)).
(** provider.rs:26-31 [EraSource] *)
Inductive era_source := PreMerge (ts : list (@tuple4 full_header body (list rct))) | PostMerge (e : era_view).
(** provider.rs:33-47 [last_block]; an empty file panics. *)
Definition last_block (s : era_source) : outcome N :=
  match s with
  | PreMerge ts => match ts with [] => Panic | t :: r => Ok (number (t_header (last r t))) end
  | PostMerge e => match ev_blocks e with [] => Panic | b :: r => Ok (exec_number (last r b)) end
  end.
(** provider.rs:56-72 [get_block] *)
Definition get_block (e : era_view) (n : N) : outcome (option (fork_name * el_block wd)) :=
  match ev_blocks e with
  | [] => Panic
  | b :: r => Ok (if (exec_number b <=? n) && (n <=? exec_number (last r b)) then find (fun b => exec_number b =? n) (ev_blocks e) else None)
  end.
(** era.rs:139-148 [contains] *)
Definition contains_block (e : era_view) (n : N) : bool :=
  match ev_blocks e with
  | [] => false
  | b :: r => (exec_number b <=? n) && (n <=? exec_number (last r b))
  end.

(** What the servers and the local files answer.  [w_accumulator]: e2hs_builder.rs:196-220; [w_receipts]: the answers to a
    batch of requests, in the order in which they come; [w_era1] and [w_era]: a file by its index, downloaded and read;
    [w_linked] and [w_last]: which era files there are; [w_first]: the execution number of the first beacon block in an era file. *)
Record world := {
  w_latest : outcome N; w_accumulator : N -> outcome (list record); w_receipts : list N -> outcome (list (outcome (list rct)));
  w_era1 : N -> outcome (list (@tuple4 full_header body (list rct)));
  w_linked : N -> bool; w_last : option N; w_first : N -> outcome N; w_era : N -> outcome era_view }.

(** era_binary_search.rs:36-96: the loop.  [None]: not enough fuel. *)
Fixpoint search (w : world) (fuel : nat) (last_index : N) (start stop n : N) : option (outcome era_view) :=
  match fuel with
  | O => None
  | S fuel =>
      if stop <? start then Some Err
      else
        let mid := (start + stop) / 2 in
        if negb (w_linked w mid) then Some Panic
        else match w_first w mid with
        | Err => Some Err
        | Panic => Some Panic
        | Ok mid_number =>
            if last_index <? mid + 1 then
              Some (obind (w_era w mid) (fun e => if contains_block e n then Ok e else Err))
            else if negb (w_linked w (mid + 1)) then Some Panic
            else match w_first w (mid + 1) with
            | Err => Some Err
            | Panic => Some Panic
            | Ok next_number =>
                let go := if mid_number <? n then search w fuel last_index (mid + 1) stop n else search w fuel last_index start (mid - 1) n in
                if (mid_number =? 0) || ((mid_number <=? n) && (n <? next_number)) then
                  match w_era w mid with
                  | Ok e => if contains_block e n then Some (Ok e) else go
                  | Err => Some Err
                  | Panic => Some Panic
                  end
                else go
            end
        end
  end.
(** era_binary_search.rs:25-35 [fetch_era_file]; the [expect] on the largest index *)
Definition fetch_era_file (w : world) (fuel : nat) (n : N) : option (outcome era_view) :=
  if n <? paris_block fk then Some Err
  else match w_last w with None => Some Panic | Some l => search w fuel l 574 l n end.

(** provider.rs:116-158: the loop of [EraProvider::new]. *)
Fixpoint provide (w : world) (fuel : nat) (next ending : N) (previous : option N) (sources : list era_source) : option (outcome (list era_source)) :=
  match fuel with
  | O => None
  | S fuel' =>
      if ending <=? next then Some (Ok sources)
      else
        let got := if negb (paris_active fk next) then
            Some (obind (w_era1 w (next / 8192)) (fun ts => Ok (previous, PreMerge ts)))
          else
            match previous with
            | Some p => Some (if negb (w_linked w (p + 1)) then Err else obind (w_era w (p + 1)) (fun e => Ok (Some (ev_index e), PostMerge e)))
            | None => match fetch_era_file w fuel next with Some r => Some (obind r (fun e => Ok (Some (ev_index e), PostMerge e))) | None => None end
            end in
        match got with
        | None => None
        | Some Err => Some Err
        | Some Panic => Some Panic
        | Some (Ok (previous, s)) =>
            match last_block s with
            | Err => Some Err
            | Panic => Some Panic
            | Ok l => provide w fuel' (l + 1) ending previous (sources ++ [s])
            end
        end
  end.
(** provider.rs:99-166 [EraProvider::new] *)
Definition era_provider (w : world) (fuel : nat) (index : N) : option (outcome (list era_source)) :=
  match provide w fuel (index * 8192) (index * 8192 + 8192) None [] with
  | Some r => Some (obind r (fun s => if (length s <=? 3)%nat then Ok s else Err))
  | None => None
  end.
(** provider.rs:168-186 [get_pre_merge] *)
Definition get_pre_merge (sources : list era_source) (n : N) : outcome (@tuple4 full_header body (list rct)) :=
  if paris_active fk n then Err
  else match sources with
       | [] => Panic
       | PreMerge ts :: _ => match nth_error ts (N.to_nat (n mod 8192)) with None => Panic | Some t => if number (t_header t) =? n then Ok t else Err end
       | PostMerge _ :: _ => Err
       end.
(** provider.rs:188-205 [get_post_merge] *)
Fixpoint find_block (sources : list era_source) (n : N) : outcome (fork_name * el_block wd * era_view) :=
  match sources with
  | [] => Err
  | PreMerge _ :: r => find_block r n
  | PostMerge e :: r => obind (get_block e n) (fun o => match o with Some b => Ok (b, e) | None => find_block r n end)
  end.
Definition get_post_merge (sources : list era_source) (n : N) : outcome (fork_name * el_block wd * era_view) :=
  if negb (paris_active fk n) then Err else find_block sources n.
(** provider.rs:207-219 [get_historical_summaries], with e2hs_builder.rs:101 [unwrap_or_default] *)
Definition summaries_of (sources : list era_source) : list summary :=
  match rev sources with PostMerge e :: _ => match ev_summaries e with Some l => l | None => [] end | _ => [] end.

(** execution.rs:126-173 [get_receipts_range]: requests in batches of ten, answers by their place.  Later insertions win. *)
Definition receipts_map := N -> option (list rct).
Fixpoint insert_all (m : receipts_map) (ns : list N) (rs : list (outcome (list rct))) : outcome receipts_map :=
  match ns, rs with
  | n :: ns, r :: rs => obind r (fun r => insert_all (fun k => if k =? n then Some r else m k) ns rs)
  | _, _ => Ok m
  end.
Fixpoint receipts_range (w : world) (fuel : nat) (m : receipts_map) (ns : list N) : outcome receipts_map :=
  match fuel, ns with
  | S fuel, _ :: _ => obind (w_receipts w (firstn 10 ns)) (fun rs => obind (insert_all m (firstn 10 ns) rs) (fun m => receipts_range w fuel m (skipn 10 ns)))
  | _, _ => Ok m
  end.
Definition numbers (start : N) (count : nat) : list N := map (fun i => start + N.of_nat i) (seq 0 count).

(** e2hs_builder.rs:37-44 [E2HSBuilder] *)
Record builder := { bd_start : N; bd_accumulator : option (list record); bd_sources : list era_source; bd_receipts : receipts_map; bd_summaries : list summary }.
(** e2hs_builder.rs:47-112 [new]; all of the tasks are waited for. *)
Definition builder_new (w : world) (fuel : nat) (index : N) : option (outcome builder) :=
  match w_latest w with
  | Err => Some Err
  | Panic => Some Panic
  | Ok latest =>
      if latest / 8192 <? index then Some Err
      else
        let start := index * 8192 in
        match (if paris_active fk start then Ok None
               else match nth_error pre_merge_roots (N.to_nat index) with None => Panic | Some _ => omap Some (w_accumulator w index) end) with
        | Err => Some Err
        | Panic => Some Panic
        | Ok acc =>
            match era_provider w fuel index with
            | None => None
            | Some provided =>
                let receipts := if paris_active fk (start + 8192) then receipts_range w (N.to_nat 8192) (fun _ => None) (numbers start (N.to_nat 8192)) else Ok (fun _ => None) in
                Some (obind receipts (fun m => obind provided (fun s =>
                  Ok {| bd_start := start; bd_accumulator := acc; bd_sources := s; bd_receipts := m; bd_summaries := summaries_of s |})))
            end
        end
  end.
(** e2hs_builder.rs:129-151 [get_pre_merge_block_data] *)
Definition pre_merge_block (b : builder) (n : N) : outcome full_block :=
  obind (get_pre_merge (bd_sources b) n) (fun t =>
  match bd_accumulator b with
  | None => Err
  | Some e => obind (construct_proof sha debug (view HC keccak (t_header t)) e) (fun p =>
      Ok (mk_tuple3 (t_header t, HistoricalHashes p) (t_body t) (t_receipts t)))
  end).
(** e2hs_builder.rs:153-171 [get_post_merge_block_data] and 173-190 [get_receipts], with the map that is left *)
Definition post_merge_block (b : builder) (m : receipts_map) (n : N) : outcome (full_block * receipts_map) :=
  obind (get_post_merge (bd_sources b) n) (fun x =>
  let '(f, bl, e) := x in
  if negb (exec_number (f, bl) =? n) then Err
  else obind (build_block f bl (ev_block_roots e) (ev_state_roots e)) (fun y =>
       let '(h, p, bo) := y in
       match m n with
       | None => Err
       | Some r => if beqb (receipts_trie_root RC trie_root r) (receipts_root h)
                   then Ok (mk_tuple3 (h, p) bo r, fun k => if k =? n then None else m k) else Err
       end)).
(** e2hs_builder.rs:114-127 [iter_blocks], until the first error *)
Fixpoint iter_blocks (b : builder) (count : nat) (n : N) (v : validator) (m : receipts_map) : outcome (list full_block) :=
  match count with
  | O => Ok []
  | S count =>
      obind (if paris_active fk n then post_merge_block b m n else omap (fun x => (x, m)) (pre_merge_block b n)) (fun x =>
      let (v, r) := validate_block v (Some (bd_summaries b)) (fst x) in
      obind r (fun _ => obind (iter_blocks b count (n + 1) v (snd x)) (fun l => Ok (fst x :: l))))
  end.
(** header_validator.rs:58-71 [new_with_historical_summaries]: the summaries are the source. *)
Definition new_validator : validator := {| pre_merge_acc := pre_merge_roots; historical_roots := roots_acc; cache := [] |}.

Record dir := { temp : bool; finished : option bytes }.
(** e2hs_builder.rs:192-207 [build_e2hs_file], with e2hs.rs:62-89 [create] and 137-142: the temporary file is renamed at the end. *)
Definition build_e2hs_file (b : builder) (index : N) (d : dir) : dir * outcome unit :=
  if temp d then (d, Err)
  else match obind (iter_blocks b (N.to_nat 8192) (bd_start b) new_validator (bd_receipts b)) (hs_run hp_pack b_pack r_pack index) with
       | Ok f => ({| temp := false; finished := Some f |}, Ok tt)
       | Err => ({| temp := true; finished := finished d |}, Err)
       | Panic => ({| temp := true; finished := finished d |}, Panic)
       end.
(** single_generator/mod.rs:13-36 [single_generator] *)
Definition single_generator (w : world) (fuel : nat) (index : N) (d : dir) : option (dir * outcome unit) :=
  match builder_new w fuel index with
  | None => None
  | Some Err => Some (d, Err)
  | Some Panic => Some (d, Panic)
  | Some (Ok b) => Some (build_e2hs_file b index d)
  end.
End Writer.
Arguments PreMerge {tx rct wdl wd}. Arguments PostMerge {tx rct wdl wd}.
Arguments world : clear implicits. Arguments era_source : clear implicits. Arguments era_view : clear implicits. Arguments builder : clear implicits.
