(** Writing history files at the head of the chain: /repo/bin/e2hs-writer/src/subcommands/head_generator/{mod,e2hs_builder,s3_bucket}.rs,
    with /repo/crates/ethereum-rpc-client/src/consensus/mod.rs [find_first_beacon_block], [get_state_for_start_of_next_period],
    [first_block_in_latest_finalized_period], [first_slot_in_a_period].

    The servers are an argument; in each round they may be different ones.  That a request is repeated with the fallback is part
    of the answer.  The temporary directory is new and the file is removed after it was sent, so a temporary file never exists before. *)
From Verif Require Import Base Header_Model LegacyHistory_Model E2Store_Model EraFiles_Model Builders_Model E2hsWriter_Model.

Section Head.
Context {tx rct wdl wd : Type}.
Context (HC : codec full_header) (HL : codec (list full_header)) (TC : codec tx) (RC : codec rct) (WC : codec wdl).
Context (keccak : bytes -> bytes) (trie_root : list bytes -> bytes) (sha : bytes -> bytes) (fk : forks).
Context (rest : el_header -> bytes) (to_wd : wd -> wdl) (decode_tx : bytes -> outcome tx) (requests_root : list bytes -> bytes).
Context (bloom_root extra_root : bytes -> bytes) (txs_root : list bytes -> bytes) (wds_root : list wd -> bytes) (requests_tree : el_requests -> bytes).
Context (debug : bool) (pre_merge_roots roots_acc : list bytes).
Context (hp_pack : full_header * header_proof -> bytes) (b_pack : @block_body tx wdl -> bytes) (r_pack : list rct -> bytes).
Notation full_block := (@tuple3 (full_header * header_proof) (@block_body tx wdl) (list rct)).

(** What is used of a beacon state *)
Record beacon_state := { st_slot : N; st_block_roots : list bytes; st_state_roots : list bytes; st_summaries : list summary }.
(** [get_beacon_block] by slot, by root and of the finalized block; [get_beacon_state] by slot; the parent root in [get_block];
    [get_receipts]; and whether a file is taken by the bucket *)
Record servers := {
  cl_block : N -> outcome (el_block wd); cl_by_root : bytes -> outcome (el_block wd); cl_finalized : outcome (el_block wd);
  cl_state : N -> outcome beacon_state; el_parent_root : N -> outcome (option bytes); el_receipts : N -> outcome (list rct); s3_upload : outcome unit }.

(** consensus/mod.rs:446-448 [first_slot_in_a_period] *)
Definition first_slot_in_a_period (slot : N) : N := slot / 8192 * 8192.
(** consensus/mod.rs:211-229 [find_first_beacon_block]: six requests *)
Fixpoint find_from (sv : servers) (k : nat) (slot : N) : outcome (el_block wd) :=
  match k with
  | O => Err
  | S k => match cl_block sv slot with Ok b => Ok b | _ => find_from sv k (slot + 1) end
  end.
Definition find_first_beacon_block (sv : servers) (slot : N) : outcome (el_block wd) := find_from sv 6 slot.
(** consensus/mod.rs:166-203 [get_state_for_start_of_next_period].  [None]: not enough fuel. *)
Fixpoint state_from (sv : servers) (fuel : nat) (slot : N) (tries : N) : option (outcome beacon_state) :=
  match fuel with
  | O => None
  | S fuel =>
      match cl_state sv slot with
      | Ok st => if st_slot st <? slot then state_from sv fuel (slot + 1) (tries + 1)
                 else Some (if st_slot st =? slot then Ok st else Err)
      | _ => if tries + 1 <=? 5 then state_from sv fuel (slot + 1) (tries + 1) else Some Err
      end
  end.
Definition state_for_next_period (sv : servers) (fuel : nat) (slot : N) : option (outcome beacon_state) :=
  state_from sv fuel (first_slot_in_a_period (slot + 8192)) 0.
(** consensus/mod.rs:232-241 [first_block_in_latest_finalized_period] *)
Definition first_block_in_latest_finalized_period (sv : servers) : outcome (el_block wd) :=
  obind (cl_finalized sv) (fun b => find_first_beacon_block sv (first_slot_in_a_period (b_slot b))).

(** e2hs_builder.rs:20-41 [ProvingAnchors] *)
Record anchors := { an_index : N; an_block_roots : list bytes; an_state_roots : list bytes; an_summaries : list summary; an_validator : validator }.
Definition new_anchors : anchors := {| an_index := 0; an_block_roots := repeat (repeat 0 32) (N.to_nat 8192); an_state_roots := repeat (repeat 0 32) (N.to_nat 8192);
  an_summaries := []; an_validator := new_validator pre_merge_roots roots_acc |}.
(** e2hs_builder.rs:126-147 [update_proving_anchors] *)
Definition update_anchors (sv : servers) (fuel : nat) (an : anchors) (slot : N) : option (outcome anchors) :=
  match historical_summary_index slot with
  | None => Some Panic
  | Some i =>
      if i =? an_index an then Some (Ok an)
      else match state_for_next_period sv fuel slot with
           | None => None
           | Some r => Some (omap (fun st => {| an_index := i; an_block_roots := st_block_roots st; an_state_roots := st_state_roots st;
                                                an_summaries := st_summaries st; an_validator := new_validator pre_merge_roots roots_acc |}) r)
           end
  end.
(** e2hs_builder.rs:149-169 [build_block] *)
Definition head_block (sv : servers) (an : anchors) (n : N) (b : el_block wd) : outcome full_block :=
  if negb (p_block_number (b_payload b) =? n) then Err
  else obind (build_block HC HL TC WC keccak trie_root sha rest to_wd decode_tx requests_root bloom_root extra_root txs_root wds_root requests_tree Electra b (an_block_roots an) (an_state_roots an)) (fun x =>
       let '(h, p, body) := x in
       omap (fun r => mk_tuple3 (h, p) body r) (el_receipts sv n)).
(** e2hs_builder.rs:94-116: the loop of [build_e2hs_file]; what it appends is written at the end *)
Fixpoint head_blocks (sv : servers) (fuel : nat) (count : nat) (n slot : N) (an : anchors) : option (outcome (list full_block * N * anchors)) :=
  match count with
  | O => Some (Ok ([], slot, an))
  | S count =>
      match find_first_beacon_block sv slot with
      | Err => Some Err
      | Panic => Some Panic
      | Ok b =>
          match update_anchors sv fuel an (b_slot b) with
          | None => None
          | Some Err => Some Err
          | Some Panic => Some Panic
          | Some (Ok an) =>
              match head_block sv an n b with
              | Err => Some Err
              | Panic => Some Panic
              | Ok x =>
                  let (v, r) := validate_block HC HL TC RC WC keccak trie_root sha fk (an_validator an) (Some (an_summaries an)) x in
                  let an := {| an_index := an_index an; an_block_roots := an_block_roots an; an_state_roots := an_state_roots an; an_summaries := an_summaries an; an_validator := v |} in
                  match r with
                  | Err => Some Err
                  | Panic => Some Panic
                  | Ok _ => match head_blocks sv fuel count (n + 1) (b_slot b + 1) an with
                            | Some (Ok (l, slot, an)) => Some (Ok (x :: l, slot, an))
                            | r => r
                            end
                  end
              end
          end
      end
  end.
(** e2hs_builder.rs:43-50 [E2HSBuilder] *)
Record head := { hd_index : N; hd_slot : N; hd_anchors : anchors }.
(** e2hs_builder.rs:87-123 [build_e2hs_file]; [count]: the number of blocks in a file *)
Definition build_count (count : nat) (sv : servers) (fuel : nat) (b : head) : option (outcome (bytes * head)) :=
  match head_blocks sv fuel count (hd_index b * 8192) (hd_slot b) (hd_anchors b) with
  | None => None
  | Some r => Some (obind r (fun x => let '(l, slot, an) := x in
      obind (hs_run hp_pack b_pack r_pack (hd_index b) l) (fun f => Ok (f, {| hd_index := hd_index b + 1; hd_slot := slot; hd_anchors := an |}))))
  end.
Definition build_head_file : servers -> nat -> head -> option (outcome (bytes * head)) := build_count (N.to_nat 8192).

(** s3_bucket.rs:132-168 [last_file_name], of the pages of the list: a request that fails ends the loop.  That a page that is not the last names the next one is assumed. *)
Fixpoint last_key (pages : list (outcome (list bytes))) (last_one : option bytes) : option bytes :=
  match pages with
  | Ok keys :: pages => last_key pages (match rev keys with k :: _ => Some k | [] => last_one end)
  | _ => last_one
  end.
(** mod.rs:36-45 [HeadGenerator::new], e2hs_builder.rs:53-85 [new] and 172-189 [find_slot_for_execution_block_number]; [index_of]: mod.rs:110-116 [extract_index_from_file_name] *)
Definition head_new (sv : servers) (index_of : bytes -> outcome N) (pages : list (outcome (list bytes))) : outcome head :=
  match last_key pages None with
  | None => Err
  | Some name =>
      obind (index_of name) (fun last_index =>
      obind (el_parent_root sv ((last_index + 1) * 8192 + 1)) (fun root =>
      match root with
      | None => Err
      | Some root => obind (cl_by_root sv root) (fun b => Ok {| hd_index := last_index + 1; hd_slot := b_slot b; hd_anchors := new_anchors |})
      end))
  end.

(** mod.rs:95-107 [amount_of_blocks_that_can_be_backfilled]: the difference can be below 0. *)
Definition backfill (sv : servers) (b : head) : outcome N :=
  obind (first_block_in_latest_finalized_period sv) (fun x =>
  let n := p_block_number (b_payload x) in
  if hd_index b * 8192 <=? n then Ok (n - hd_index b * 8192)
  else if debug then Panic else Ok (2 ^ 64 + n - hd_index b * 8192)).
(** What a round of the loop leads to *)
Inductive ending := Waiting | Stopped (r : outcome unit).
(** mod.rs:54-72, one round, with 77-93 [build_and_upload_e2hs_file]; after a file that fails the result of [run] is [Ok]. *)
Definition round (sv : servers) (fuel : nat) (b : head) : option (head * list (N * bytes) * ending) :=
  match backfill sv b with
  | Err => Some (b, [], Stopped Err)
  | Panic => Some (b, [], Stopped Panic)
  | Ok amount =>
      if amount <? 8192 then Some (b, [], Waiting)
      else match build_head_file sv fuel b with
           | None => None
           | Some (Ok (f, b')) => match s3_upload sv with
                                  | Ok _ => Some (b', [(hd_index b, f)], Waiting)
                                  | Err => Some (b', [], Stopped (Ok tt))
                                  | Panic => Some (b', [], Stopped Panic)
                                  end
           | Some Err => Some (b, [], Stopped (Ok tt))
           | Some Panic => Some (b, [], Stopped Panic)
           end
  end.
(** the rounds, with what the bucket has got *)
Fixpoint rounds (svs : list servers) (fuel : nat) (b : head) : option (head * list (N * bytes) * ending) :=
  match svs with
  | [] => Some (b, [], Waiting)
  | sv :: svs =>
      match round sv fuel b with
      | None => None
      | Some (b, files, Stopped r) => Some (b, files, Stopped r)
      | Some (b, files, Waiting) =>
          match rounds svs fuel b with Some (b, more, e) => Some (b, files ++ more, e) | None => None end
      end
  end.
(** mod.rs:47-75 [run] *)
Definition run (sv : servers) (svs : list servers) (fuel : nat) (b : head) : option (head * list (N * bytes) * ending) :=
  match backfill sv b with
  | Err => Some (b, [], Stopped Err)
  | Panic => Some (b, [], Stopped Panic)
  | Ok amount => if amount <? 648000 then rounds svs fuel b else Some (b, [], Stopped Err)
  end.
End Head.
Arguments servers : clear implicits.
