(** The bridge from history files to the network: /repo/bin/portal-bridge/src/bridge/e2hs.rs, types/range.rs and
    bridge/offer_report.rs [GlobalOfferReport], with /repo/crates/e2store/src/utils.rs [get_e2hs_files] and e2hs.rs [iter_tuples].

    The tasks are a transition system: an [op] is a step of one of them, and a list of [op]s is a schedule.  Which peers the
    census selects, what they answer and when is part of the schedule; that an offer is answered at the latest when its time is
    up (440-465) is what makes [Answer] possible at any time.  A permit goes to any task that wants one.  Not modelled: the
    metrics, the reports for single keys, the census (Census_Model), and panics within the tasks that gossip. *)
From Verif Require Import Base Trie_Model AcceptCodes_Model Keys_Model Header_Model LegacyHistory_Model E2Store_Model EraFiles_Model E2hsWriter_Model.

(** ** The tasks *)
Section Tasks.
Context {T P : Type} (msg : T -> nat -> legacy_key * bytes).

(** e2hs.rs:323-361: the four contents of a block, by number: the header by hash, the header by number, the body, the receipts. *)
Notation which := nat.
(** 376-423 [gossip_content]: not started, started, or the peers still to be offered and the offers without an answer. *)
Inductive content := Idle | Waiting | Going (queue flying : list P).
(** 281-321 [gossip_block] *)
Record task := { tk_epoch : N; tk_block : T; tk_content : which -> content; tk_done : bool }.
(** What the main loop does next: spawn the task of a block (201-213), await the tasks of an epoch (144-152), panic, or print the report (154-158). *)
Inductive action := Spawn (epoch : N) (block : T) | Await (epoch : N) | Crash | Report.
(** offer_report.rs:14-18 [GlobalOfferReport] *)
Record counters := { accepted : N; declined : N; failed : N }.
Record gossip := { g_todo : list action; g_tasks : list task; g_report : counters }.

(** offer_report.rs:21-32 [update]; [None] is [OfferTrace::Failed]. *)
Definition count_answer (c : counters) (a : option accept_code) : counters :=
  match a with
  | Some Accepted => {| accepted := accepted c + 1; declined := declined c; failed := failed c |}
  | Some _ => {| accepted := accepted c; declined := declined c + 1; failed := failed c |}
  | None => {| accepted := accepted c; declined := declined c; failed := failed c + 1 |}
  end.

(** What can be seen.  The task of the [i]-th block has selected peers for a content; has offered it to a peer; has got an answer. *)
Inductive event :=
| Began (i : nat) (w : which) (peers : list P)
| Offered (i : nat) (w : which) (peer : P) (key : legacy_key) (value : bytes)
| Answered (i : nat) (w : which) (peer : P) (answer : option accept_code)
| Crashed
| Reported (c : counters).
(** [Main]: the main loop; the others are steps of the task of the [i]-th block. *)
Inductive op :=
| Main
| Begin (i : nat) (w : which) (peers : list P)
| Send (i : nat) (w : which)
| Answer (i : nat) (w : which) (j : nat) (answer : option accept_code)
| Next (i : nat)
| Wake (i : nat)
| Done (i : nat).

Definition flying (c : content) : nat := match c with Going _ f => length f | _ => 0 end.
Definition task_flying (t : task) : nat := flying (tk_content t 0%nat) + flying (tk_content t 1%nat) + flying (tk_content t 2%nat) + flying (tk_content t 3%nat).
(** The permits in use, of the offers and of the blocks: 52-61, 508-514 *)
Definition in_flight (g : gossip) : nat := list_sum (map task_flying (g_tasks g)).
Definition active (g : gossip) : nat := length (filter (fun t => negb (tk_done t)) (g_tasks g)).

Definition set_nth {A} (i : nat) (x : A) (l : list A) : list A := firstn i l ++ x :: skipn (S i) l.
Definition set_task (g : gossip) (i : nat) (t : task) : gossip := {| g_todo := g_todo g; g_tasks := set_nth i t (g_tasks g); g_report := g_report g |}.
Definition set_content (t : task) (w : which) (c : content) : task :=
  {| tk_epoch := tk_epoch t; tk_block := tk_block t; tk_content := fun w' => if (w' =? w)%nat then c else tk_content t w'; tk_done := tk_done t |}.
Definition remove_nth {A} (j : nat) (l : list A) : list A := firstn j l ++ skipn (S j) l.
Definition is_finished (c : content) : bool := match c with Going [] [] => true | _ => false end.
Definition is_idle (c : content) : bool := match c with Idle => true | _ => false end.

(** 281-300: the task of a block begins with the header by hash. *)
Definition new_task (e : N) (b : T) : task := {| tk_epoch := e; tk_block := b; tk_content := fun w => if (w =? 0)%nat then Waiting else Idle; tk_done := false |}.
(** 138-152, 201-213: a block needs a permit; an epoch is awaited until all its tasks are done. *)
Definition main_step (limit : nat) (g : gossip) : option (gossip * list event) :=
  match g_todo g with
  | [] => None
  | Spawn e b :: r => if (active g <? limit)%nat then Some ({| g_todo := r; g_tasks := g_tasks g ++ [new_task e b]; g_report := g_report g |}, []) else None
  | Await e :: r => if forallb (fun t => negb (tk_epoch t =? e) || tk_done t) (g_tasks g) then Some ({| g_todo := r; g_tasks := g_tasks g; g_report := g_report g |}, []) else None
  | Crash :: r => Some ({| g_todo := []; g_tasks := g_tasks g; g_report := g_report g |}, [Crashed])
  | Report :: r => Some ({| g_todo := r; g_tasks := g_tasks g; g_report := g_report g |}, [Reported (g_report g)])
  end.
Definition task_step (limit : nat) (g : gossip) (i : nat) (t : task) (o : op) : option (gossip * list event) :=
  match o with
  | Main => None
  (* 381-388 *)
  | Begin _ w ps => match tk_content t w with
                    | Waiting => Some (set_task g i (set_content t w (Going ps [])), [Began i w ps])
                    | _ => None end
  (* 394-412: an offer needs a permit *)
  | Send _ w => match tk_content t w with
                | Going (p :: q) f => if (in_flight g <? limit)%nat then
                    Some (set_task g i (set_content t w (Going q (f ++ [p]))), [Offered i w p (fst (msg (tk_block t) w)) (snd (msg (tk_block t) w))]) else None
                | _ => None end
  (* 426-506 [send_offer] *)
  | Answer _ w j a => match tk_content t w with
                      | Going q f => match nth_error f j with
                                        | Some p => Some ({| g_todo := g_todo g; g_tasks := set_nth i (set_content t w (Going q (remove_nth j f))) (g_tasks g); g_report := count_answer (g_report g) a |}, [Answered i w p a])
                                        | None => None end
                      | _ => None end
  (* 290-313: the header by hash is gossiped; start with the header by number and sleep *)
  | Next _ => if is_finished (tk_content t 0%nat) && is_idle (tk_content t 1%nat) then Some (set_task g i (set_content t 1%nat Waiting), []) else None
  (* 313-317 *)
  | Wake _ => if negb (is_idle (tk_content t 1%nat)) && is_idle (tk_content t 2%nat) then Some (set_task g i (set_content (set_content t 2%nat Waiting) 3%nat Waiting), []) else None
  (* 319-320, 205: the permit of the block is dropped *)
  | Done _ => if is_finished (tk_content t 1%nat) && is_finished (tk_content t 2%nat) && is_finished (tk_content t 3%nat) && negb (tk_done t) then
                Some (set_task g i {| tk_epoch := tk_epoch t; tk_block := tk_block t; tk_content := tk_content t; tk_done := true |}, []) else None
  end.
Definition task_of (o : op) : option nat :=
  match o with Main => None | Begin i _ _ | Send i _ | Answer i _ _ _ | Next i | Wake i | Done i => Some i end.
Definition step (limit : nat) (g : gossip) (o : op) : option (gossip * list event) :=
  match task_of o with
  | None => main_step limit g
  | Some i => match nth_error (g_tasks g) i with Some t => task_step limit g i t o | None => None end
  end.
Definition next (limit : nat) (x : option (gossip * list event)) (o : op) : option (gossip * list event) :=
  match x with
  | Some (g, tr) => match step limit g o with Some (g', ev) => Some (g', tr ++ ev) | None => None end
  | None => None
  end.
Definition start (todo : list action) : gossip := {| g_todo := todo; g_tasks := []; g_report := {| accepted := 0; declined := 0; failed := 0 |} |}.
Definition run (limit : nat) (todo : list action) (ops : list op) : option (gossip * list event) := fold_left (next limit) ops (Some (start todo, [])).
End Tasks.
Arguments task : clear implicits.
Arguments event : clear implicits.
Arguments op : clear implicits.
Arguments action : clear implicits.
Arguments gossip : clear implicits.

(** ** The main loop *)
Section Bridge.
Context {tx rct wdl : Type}.
Context (HC : codec full_header) (HL : codec (list full_header)) (TC : codec tx) (RC : codec rct) (WC : codec wdl).
Context (keccak : bytes -> bytes) (trie_root : list bytes -> bytes) (sha : bytes -> bytes) (fk : forks).
Context (debug : bool) (pre_merge_roots roots_acc : list bytes).
Context (hp_unpack : bytes -> option (full_header * header_proof)) (b_unpack : bytes -> option (@block_body tx wdl)) (r_unpack : bytes -> option (list rct)).
Notation block := (@tuple3 (full_header * header_proof) (@block_body tx wdl) (list rct)).

(** types/range.rs:26-41: the entry for one epoch.  [epoch_first_block + 8192] overflows for the last epoch; without checks the result is right again after the subtraction. *)
Definition epoch_entry (first last e : N) : outcome (N * option (N * N)) :=
  if debug && (2 ^ 64 <=? e * 8192 + 8192) then Panic
  else if (first <=? e * 8192) && (e * 8192 + 8191 <=? last) then Ok (e, None)
  else Ok (e, Some (N.max first (e * 8192), N.min last (e * 8192 + 8191))).
(** types/range.rs:15-44 [block_range_to_epochs], in the order of the epochs *)
Definition block_range_to_epochs (first last : N) : outcome (list (N * option (N * N))) :=
  all_ok (map (epoch_entry first last) (numbers (first / 8192) (N.to_nat (last / 8192 + 1 - first / 8192)))).

(** utils.rs (e2store):24-52, 61-65, 86-101 [get_e2hs_files]: the keys of the map; [links] are the numbers in the links of the page.  That a link has no number is a panic (37-41). *)
Definition get_e2hs_files (links : outcome (list N)) : outcome (list N) :=
  obind links (fun l =>
    let keys := nodup N.eq_dec l in
    if (length keys =? 0)%nat then Err
    else if forallb (fun n => if in_dec N.eq_dec n keys then true else false) (numbers 0 (length keys)) then Ok keys else Err).

(** e2hs.rs (e2store):161-171 [iter_tuples]: the blocks up to the end or to a panic, and whether the end is reached *)
Fixpoint stream_tuples (n : nat) (rest : list entry) : list block * bool :=
  match n with
  | O => ([], true)
  | S n => match rest with
           | a :: b :: c :: rest' => match tuple3_from hp_unpack b_unpack r_unpack a b c with
                                     | Ok t => let (l, fine) := stream_tuples n rest' in (t :: l, fine)
                                     | _ => ([], false) end
           | _ => ([], false) end
  end.
Definition iter_tuples (buf : bytes) : outcome (list block * bool) :=
  obind (mem_deserialize buf) (fun es =>
    match es with
    | [] => Err
    | e0 :: rest => obind (index_from [65552] (last es e0)) (fun ix => Ok (stream_tuples (N.to_nat (ix_count ix)) rest))
    end).

(** e2hs.rs:231-252 [validate_block_tuple].  The summaries of the validator are empty and not used. *)
Definition validate_block_tuple (t : block) : outcome unit :=
  obind (match snd (u_header t) with
         | SummariesCapella _ | SummariesDeneb _ => Ok tt
         | p => snd (validate_header_with_proof sha fk (new_validator pre_merge_roots roots_acc) (Some []) (view HC keccak (fst (u_header t))) p)
         end) (fun _ =>
  if negb (validate_against_header HL TC WC keccak trie_root (u_body t) (fst (u_header t))) then Err
  else if beqb (receipts_trie_root RC trie_root (u_receipts t)) (receipts_root (fst (u_header t))) then Ok tt else Err).

(** 184-213: what the loop does with a block *)
Definition block_actions (e : N) (range : option (N * N)) (t : block) : list (action block) :=
  let skip := match range with Some (a, b) => (number (fst (u_header t)) <? a) || (b <? number (fst (u_header t))) | None => false end in
  if skip then []
  else match validate_block_tuple t with Ok _ => [Spawn e t] | Err => [] | Panic => [Crash] end.
(** 168-215 [gossip_epoch] and 217-229 [download_e2hs]; [get] is the answer of the server. *)
Definition epoch_actions (keys : list N) (get : N -> outcome bytes) (e : N) (range : option (N * N)) : list (action block) :=
  if in_dec N.eq_dec e keys then
    match obind (get e) iter_tuples with
    | Ok (ts, fine) => flat_map (block_actions e range) ts ++ (if fine then [] else [Crash])
    | _ => [Crash]
    end
  else [Crash].
(** 137-158: each epoch is started before the one before it is awaited. *)
Fixpoint epoch_loop (act : N -> option (N * N) -> list (action block)) (prev : option N) (order : list (N * option (N * N))) : list (action block) :=
  let wait := match prev with Some e => [Await e] | None => [] end in
  match order with
  | [] => wait ++ [Report]
  | (e, range) :: r => act e range ++ wait ++ epoch_loop act (Some e) r
  end.
(** 120-130.  The keys are consecutive, so the product is far below [2 ^ 64]. *)
Definition range_end (keys : list N) (last : option N) : outcome N :=
  match last with
  | Some n => Ok n
  | None => match keys with [] => Panic | k :: r => Ok ((fold_left N.max r k + 1) * 8192 - 1) end
  end.
(** 117-159 [launch]; [shuffle] is the order of the epochs: the sorted one, or any if [random_fill] is set. *)
Definition launch (keys : list N) (get : N -> outcome bytes) (first : N) (last : option N) (shuffle : list (N * option (N * N)) -> list (N * option (N * N))) : outcome (list (action block)) :=
  obind (range_end keys last) (fun last => omap (fun l => epoch_loop (epoch_actions keys get) None (shuffle l)) (block_range_to_epochs first last)).

(** 323-361: the keys and values of the contents *)
Definition block_msg (t : block) (w : nat) : legacy_key * bytes :=
  let h := hash_slow HC keccak (fst (u_header t)) in
  match w with
  | 0%nat => (BlockHeaderByHash h, encode_hwp HC (u_header t))
  | 1%nat => (BlockHeaderByNumber (number (fst (u_header t))), encode_hwp HC (u_header t))
  | 2%nat => (BlockBody h, encode_body HL TC WC (u_body t))
  | _ => (BlockReceipts h, encode_receipts RC (u_receipts t))
  end.
End Bridge.
