(** SSZ containers, lists and unions as implemented by the [ethereum_ssz] crate that the
    repository uses for all its wire and database formats (crates/ethportal-api/Cargo.toml;
    [ssz::Encode], [ssz::Decode] and the derive macros).  The crate itself is outside /repo; this
    is a model of its encoder and of [SszDecoderBuilder], [sanitize_offset],
    [decode_list_of_variable_length_items] and [split_union_bytes], with panicking slice
    accesses explicit.  Error kinds are collapsed into [Err]. *)
From Verif Require Import Base.

(** [&b[from..to]]: panics when out of range. *)
Definition slice (b : bytes) (from to : N) : outcome bytes :=
  if (from <=? to) && (to <=? blen b)
  then Ok (firstn (N.to_nat (to - from)) (skipn (N.to_nat from) b)) else Panic.
(** [b.get(from..to)] *)
Definition slice_get (b : bytes) (from to : N) : outcome bytes :=
  if (from <=? to) && (to <=? blen b)
  then Ok (firstn (N.to_nat (to - from)) (skipn (N.to_nat from) b)) else Err.

(** [read_offset]: the first four bytes. *)
Definition read_offset (b : bytes) : outcome N :=
  if blen b <? 4 then Err else Ok (le_num (firstn 4 b)).

(** [sanitize_offset] *)
Definition sanitize_offset (offset : N) (previous : option N) (num_bytes : N) (num_fixed : option N) : outcome N :=
  if match num_fixed with Some f => offset <? f | None => false end then Err
  else if match previous, num_fixed with None, Some f => negb (offset =? f) | _, _ => false end then Err
  else if num_bytes <? offset then Err
  else if match previous with Some p => offset <? p | None => false end then Err
  else Ok offset.

(** One field of a container: of fixed length, or variable and reached through an offset. *)
Inductive part := PFix (b : bytes) | PVar (b : bytes).
Definition part_bytes (p : part) : bytes := match p with PFix b | PVar b => b end.
Definition part_head_len (p : part) : N := match p with PFix b => blen b | PVar _ => 4 end.
Fixpoint heads_len (ps : list part) : N :=
  match ps with [] => 0 | p :: r => part_head_len p + heads_len r end.
Fixpoint heads (off : N) (ps : list part) : bytes :=
  match ps with
  | [] => []
  | PFix b :: r => b ++ heads off r
  | PVar b :: r => le_bytes 4 off ++ heads (off + blen b) r
  end.
Fixpoint tails (ps : list part) : bytes :=
  match ps with
  | [] => []
  | PFix _ :: r => tails r
  | PVar b :: r => b ++ tails r
  end.
(** [SszEncoder]: offsets are written as four bytes (truncated if they do not fit). *)
Definition encode_container (ps : list part) : bytes := heads (heads_len ps) ps ++ tails ps.

(** [SszDecoderBuilder::register_type] for each field in turn: [index] is [items_index],
    [last] the last offset; fixed fields are sliced out, variable ones recorded. *)
Fixpoint register (b : bytes) (index : N) (last : option N) (fields : list (option N))
  : outcome (N * list (bytes + N)) :=
  match fields with
  | [] => Ok (index, [])
  | Some n :: r =>
      obind (slice_get b index (index + n)) (fun s =>
      obind (register b (index + n) last r) (fun x => Ok (fst x, inl s :: snd x)))
  | None :: r =>
      obind (slice b index (blen b)) (fun rest =>
      obind (read_offset rest) (fun o =>
      obind (sanitize_offset o last (blen b) None) (fun o =>
      obind (register b (index + 4) (Some o) r) (fun x => Ok (fst x, inr o :: snd x)))))
  end.
Fixpoint first_offset (l : list (bytes + N)) : option N :=
  match l with [] => None | inr o :: _ => Some o | inl _ :: r => first_offset r end.
(** [SszDecoderBuilder::finalize]: every variable field extends to the next offset, the last
    one to the end. *)
Fixpoint fill (b : bytes) (l : list (bytes + N)) : outcome (list bytes) :=
  match l with
  | [] => Ok []
  | inl s :: r => obind (fill b r) (fun x => Ok (s :: x))
  | inr o :: r =>
      obind (slice b o (match first_offset r with Some o2 => o2 | None => blen b end)) (fun s =>
      obind (fill b r) (fun x => Ok (s :: x)))
  end.
(** Decoding a container: [Some n] is a field of [n] bytes, [None] a variable one. *)
Definition decode_container (fields : list (option N)) (b : bytes) : outcome (list bytes) :=
  obind (register b 0 None fields) (fun x =>
    match first_offset (snd x) with
    | Some o => if o =? fst x then fill b (snd x) else Err
    | None => if fst x =? blen b then fill b (snd x) else Err
    end).

(** A list whose items have variable length is laid out like a container of variable fields. *)
Definition encode_var_list (items : list bytes) : bytes := encode_container (map PVar items).

(** [decode_list_of_variable_length_items]: the loop over [i] in [1..=num_items]; [todo] counts
    the remaining iterations. *)
Fixpoint var_items (b : bytes) (first : N) (i : N) (offset : N) (todo : nat) : outcome (list bytes) :=
  match todo with
  | O => Ok []
  | S O => obind (slice_get b offset (blen b)) (fun s => Ok [s])
  | S t =>
      obind (slice b (4 * i) (blen b)) (fun rest =>
      obind (read_offset rest) (fun next =>
      obind (sanitize_offset next (Some offset) (blen b) (Some first)) (fun next =>
      obind (slice_get b offset next) (fun s =>
      obind (var_items b first (i + 1) next t) (fun x => Ok (s :: x))))))
  end.
Definition decode_var_list (max_len : option N) (b : bytes) : outcome (list bytes) :=
  match b with
  | [] => Ok []
  | _ =>
      obind (read_offset b) (fun first =>
      obind (sanitize_offset first None (blen b) (Some first)) (fun first =>
        if negb (first mod 4 =? 0) || (first <? 4) then Err
        else if match max_len with Some m => m <? first / 4 | None => false end then Err
        else var_items b first 1 first (N.to_nat (first / 4))))
  end.

(** A list of items of [n] bytes each ([slice::chunks], every chunk must be complete). *)
Fixpoint chunks (fuel : nat) (n : nat) (b : bytes) : outcome (list bytes) :=
  match b, fuel with
  | [], _ => Ok []
  | _, O => Err
  | _, S f =>
      if (length b <? n)%nat then Err
      else obind (chunks f n (skipn n b)) (fun x => Ok (firstn n b :: x))
  end.
Definition decode_fixed_list (n : nat) (max_len : option N) (b : bytes) : outcome (list bytes) :=
  if match max_len with Some m => m <? blen b / N.of_nat n | None => false end then Err
  else chunks (length b) n b.

(** [uN::from_ssz_bytes]: exactly [n] bytes. *)
Definition decode_uint (n : nat) (b : bytes) : outcome N :=
  if Nat.eqb (length b) n then Ok (le_num b) else Err.

(** [split_union_bytes]: the selector and the rest; selectors above 127 are refused. *)
Definition split_union (b : bytes) : outcome (N * bytes) :=
  match b with
  | [] => Err
  | s :: rest => if s <=? 127 then Ok (s, rest) else Err
  end.
