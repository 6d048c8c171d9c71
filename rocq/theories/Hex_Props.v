(** Properties C05, C56, C57. *)
From Verif Require Import Base Distance_Model Distance_Spec Hex_Model Hex_Spec Hex_Proofs.

(** C05: what the node prints as hex is read back as the same bytes. *)
Theorem C05_hex_round_trip :
  forall data : bytes, bytes_ok data ->
    hex_decode (hex_encode data) = Ok data /\ hex_decode (hex_encode_upper data) = Ok data.
Proof. exact hex_round_trip. Qed.
Print Assumptions C05_hex_round_trip.

(** C05: the strings accepted are exactly 0x or 0X followed by pairs of hex digits. *)
Theorem C05_hex_decode_exact :
  forall s b : bytes,
    hex_decode s = Ok b <->
    exists x h, s = 48 :: x :: h /\ (x = 120 \/ x = 88) /\ hex_spells h b.
Proof. exact hex_decode_spec. Qed.
Print Assumptions C05_hex_decode_exact.

Theorem C05_hex_decode_total : forall s : bytes, hex_decode s <> Panic.
Proof. exact hex_decode_no_panic. Qed.
Print Assumptions C05_hex_decode_total.

(** C05: the compact form shows up to eight bytes in full; of longer data it shows the first
    two and the last two bytes, in at most twelve characters. *)
Theorem C05_hex_compact :
  forall data : bytes, bytes_ok data ->
    (blen data <= 8 -> hex_encode_compact data = hex_encode data) /\
    (8 < blen data -> forall a b mid c d, data = a :: b :: mid ++ [c; d] ->
       exists x y, hex_encode_compact data = 48 :: 120 :: x ++ 46 :: 46 :: y /\
         hex_spells x [a; b] /\ hex_spells y [c; d]).
Proof. exact hex_compact_spec. Qed.
Print Assumptions C05_hex_compact.

Example C05_compact_example :
  hex_encode_compact [1;2;3;4;5;6;7;8;171] = [48;120;48;49;48;50;46;46;48;56;97;98].
Proof. vm_compute. reflexivity. Qed.

Example C05_example :
  hex_encode [1; 171] = [48; 120; 48; 49; 97; 98] /\ hex_decode [48; 88; 65; 98] = Ok [171]
  /\ hex_decode [48; 120; 65] = Err /\ hex_decode [49; 120] = Err.
Proof. vm_compute. repeat split. Qed.

(** C56: a random node id generated for a routing table bucket falls into that bucket,
    whatever the random numbers are. *)
Theorem C56_random_id_in_bucket :
  forall (idx : N) (local rnd : bytes) (choice : N),
    idx <= 255 -> id32 local -> length rnd = 32%nat -> bytes_ok rnd ->
    random_choice_ok (255 - idx) choice ->
    let r := generate_random_node_id idx local rnd choice in
    id32 r /\ log2 (distance local r) = Some (idx + 1).
Proof. exact random_node_id_log2. Qed.
Print Assumptions C56_random_id_in_bucket.

Example C56_example :
  random_choice_ok (255 - 252) 17 /\
  log2 (distance (be_bytes 32 5) (generate_random_node_id 252 (be_bytes 32 5) (repeat 200 32%nat) 17)) = Some 253.
Proof. split; [unfold random_choice_ok; cbn; split; vm_compute; congruence|vm_compute; reflexivity]. Qed.

(** C57: the evenly spread random ids: 2^u of them, the i-th has i as its top u bits and
    keeps the random value in the other bits; the assertion fires above 8 bits. *)
Theorem C57_spread_ids :
  forall (u : N) (rnds : N -> bytes),
    u <= 8 -> (forall i, i < 2 ^ u -> id32 (rnds i)) ->
    exists ids, generate_random_node_ids u rnds = Ok ids /\
      blen ids = 2 ^ u /\
      (forall i, i < 2 ^ u -> exists x,
         nth_error ids (N.to_nat i) = Some x /\ id32 x /\
         be_num x / 2 ^ (256 - u) = i /\ be_num x mod 2 ^ (256 - u) = be_num (rnds i) mod 2 ^ (256 - u)).
Proof. exact random_ids_spec. Qed.
Print Assumptions C57_spread_ids.

Theorem C57_spread_ids_panic :
  forall (u : N) (rnds : N -> bytes), 8 < u -> generate_random_node_ids u rnds = Panic.
Proof. exact random_ids_panic. Qed.
Print Assumptions C57_spread_ids_panic.

Example C57_example :
  omap (map (firstn 2)) (generate_random_node_ids 2 (fun i => be_bytes 32 (2^256 - 1 - i)))
  = Ok [[63;255]; [127;255]; [191;255]; [255;255]].
Proof. vm_compute. reflexivity. Qed.
