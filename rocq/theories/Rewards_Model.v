(** The fork schedule and what a block credits to accounts after its transactions:
    /repo/crates/evm/src/spec_id.rs and
    /repo/bin/trin-execution/src/evm/{post_block_beneficiaries,dao_fork}.rs, with
    [increment_balances] of block_executor.rs:99-104.

    Balances are a function from addresses to numbers.  [State::drain_balances] and
    [State::increment_balances] are of the [revm] crate, outside /repo; they are modelled after
    their documentation (drain: set to zero and return what was there, which must fit a [u128];
    increment: skip zero, add saturating at 2^256 - 1).  Arithmetic that overflows panics (a
    release build would wrap). *)
From Verif Require Import Base.

(** [revm_primitives::hardfork::SpecId], in its order. *)
Inductive spec_id :=
| FRONTIER | FRONTIER_THAWING | HOMESTEAD | DAO_FORK | TANGERINE | SPURIOUS_DRAGON | BYZANTIUM
| CONSTANTINOPLE | PETERSBURG | ISTANBUL | MUIR_GLACIER | BERLIN | LONDON | ARROW_GLACIER
| GRAY_GLACIER | MERGE | SHANGHAI | CANCUN | PRAGUE.
(** The discriminants. *)
Definition spec_rank (s : spec_id) : N :=
  match s with
  | FRONTIER => 0 | FRONTIER_THAWING => 1 | HOMESTEAD => 2 | DAO_FORK => 3 | TANGERINE => 4
  | SPURIOUS_DRAGON => 5 | BYZANTIUM => 6 | CONSTANTINOPLE => 7 | PETERSBURG => 8 | ISTANBUL => 9
  | MUIR_GLACIER => 10 | BERLIN => 11 | LONDON => 12 | ARROW_GLACIER => 13 | GRAY_GLACIER => 14
  | MERGE => 15 | SHANGHAI => 16 | CANCUN => 17 | PRAGUE => 18
  end.
(** [PartialEq] *)
Definition spec_eqb (a b : spec_id) : bool := spec_rank a =? spec_rank b.
(** [SpecId::is_enabled_in] *)
Definition is_enabled_in (s other : spec_id) : bool := spec_rank other <=? spec_rank s.

(** spec_id.rs:4-23 [SPEC_FORK_BLOCK_NUMBER] *)
Definition spec_fork_block_number : list (spec_id * N) :=
  [(FRONTIER, 0);
   (FRONTIER_THAWING, 200000);
   (HOMESTEAD, 1150000);
   (DAO_FORK, 1920000);
   (TANGERINE, 2463000);
   (SPURIOUS_DRAGON, 2675000);
   (BYZANTIUM, 4370000);
   (CONSTANTINOPLE, 7280000);
   (PETERSBURG, 7280000);
   (ISTANBUL, 9069000);
   (MUIR_GLACIER, 9200000);
   (BERLIN, 12244000);
   (LONDON, 12965000);
   (ARROW_GLACIER, 13773000);
   (GRAY_GLACIER, 15050000);
   (MERGE, 15537394);
   (SHANGHAI, 17034870);
   (CANCUN, 19426587)].
(** spec_id.rs:25-32 [get_spec_id] *)
Fixpoint first_reached (l : list (spec_id * N)) (block_number : N) : spec_id :=
  match l with
  | [] => PRAGUE
  | (s, b) :: r => if b <=? block_number then s else first_reached r block_number
  end.
Definition get_spec_id (block_number : N) : spec_id := first_reached (rev spec_fork_block_number) block_number.
(** spec_id.rs:34-43 [get_spec_block_number] *)
Definition get_spec_block_number (s : spec_id) : outcome N :=
  match find (fun x => spec_eqb (fst x) s) spec_fork_block_number with
  | Some (_, b) => Ok b
  | None => Panic
  end.

(** crates/evm/src/tx_env_modifier.rs:14-37 [TxLegacy::modify]: the chain id of a legacy transaction. *)
Definition legacy_chain_id (block_number : N) : option N :=
  if is_enabled_in (get_spec_id block_number) SPURIOUS_DRAGON then Some 1 else None.
(** crates/evm/src/lib.rs:27-32: [prevrandao] of [create_block_env]. *)
Definition prevrandao (block_number : N) (mix_hash : bytes) : option bytes :=
  if is_enabled_in (get_spec_id block_number) MERGE then Some mix_hash else None.

(** What [process_block_rewards] and [process_withdrawals] read of a block
    (e2hs/types.rs:35-40 [ProcessedBlock]). *)
Record header := { number : N; beneficiary : N }.
Record withdrawal := { w_address : N; w_amount : N }.
Record block := { b_header : header; b_uncles : option (list header); b_withdrawals : option (list withdrawal) }.

(** A [HashMap<Address, u128>]; the newest entry for an address is the one that counts. *)
Definition amounts := list (N * N).
Definition amount_of (m : amounts) (a : N) : N :=
  match find (fun x => fst x =? a) m with Some (_, v) => v | None => 0 end.
(** [*beneficiaries.entry(a).or_default() += v] on [u128] *)
Definition credit (m : amounts) (a v : N) : outcome amounts :=
  if amount_of m a + v <? 2 ^ 128
  then Ok ((a, amount_of m a + v) :: filter (fun x => negb (fst x =? a)) m)
  else Panic.

(** alloy's constants *)
Definition eth_to_wei : N := 10 ^ 18.
Definition gwei_to_wei : N := 10 ^ 9.

(** post_block_beneficiaries.rs:17-27: the reward of a block; [None] after the merge. *)
Definition base_block_reward (n : N) : outcome (option N) :=
  obind (get_spec_block_number MERGE) (fun merge =>
  if merge <=? n then Ok None
  else obind (get_spec_block_number CONSTANTINOPLE) (fun constantinople =>
    if constantinople <=? n then Ok (Some (eth_to_wei * 2))
    else obind (get_spec_block_number BYZANTIUM) (fun byzantium =>
      if byzantium <=? n then Ok (Some (eth_to_wei * 3)) else Ok (Some (eth_to_wei * 5))))).
(** post_block_beneficiaries.rs:31-32: [((8 + uncle.number - block.number) as u128 * base) >> 3],
    the sum and the difference on [u64]. *)
Definition uncle_reward (base number uncle : N) : outcome N :=
  if (8 + uncle <? 2 ^ 64) && (number <=? 8 + uncle)
  then Ok (N.shiftr ((8 + uncle - number) * base) 3)
  else Panic.
(** post_block_beneficiaries.rs:30-33 *)
Fixpoint reward_uncles (base number : N) (uncles : list header) (m : amounts) : outcome amounts :=
  match uncles with
  | [] => Ok m
  | u :: r =>
      obind (uncle_reward base number (Rewards_Model.number u)) (fun v =>
      obind (credit m (beneficiary u) v) (reward_uncles base number r))
  end.
(** post_block_beneficiaries.rs:16-38 [process_block_rewards] *)
Definition process_block_rewards (b : block) (m : amounts) : outcome amounts :=
  obind (base_block_reward (number (b_header b))) (fun base =>
  match base, b_uncles b with
  | Some base, Some uncles =>
      obind (reward_uncles base (number (b_header b)) uncles m) (fun m =>
        credit m (beneficiary (b_header b)) (base + N.shiftr base 5 * blen uncles))
  | _, _ => Ok m
  end).
(** post_block_beneficiaries.rs:40-50 [process_withdrawals] *)
Fixpoint pay_withdrawals (l : list withdrawal) (m : amounts) : outcome amounts :=
  match l with
  | [] => Ok m
  | w :: r =>
      if w_amount w =? 0 then pay_withdrawals r m
      else obind (credit m (w_address w) (w_amount w * gwei_to_wei)) (pay_withdrawals r)
  end.
Definition process_withdrawals (b : block) (m : amounts) : outcome amounts :=
  match b_withdrawals b with Some l => pay_withdrawals l m | None => Ok m end.

Definition balances := N -> N.
Definition set_balance (s : balances) (a v : N) : balances := fun x => if x =? a then v else s x.
(** [State::drain_balances]: [u128::try_from(balance).unwrap()] of each. *)
Fixpoint drain_balances (s : balances) (l : list N) : outcome (balances * list N) :=
  match l with
  | [] => Ok (s, [])
  | a :: r =>
      if s a <? 2 ^ 128
      then omap (fun x => (fst x, s a :: snd x)) (drain_balances (set_balance s a 0) r)
      else Panic
  end.
(** [iter().sum()] on [u128] *)
Fixpoint sum128 (acc : N) (l : list N) : outcome N :=
  match l with
  | [] => Ok acc
  | x :: r => if acc + x <? 2 ^ 128 then sum128 (acc + x) r else Panic
  end.
(** [State::increment_balances] *)
Definition max_u256 : N := 2 ^ 256 - 1.
Fixpoint increment_balances (s : balances) (l : amounts) : balances :=
  match l with
  | [] => s
  | (a, v) :: r =>
      increment_balances (if v =? 0 then s else set_balance s a (N.min (s a + v) max_u256)) r
  end.

(** dao_fork.rs:7 [DAO_HARDFORK_BENEFICIARY] *)
Definition dao_beneficiary : N := 0xbf4ed7b27f1d666546e30d74d50d173d20bca754.
(** dao_fork.rs:10-127 [DAO_HARDKFORK_ACCOUNTS] *)
Definition dao_accounts : list N :=
  [0xd4fe7bc31cedb7bfb8a345f31e668033056b2728;
   0xb3fb0e5aba0e20e5c49d252dfd30e102b171a425;
   0x2c19c7f9ae8b751e37aeb2d93a699722395ae18f;
   0xecd135fa4f61a655311e86238c92adcd779555d2;
   0x1975bd06d486162d5dc297798dfc41edd5d160a7;
   0xa3acf3a1e16b1d7c315e23510fdd7847b48234f6;
   0x319f70bab6845585f412ec7724b744fec6095c85;
   0x06706dd3f2c9abf0a21ddcc6941d9b86f0596936;
   0x5c8536898fbb74fc7445814902fd08422eac56d0;
   0x6966ab0d485353095148a2155858910e0965b6f9;
   0x779543a0491a837ca36ce8c635d6154e3c4911a6;
   0x2a5ed960395e2a49b1c758cef4aa15213cfd874c;
   0x5c6e67ccd5849c0d29219c4f95f1a7a93b3f5dc5;
   0x9c50426be05db97f5d64fc54bf89eff947f0a321;
   0x200450f06520bdd6c527622a273333384d870efb;
   0xbe8539bfe837b67d1282b2b1d61c3f723966f049;
   0x6b0c4d41ba9ab8d8cfb5d379c69a612f2ced8ecb;
   0xf1385fb24aad0cd7432824085e42aff90886fef5;
   0xd1ac8b1ef1b69ff51d1d401a476e7e612414f091;
   0x8163e7fb499e90f8544ea62bbf80d21cd26d9efd;
   0x51e0ddd9998364a2eb38588679f0d2c42653e4a6;
   0x627a0a960c079c21c34f7612d5d230e01b4ad4c7;
   0xf0b1aa0eb660754448a7937c022e30aa692fe0c5;
   0x24c4d950dfd4dd1902bbed3508144a54542bba94;
   0x9f27daea7aca0aa0446220b98d028715e3bc803d;
   0xa5dc5acd6a7968a4554d89d65e59b7fd3bff0f90;
   0xd9aef3a1e38a39c16b31d1ace71bca8ef58d315b;
   0x63ed5a272de2f6d968408b4acb9024f4cc208ebf;
   0x6f6704e5a10332af6672e50b3d9754dc460dfa4d;
   0x77ca7b50b6cd7e2f3fa008e24ab793fd56cb15f6;
   0x492ea3bb0f3315521c31f273e565b868fc090f17;
   0x0ff30d6de14a8224aa97b78aea5388d1c51c1f00;
   0x9ea779f907f0b315b364b0cfc39a0fde5b02a416;
   0xceaeb481747ca6c540a000c1f3641f8cef161fa7;
   0xcc34673c6c40e791051898567a1222daf90be287;
   0x579a80d909f346fbfb1189493f521d7f48d52238;
   0xe308bd1ac5fda103967359b2712dd89deffb7973;
   0x4cb31628079fb14e4bc3cd5e30c2f7489b00960c;
   0xac1ecab32727358dba8962a0f3b261731aad9723;
   0x4fd6ace747f06ece9c49699c7cabc62d02211f75;
   0x440c59b325d2997a134c2c7c60a8c61611212bad;
   0x4486a3d68fac6967006d7a517b889fd3f98c102b;
   0x9c15b54878ba618f494b38f0ae7443db6af648ba;
   0x27b137a85656544b1ccb5a0f2e561a5703c6a68f;
   0x21c7fdb9ed8d291d79ffd82eb2c4356ec0d81241;
   0x23b75c2f6791eef49c69684db4c6c1f93bf49a50;
   0x1ca6abd14d30affe533b24d7a21bff4c2d5e1f3b;
   0xb9637156d330c0d605a791f1c31ba5890582fe1c;
   0x6131c42fa982e56929107413a9d526fd99405560;
   0x1591fc0f688c81fbeb17f5426a162a7024d430c2;
   0x542a9515200d14b68e934e9830d91645a980dd7a;
   0xc4bbd073882dd2add2424cf47d35213405b01324;
   0x782495b7b3355efb2833d56ecb34dc22ad7dfcc4;
   0x58b95c9a9d5d26825e70a82b6adb139d3fd829eb;
   0x3ba4d81db016dc2890c81f3acec2454bff5aada5;
   0xb52042c8ca3f8aa246fa79c3feaa3d959347c0ab;
   0xe4ae1efdfc53b73893af49113d8694a057b9c0d1;
   0x3c02a7bc0391e86d91b7d144e61c2c01a25a79c5;
   0x0737a6b837f97f46ebade41b9bc3e1c509c85c53;
   0x97f43a37f595ab5dd318fb46e7a155eae057317a;
   0x52c5317c848ba20c7504cb2c8052abd1fde29d03;
   0x4863226780fe7c0356454236d3b1c8792785748d;
   0x5d2b2e6fcbe3b11d26b525e085ff818dae332479;
   0x5f9f3392e9f62f63b8eac0beb55541fc8627f42c;
   0x057b56736d32b86616a10f619859c6cd6f59092a;
   0x9aa008f65de0b923a2a4f02012ad034a5e2e2192;
   0x304a554a310c7e546dfe434669c62820b7d83490;
   0x914d1b8b43e92723e64fd0a06f5bdb8dd9b10c79;
   0x4deb0033bb26bc534b197e61d19e0733e5679784;
   0x07f5c1e1bc2c93e0402f23341973a0e043f7bf8a;
   0x35a051a0010aba705c9008d7a7eff6fb88f6ea7b;
   0x4fa802324e929786dbda3b8820dc7834e9134a2a;
   0x9da397b9e80755301a3b32173283a91c0ef6c87e;
   0x8d9edb3054ce5c5774a420ac37ebae0ac02343c6;
   0x0101f3be8ebb4bbd39a2e3b9a3639d4259832fd9;
   0x5dc28b15dffed94048d73806ce4b7a4612a1d48f;
   0xbcf899e6c7d9d5a215ab1e3444c86806fa854c76;
   0x12e626b0eebfe86a56d633b9864e389b45dcb260;
   0xa2f1ccba9395d7fcb155bba8bc92db9bafaeade7;
   0xec8e57756626fdc07c63ad2eafbd28d08e7b0ca5;
   0xd164b088bd9108b60d0ca3751da4bceb207b0782;
   0x6231b6d0d5e77fe001c2a460bd9584fee60d409b;
   0x1cba23d343a983e9b5cfd19496b9a9701ada385f;
   0xa82f360a8d3455c5c41366975bde739c37bfeb8a;
   0x9fcd2deaff372a39cc679d5c5e4de7bafb0b1339;
   0x005f5cee7a43331d5a3d3eec71305925a62f34b6;
   0x0e0da70933f4c7849fc0d203f5d1d43b9ae4532d;
   0xd131637d5275fd1a68a3200f4ad25c71a2a9522e;
   0xbc07118b9ac290e4622f5e77a0853539789effbe;
   0x47e7aa56d6bdf3f36be34619660de61275420af8;
   0xacd87e28b0c9d1254e868b81cba4cc20d9a32225;
   0xadf80daec7ba8dcf15392f1ac611fff65d94f880;
   0x5524c55fb03cf21f549444ccbecb664d0acad706;
   0x40b803a9abce16f50f36a77ba41180eb90023925;
   0xfe24cdd8648121a43a7c86d289be4dd2951ed49f;
   0x17802f43a0137c506ba92291391a8a8f207f487d;
   0x253488078a4edf4d6f42f113d1e62836a942cf1a;
   0x86af3e9626fce1957c82e88cbf04ddf3a2ed7915;
   0xb136707642a4ea12fb4bae820f03d2562ebff487;
   0xdbe9b615a3ae8709af8b93336ce9b477e4ac0940;
   0xf14c14075d6c4ed84b86798af0956deef67365b5;
   0xca544e5c4687d109611d0f8f928b53a25af72448;
   0xaeeb8ff27288bdabc0fa5ebb731b6f409507516c;
   0xcbb9d3703e651b0d496cdefb8b92c25aeb2171f7;
   0x6d87578288b6cb5549d5076a207456a1f6a63dc0;
   0xb2c6f0dfbb716ac562e2d85d6cb2f8d5ee87603e;
   0xaccc230e8a6e5be9160b8cdf2864dd2a001c28b6;
   0x2b3455ec7fedf16e646268bf88846bd7a2319bb2;
   0x4613f3bca5c44ea06337a9e439fbc6d42e501d0a;
   0xd343b217de44030afaa275f54d31a9317c7f441e;
   0x84ef4b2357079cd7a7c69fd7a37cd0609a679106;
   0xda2fef9e4a3230988ff17df2165440f37e8b1708;
   0xf4c64518ea10f995918a454158c6b61407ea345c;
   0x7602b46df5390e432ef1c307d4f2c9ff6d65cc97;
   0xbb9bc244d798123fde783fcc1c72d3bb8c189413;
   0x807640a13483f8ac783c557fcdf27be11ea4ac7a].

(** post_block_beneficiaries.rs:52-67 [process_dao_fork] *)
Definition process_dao_fork (b : block) (s : balances) (m : amounts) : outcome (balances * amounts) :=
  obind (get_spec_block_number DAO_FORK) (fun dao =>
  if number (b_header b) =? dao then
    obind (drain_balances s dao_accounts) (fun x =>
    obind (sum128 0 (snd x)) (fun total =>
      omap (fun m => (fst x, m)) (credit m dao_beneficiary total)))
  else Ok (s, m)).
(** post_block_beneficiaries.rs:69-78 [get_post_block_beneficiaries], then block_executor.rs:203-204.
    [order]: the map is visited in any order. *)
Definition post_block (order : amounts -> amounts) (b : block) (s : balances) : outcome balances :=
  obind (process_block_rewards b []) (fun m =>
  obind (process_withdrawals b m) (fun m =>
  omap (fun x => increment_balances (fst x) (order (snd x))) (process_dao_fork b s m))).
