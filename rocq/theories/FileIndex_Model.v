(** The pages that list era, era1, e2hs and e2ss files: /repo/crates/e2store/src/utils.rs.

    Arguments: what the server sends and the HTML parser make of a page, [page]: the values of [href] of its links, [None] if the request fails; and [resolve], which makes
    a URL of the address of the page and a link.  A map is the list of what was inserted.  The order of a hash map's values is an argument, as is the shuffling. *)
From Coq Require Import String Ascii.
From Verif Require Import Base Header_Model Ping_Model Args_Model Trie_Model.

(** The selector of :30, a[href*='mainnet-'] *)
Fixpoint begins (p s : bytes) : bool := match p, s with [], _ => true | x :: p, y :: s => (x =? y) && begins p s | _ :: _, [] => false end.
Fixpoint holds (p s : bytes) : bool := begins p s || match s with [] => false | _ :: r => holds p r end.
Definition marked (href : bytes) : bool := holds (lit "mainnet-") href.
(** :38-43 *)
Definition epoch_index (href : bytes) : outcome N :=
  match split 45 href with
  | _ :: e :: _ => match parse_u64 e with Some n => Ok n | None => Panic end
  | _ => Panic
  end.
Definition files := list (N * bytes).
(** [HashMap::get] after [collect]: what was inserted last *)
Definition file (l : files) (n : N) : option bytes := option_map snd (find (fun x => fst x =? n) (rev l)).
(** The keys of the map, each once *)
Definition indices (l : files) : list N := nodup N.eq_dec (map fst l).

Section Pages.
Variable resolve : bytes -> option bytes.
(** :33-50 *)
Definition link (href : bytes) : outcome (N * bytes) :=
  obind (epoch_index href) (fun n => match resolve href with Some u => Ok (n, u) | None => Panic end).
(** :24-53 [download_e2store_links] *)
Definition download_links (page : option (list bytes)) : outcome files :=
  match page with None => Err | Some hrefs => all_ok (map link (filter marked hrefs)) end.
(** :86-102 [assert_nonempty_and_consecutive_epochs] *)
Definition check_epochs (l : files) : outcome files :=
  if (length (indices l) =? 0)%nat then Err
  else if forallb (fun i => match file l (N.of_nat i) with Some _ => true | None => false end) (seq 0 (length (indices l))) then Ok l else Err.
(** :55-59, 61-65, 67-79, 81-84 *)
Definition get_era_files (page : option (list bytes)) : outcome files := obind (download_links page) check_epochs.
Definition get_e2hs_files (page : option (list bytes)) : outcome files := obind (download_links page) check_epochs.
Definition era1_file_count : nat := 1897.
Definition get_era1_files (page : option (list bytes)) : outcome files :=
  obind (download_links page) (fun l => if (length (indices l) =? era1_file_count)%nat then check_epochs l else Err).
Definition get_e2ss_files (page : option (list bytes)) : outcome files := download_links page.
(** :105-110 [get_shuffled_era1_files]; [order]: the keys in the order in which their values come *)
Definition get_shuffled_era1_files (order : list N -> list N) (page : option (list bytes)) : outcome (list bytes) :=
  omap (fun l => flat_map (fun n => match file l n with Some u => [u] | None => [] end) (order (indices l))) (get_era1_files page).
End Pages.
