(** Uploading a history file in parts: /repo/bin/e2hs-writer/src/subcommands/head_generator/s3_bucket.rs:33-130.

    The bucket is modelled after the rules of S3: a part has a number from 1 to 10000, and an upload is completed if the list of its parts ascends, every part of the list is there
    with the tag of the list, and all but the last have 5 MiB.  Which requests fail, before or after they were carried out, and which answers lack the id or the tag is an
    argument ([fate]).  Other clients of the same bucket, and the retries of the AWS client, are not modelled. *)
From Verif Require Import Base Header_Model.

Inductive fate := Served | Bare (* carried out, the answer has no id or tag *) | Lost (* carried out, the answer does not come *) | Refused.
Record upload := { up_id : N; up_key : bytes; up_parts : list (N * bytes) (* the newest first *) }.
Record bucket := { objects : list (bytes * bytes) (* the newest first *); uploads : list upload; next_id : N }.
Definition object (b : bucket) (key : bytes) : option bytes :=
  option_map snd (find (fun o => if list_eq_dec N.eq_dec (fst o) key then true else false) (objects b)).
(** CreateMultipartUpload *)
Definition create (key : bytes) (f : fate) (b : bucket) : bucket * outcome (option N) :=
  match f with
  | Refused => (b, Err)
  | _ => ({| objects := objects b; uploads := {| up_id := next_id b; up_key := key; up_parts := [] |} :: uploads b; next_id := next_id b + 1 |},
          match f with Served => Ok (Some (next_id b)) | Bare => Ok None | _ => Err end)
  end.
Definition add_part (id n : N) (data : bytes) (u : upload) : upload :=
  if up_id u =? id then {| up_id := up_id u; up_key := up_key u; up_parts := (n, data) :: up_parts u |} else u.
Fixpoint ascending (l : list N) : bool := match l with a :: (b :: _) as r => (a <? b) && ascending r | _ => true end.
Definition min_part : N := 5242880.

Section Etag.
Variable etag : bytes -> N.
(** UploadPart *)
Definition put_part (id n : N) (data : bytes) (f : fate) (b : bucket) : bucket * outcome (option N) :=
  match f with
  | Refused => (b, Err)
  | _ => if (1 <=? n) && (n <=? 10000) && existsb (fun u => up_id u =? id) (uploads b)
         then ({| objects := objects b; uploads := map (add_part id n data) (uploads b); next_id := next_id b |},
               match f with Served => Ok (Some (etag data)) | Bare => Ok None | _ => Err end)
         else (b, Err)
  end.
Definition part_of (u : upload) (p : N * N) : option bytes :=
  match find (fun x => fst x =? fst p) (up_parts u) with Some (_, data) => if etag data =? snd p then Some data else None | None => None end.
Fixpoint parts_of (u : upload) (l : list (N * N)) : option (list bytes) :=
  match l with [] => Some [] | p :: l => match part_of u p, parts_of u l with Some d, Some ds => Some (d :: ds) | _, _ => None end end.
Definition assemble (u : upload) (l : list (N * N)) : option bytes :=
  match l, parts_of u l with
  | _ :: _, Some ds => if ascending (map fst l) && forallb (fun d => min_part <=? N.of_nat (length d)) (removelast ds) then Some (concat ds) else None
  | _, _ => None
  end.
(** CompleteMultipartUpload *)
Definition complete (id : N) (l : list (N * N)) (f : fate) (b : bucket) : bucket * outcome unit :=
  match f with
  | Refused => (b, Err)
  | _ => match find (fun u => up_id u =? id) (uploads b) with
         | None => (b, Err)
         | Some u => match assemble u l with
                     | None => (b, Err)
                     | Some o => ({| objects := (up_key u, o) :: objects b; uploads := filter (fun u => negb (up_id u =? id)) (uploads b); next_id := next_id b |},
                                  match f with Lost => Err | _ => Ok tt end)
                     end
         end
  end.

(** s3_bucket.rs:14 *)
Definition target_chunk_size : N := 104857600.
(** [usize::div_ceil] *)
Definition div_ceil (a b : N) : outcome N := if b =? 0 then Panic else Ok (a / b + (if a mod b =? 0 then 0 else 1)).
(** [slice::chunks] *)
Fixpoint chunks_from (fuel k : nat) (l : bytes) : list bytes :=
  match fuel, l with S f, _ :: _ => firstn k l :: chunks_from f k (skipn k l) | _, _ => [] end.
Definition chunks (k : N) (l : bytes) : outcome (list bytes) := if k =? 0 then Panic else Ok (chunks_from (length l) (N.to_nat k) l).
(** :59-60 *)
Definition chunk_size (size : N) : outcome N := obind (div_ceil size target_chunk_size) (fun part_count => div_ceil size part_count).
(** :80-112; a number [as i32]: the last 32 bits, those of negative numbers are over 10000 too *)
Fixpoint put_all (fates : N -> fate) (id n : N) (cs : list bytes) (completed : list (N * N)) (b : bucket) : bucket * outcome (list (N * N)) :=
  match cs with
  | [] => (b, Ok completed)
  | c :: cs => match put_part id (n mod 2 ^ 32) c (fates n) b with
               | (b, Ok (Some t)) => put_all fates id (n + 1) cs (completed ++ [(n mod 2 ^ 32, t)]) b
               | (b, Ok None) | (b, Err) => (b, Err)
               | (b, Panic) => (b, Panic)
               end
  end.
(** :37-130 [upload_file_from_path].  [name]: the name of the file, if the path has one; [file]: the length that its metadata give and what can be read of it then. *)
Definition upload_file (name : option bytes) (file : option (N * bytes)) (f_create f_complete : fate) (f_part : N -> fate) (b : bucket) : bucket * outcome unit :=
  match name, file with
  | Some key, Some (size, content) =>
      if N.of_nat (length content) <? size then (b, Err) else
      let data := firstn (N.to_nat size) content in
      match chunk_size size with
      | Err => (b, Err) | Panic => (b, Panic)
      | Ok k =>
          match create key f_create b with
          | (b, Ok (Some id)) =>
              match chunks k data with
              | Ok cs => match put_all f_part id 1 cs [] b with
                         | (b, Ok completed) => complete id completed f_complete b
                         | (b, Err) => (b, Err) | (b, Panic) => (b, Panic)
                         end
              | Err => (b, Err) | Panic => (b, Panic)
              end
          | (b, Panic) => (b, Panic)
          | (b, _) => (b, Err)
          end
      end
  | _, _ => (b, Err)
  end.
End Etag.
