(** Model of protox/src/file/descriptor_set.rs and of the prost functions it
    calls (prost::encoding::{decode_varint, decode_key, skip_field}, prost 0.13). *)
From Verif Require Import Base Utf8 Errors Lex Ast Comments Parse Lines Descriptor Generate ParseApi Paths Resolver.

(** prost::encoding::decode_varint: at most ten bytes, the tenth at most 1.
    [None] is [DecodeError]. [i] counts the bytes read so far. *)
Fixpoint decode_varint_from (fuel : nat) (i : N) (acc : N) (buf : bytes) : option (N * bytes) :=
  match fuel with
  | O => None
  | S f =>
    match buf with
    | [] => None
    | c :: r =>
      if c <? 128 then
        if (i =? 9) && (1 <? c) then None else Some (acc + c * 2 ^ (7 * i), r)
      else decode_varint_from f (i + 1) (acc + (c - 128) * 2 ^ (7 * i)) r
    end
  end.
Definition decode_varint (buf : bytes) : option (N * bytes) := decode_varint_from 10 0 0 buf.

Inductive wire : Type := WVarint | W64 | WLen | WStart | WEnd | W32.
(** WireType::try_from *)
Definition wire_of (n : N) : option wire :=
  if n =? 0 then Some WVarint else if n =? 1 then Some W64 else if n =? 2 then Some WLen
  else if n =? 3 then Some WStart else if n =? 4 then Some WEnd else if n =? 5 then Some W32 else None.

(** prost::encoding::decode_key: the key fits u32, the tag is at least 1. *)
Definition decode_key (buf : bytes) : option (N * wire * bytes) :=
  match decode_varint buf with
  | Some (key, r) =>
    if 4294967295 <? key then None
    else match wire_of (key mod 8) with
         | Some w => if key / 8 =? 0 then None else Some (key / 8, w, r)
         | None => None
         end
  | None => None
  end.

(** [buf.advance(len)] after the check against [buf.remaining()]. *)
Definition advance (n : N) (buf : bytes) : option bytes :=
  if len buf <? n then None else Some (skipn (N.to_nat n) buf).

(** prost::encoding::skip_field; [depth] is the recursion limit left (100 in
    [DecodeContext::default()]). The inner [loop] of a group is
    [skip_group]; [fuel] bounds its iterations (each consumes input). *)
Fixpoint skip_field (fuel depth : nat) (w : wire) (tag : N) (buf : bytes) {struct fuel} : option bytes :=
  match fuel with
  | O => None
  | S f =>
    match depth with
    | O => None
    | S d =>
      match w with
      | WVarint => match decode_varint buf with Some (_, r) => advance 0 r | None => None end
      | W32 => advance 4 buf
      | W64 => advance 8 buf
      | WLen => match decode_varint buf with Some (n, r) => advance n r | None => None end
      | WStart =>
        (fix group (n : nat) (buf : bytes) : option bytes :=
           match n with
           | O => None
           | S n' =>
             match decode_key buf with
             | None => None
             | Some (t, WEnd, r) => if t =? tag then advance 0 r else None
             | Some (t, w', r) =>
               match skip_field f d w' t r with
               | None => None
               | Some r' => group n' r'
               end
             end
           end) (S (length buf)) buf
      | WEnd => None
      end
    end
  end.

(** prost's [RECURSION_LIMIT]. *)
Definition recursion_limit : nat := 100.

Section DescSet.
(** [FileDescriptorProto::decode], an oracle. *)
Variable fdp_decode : bytes -> option file_desc.

(** descriptor_set.rs:44-65 [DescriptorSetFileResolver::decode];
    descriptor_set.rs:86-94 [FileDescriptor::decode]. An entry is the decoded
    file and its bytes. *)
Fixpoint decode_set (fuel : nat) (buf : bytes) (set : list (file_desc * option bytes))
  : option (list (file_desc * option bytes)) :=
  match buf with
  | [] => Some set
  | _ =>
    match fuel with
    | O => None
    | S f =>
      match decode_key buf with
      | None => None
      | Some (key, w, r) =>
        if key =? 1 then
          match w with
          | WLen =>
            match decode_varint r with
            | None => None
            | Some (n, r') =>
              if len r' <? n then None
              else let enc := firstn (N.to_nat n) r' in
                   match fdp_decode enc with
                   | None => None
                   | Some d => decode_set f (skipn (N.to_nat n) r') (set ++ [(d, Some enc)])
                   end
            end
          | _ => None
          end
        else match skip_field (S recursion_limit) recursion_limit w key r with
             | None => None
             | Some r' => decode_set f r' set
             end
      end
    end
  end.
Definition desc_set_decode (buf : bytes) : option (list (file_desc * option bytes)) :=
  decode_set (length buf) buf [].

(** file/mod.rs:218-230 [File::decode_file_descriptor_proto] *)
Definition file_decode (buf : bytes) : option pfile :=
  match fdp_decode buf with
  | Some d => Some {| pf_path := None; pf_source := None; pf_desc := d; pf_encoded := Some buf |}
  | None => None
  end.
End DescSet.

(** descriptor_set.rs:27-38 [new] *)
Definition desc_set_new (files : list file_desc) : list (file_desc * option bytes) :=
  map (fun d => (d, None)) files.

(** descriptor_set.rs:68-83 [open_file] *)
Fixpoint desc_set_open (set : list (file_desc * option bytes)) (name : bytes) : result pfile :=
  match set with
  | [] => Done (inr (EFileNotFound name))
  | (d, e) :: r =>
    if bytes_eqb (fd_name d) name
    then Done (inl {| pf_path := None; pf_source := None; pf_desc := d; pf_encoded := e |})
    else desc_set_open r name
  end.
Definition desc_set_resolver (set : list (file_desc * option bytes)) : resolver :=
  {| r_resolve := fun _ => None; r_open := desc_set_open set |}.
