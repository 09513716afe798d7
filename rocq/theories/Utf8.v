(** UTF-8: [core::str::from_utf8], [String::from_utf8_lossy],
    [char::encode_utf8], [char::from_u32] and the Unicode [White_Space]
    property used by [str::trim_start]. These are Rust standard library
    functions, modelled from the Unicode standard (Table 3-7). *)
From Verif Require Import Base.

Definition is_cont (c : N) : bool := in_range 128 191 c.

(** One well-formed sequence at the head of [l]: number of bytes, or [None]. *)
Definition utf8_step (l : bytes) : option nat :=
  match l with
  | [] => None
  | a :: r =>
    if a <? 128 then Some 1%nat
    else if in_range 194 223 a then
      match r with c1 :: _ => if is_cont c1 then Some 2%nat else None | _ => None end
    else if in_range 224 239 a then
      match r with
      | c1 :: c2 :: _ =>
        if (if a =? 224 then in_range 160 191 c1
            else if a =? 237 then in_range 128 159 c1 else is_cont c1) && is_cont c2
        then Some 3%nat else None
      | _ => None
      end
    else if in_range 240 244 a then
      match r with
      | c1 :: c2 :: c3 :: _ =>
        if (if a =? 240 then in_range 144 191 c1
            else if a =? 244 then in_range 128 143 c1 else is_cont c1) && is_cont c2 && is_cont c3
        then Some 4%nat else None
      | _ => None
      end
    else None
  end.

(** [core::str::from_utf8(l).is_ok()] *)
Fixpoint utf8_valid_fuel (fuel : nat) (l : bytes) : bool :=
  match l with
  | [] => true
  | _ =>
    match fuel with
    | O => false
    | S f => match utf8_step l with
             | Some n => utf8_valid_fuel f (skipn n l)
             | None => false
             end
    end
  end.
Definition utf8_valid (l : bytes) : bool := utf8_valid_fuel (length l) l.

(** Length of the maximal subpart of an ill-formed sequence (Unicode 3.9 D93b,
    substitution of maximal subparts, as [Utf8Chunks] does). *)
Definition utf8_bad_len (l : bytes) : nat :=
  match l with
  | [] => 0
  | a :: r =>
    if in_range 224 239 a then
      match r with
      | c1 :: _ => if (if a =? 224 then in_range 160 191 c1
                       else if a =? 237 then in_range 128 159 c1 else is_cont c1)
                   then 2%nat else 1%nat
      | _ => 1%nat
      end
    else if in_range 240 244 a then
      match r with
      | c1 :: r' =>
        if (if a =? 240 then in_range 144 191 c1
            else if a =? 244 then in_range 128 143 c1 else is_cont c1)
        then match r' with c2 :: _ => if is_cont c2 then 3%nat else 2%nat | _ => 2%nat end
        else 1%nat
      | _ => 1%nat
      end
    else 1%nat
  end.

(** [String::from_utf8_lossy]: ill-formed parts become U+FFFD. *)
Fixpoint utf8_lossy_fuel (fuel : nat) (l : bytes) : bytes :=
  match l with
  | [] => []
  | _ =>
    match fuel with
    | O => []
    | S f => match utf8_step l with
             | Some n => firstn n l ++ utf8_lossy_fuel f (skipn n l)
             | None => [239; 191; 189] ++ utf8_lossy_fuel f (skipn (utf8_bad_len l) l)
             end
    end
  end.
Definition utf8_lossy (l : bytes) : bytes := utf8_lossy_fuel (length l) l.

(** [char::from_u32(n)] succeeds iff [n] is a Unicode scalar value. *)
Definition is_scalar (n : N) : bool := (n <? 55296) || in_range 57344 1114111 n.

(** [char::encode_utf8] *)
Definition encode_utf8 (n : N) : bytes :=
  if n <? 128 then [n]
  else if n <? 2048 then [192 + n / 64; 128 + n mod 64]
  else if n <? 65536 then [224 + n / 4096; 128 + n / 64 mod 64; 128 + n mod 64]
  else [240 + n / 262144; 128 + n / 4096 mod 64; 128 + n / 64 mod 64; 128 + n mod 64].

(** Bytes of one character at the head of a valid string: the first byte and
    the continuation bytes after it ([str::is_char_boundary]). *)
Fixpoint conts (l : bytes) : nat :=
  match l with c :: r => if is_cont c then S (conts r) else 0%nat | [] => 0%nat end.
Definition char_len (l : bytes) : nat := match l with [] => 0%nat | _ :: r => S (conts r) end.

(** Length in bytes of a leading White_Space character, 0 if there is none
    (U+0009..D, 20, 85, A0, 1680, 2000..200A, 2028, 2029, 202F, 205F, 3000). *)
Definition ws_len (l : bytes) : nat :=
  match l with
  | c :: r =>
    if in_range 9 13 c || (c =? 32) then 1%nat
    else match r with
    | d :: r' =>
      if (c =? 194) && ((d =? 133) || (d =? 160)) then 2%nat
      else match r' with
      | e :: _ =>
        if ((c =? 225) && (d =? 154) && (e =? 128))
           || ((c =? 226) && (d =? 128) && (in_range 128 138 e || (e =? 168) || (e =? 169) || (e =? 175)))
           || ((c =? 226) && (d =? 129) && (e =? 159))
           || ((c =? 227) && (d =? 128) && (e =? 128))
        then 3%nat else 0%nat
      | [] => 0%nat
      end
    | [] => 0%nat
    end
  | [] => 0%nat
  end.

(** [str::trim_start] *)
Fixpoint trim_start_fuel (fuel : nat) (l : bytes) : bytes :=
  match fuel with
  | O => l
  | S f => match ws_len l with
           | O => l
           | n => trim_start_fuel f (skipn n l)
           end
  end.
Definition trim_start (l : bytes) : bytes := trim_start_fuel (length l) l.
