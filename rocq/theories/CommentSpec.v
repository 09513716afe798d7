(** Specification of comments: where they end and which text they denote. *)
From Verif Require Import Base Utf8Spec LexSpec StrSpec.

(** Line ends become LF: a CR directly before a LF is dropped. *)
Inductive unix_lines : bytes -> bytes -> Prop :=
| ul_end : unix_lines [] []
| ul_crlf r t : unix_lines (10 :: r) t -> unix_lines (13 :: 10 :: r) t
| ul_char c r t : (c = 13 -> ~ starts (eq 10) r) -> unix_lines r t -> unix_lines (c :: r) (c :: t).

(** [line_at l body rest]: [l] starts with a line comment (without its mark)
    whose text is [body], up to and with the end of the line. *)
Definition line_at (l body rest : bytes) : Prop :=
  l = body ++ rest /\
  ((rest = [] /\ ~ In 10 body) \/ exists line, body = line ++ [10] /\ ~ In 10 line).

(** Unicode White_Space. *)
Definition white_space : list N :=
  [9; 10; 11; 12; 13; 32; 133; 160; 5760; 8192; 8193; 8194; 8195; 8196; 8197; 8198; 8199; 8200; 8201; 8202;
   8232; 8233; 8239; 8287; 12288].
Inductive white : bytes -> Prop :=
| white_end : white []
| white_char c bs r : In c white_space -> utf8_of c bs -> white r -> white (bs ++ r).
Definition white_starts (l : bytes) : Prop := exists c bs r, In c white_space /\ utf8_of c bs /\ l = bs ++ r.

(** [block_at l text rest]: [l], standing behind the /*, is a block comment
    (with the blanks behind the */) followed by [rest]. Its text is what
    stands between the marks; on each new line leading white space and then
    one star are dropped. *)
Definition star_here (l : bytes) : Prop := exists r, l = 42 :: r /\ ~ starts (eq 47) r.
Inductive block_at : bytes -> bytes -> bytes -> Prop :=
| ba_end w rest : Forall blank w -> ~ starts blank rest -> block_at (b "*/" ++ w ++ rest) [] rest
| ba_char c r t rest : c <> 10 -> (c = 42 -> ~ starts (eq 47) r) -> (c = 47 -> ~ starts (eq 42) r) ->
    block_at r t rest -> block_at (c :: r) (c :: t) rest
| ba_line ws r t rest : white ws -> ~ white_starts r -> ~ star_here r ->
    block_at r t rest -> block_at (10 :: ws ++ r) (10 :: t) rest
| ba_star ws r t rest : white ws -> star_here (42 :: r) ->
    block_at r t rest -> block_at (10 :: ws ++ 42 :: r) (10 :: t) rest.
