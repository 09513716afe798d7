(** Specification of comment attachment (C25): which of the comments of a
    source are the leading, detached and trailing comments of a declaration.
    The file refers to the tokens (Lex.v) only, not to the parser.

    A source is seen as the list of its tokens with their spans; comments and
    line ends are tokens too. A line comment token includes the end of its
    line, so that a newline token behind a line comment is a blank line. *)
From Verif Require Import Base Lex Ast.

Definition item : Type := (option token * span)%type.     (* [None]: not a token *)
Definition trivia (t : token) : Prop :=
  match t with TLineComment _ | TBlockComment _ | TNewline => True | _ => False end.

(** Comments are grouped into paragraphs: a block comment (with the line end
    directly behind it, if any) is one, so is a maximal run of line comments,
    whose texts are joined. Blank lines are recorded as [None]. *)
Inductive paragraphs : list token -> list (option bytes) -> Prop :=
| pa_end : paragraphs [] []
| pa_blank r ps : paragraphs r ps -> paragraphs (TNewline :: r) (None :: ps)
| pa_block t r ps : hd_error r <> Some TNewline -> paragraphs r ps -> paragraphs (TBlockComment t :: r) (Some t :: ps)
| pa_block_eol t r ps : paragraphs r ps -> paragraphs (TBlockComment t :: TNewline :: r) (Some t :: ps)
| pa_lines ts r ps : ts <> [] -> (forall t, hd_error r <> Some (TLineComment t)) -> paragraphs r ps ->
    paragraphs (map TLineComment ts ++ r) (Some (concat ts) :: ps).

(** [closes l]: no declaration starts at [l], which is the end of the file or
    starts with a closing bracket. *)
Definition closes (l : list item) : bool :=
  match l with
  | [] => true
  | (Some TRightBrace, _) :: _ | (Some TRightBracket, _) :: _ | (Some TRightParen, _) :: _ => true
  | _ => false
  end.

(** Sharing out the paragraphs between two tokens. The last one leads the
    following token, if no blank line is in between and something can start
    there; of the others the first one may trail the previous token ([may]),
    the rest is detached. *)
Definition texts (ps : list (option bytes)) : list bytes := flat_map (fun o => match o with Some t => [t] | None => [] end) ps.
Definition lead_of (closing : bool) (ps : list (option bytes)) : option bytes := if closing then None else last ps None.
Definition others (closing : bool) (ps : list (option bytes)) : list (option bytes) :=
  match lead_of closing ps with Some _ => removelast ps | None => ps end.
Definition trail_of (ps : list (option bytes)) : option bytes := match ps with Some t :: _ => Some t | _ => None end.

(** [attached first closing T tr dt ld]: of the comments in [T], which stands
    between two neighbouring tokens (or between the start of the file and the
    first token: [first]), [tr] trails the token before, [dt] are the detached
    and [ld] is the leading comment of the token behind. *)
Inductive attached (closing : bool) : bool -> list token -> option bytes -> list bytes -> option bytes -> Prop :=
(* at the start of the file nothing trails *)
| at_start T ps : paragraphs T ps ->
    attached closing true T None (texts (others closing ps)) (lead_of closing ps)
(* tokens without comments or line ends in between *)
| at_none : attached closing false [] None [] None
(* a line comment on the same line trails, alone *)
| at_line t T ps : paragraphs T ps ->
    attached closing false (TLineComment t :: T) (Some t) (texts (others closing ps)) (lead_of closing ps)
(* otherwise the first paragraph on the following lines may trail, if it is not the leading comment of the next token *)
| at_newline T ps : paragraphs T ps ->
    attached closing false (TNewline :: T) (trail_of (others closing ps)) (texts (tl (others closing ps))) (lead_of closing ps)
(* a block comment on the same line which ends the line is such a paragraph *)
| at_block t T ps ps' : paragraphs T ps -> ps' = Some t :: ps ->
    attached closing false (TBlockComment t :: TNewline :: T) (trail_of (others closing ps')) (texts (tl (others closing ps'))) (lead_of closing ps')
(* a block comment on the same line which does not end the line: all comments up to the next token are dropped *)
| at_same_line t T : hd_error T <> Some TNewline ->
    attached closing false (TBlockComment t :: T) None [] None.

(** The tokens [T], with their spans, as part of a source. *)
Definition items (T : list (token * span)) : list item := map (fun x => (Some (fst x), snd x)) T.
Definition all_trivia (T : list (token * span)) : Prop := Forall (fun x => trivia (fst x)) T.

(** [leads S st dt ld]: in the source [S], [dt] and [ld] are the detached and
    leading comments of the token at [st]: those between it and the token before. *)
Definition leads (S : list item) (st : span) (dt : list bytes) (ld : option bytes) : Prop :=
  exists L T t L', S = L ++ items T ++ (Some t, st) :: L' /\ all_trivia T /\ ~ trivia t /\
    exists tr, attached (closes ((Some t, st) :: L')) (match L with [] => true | _ => false end) (map fst T) tr dt ld /\
      (L = [] \/ exists L0 u sp, L = L0 ++ [(Some u, sp)] /\ ~ trivia u).

(** [trails S e tr]: [tr] is the trailing comment of the token at [e]: of the
    comments between it and the token behind. *)
Definition trails (S : list item) (e : span) (tr : option bytes) : Prop :=
  exists L u T L', S = L ++ (Some u, e) :: items T ++ L' /\ ~ trivia u /\ all_trivia T /\
    match L' with (Some t, _) :: _ => ~ trivia t | (None, _) :: _ => False | [] => True end /\
    exists dt ld, attached (closes L') false (map fst T) tr dt ld.

(** The comments of a declaration which starts with the token at [st], and
    whose head ends with the token at [e] (the opening brace or the semicolon;
    for an rpc with a body, the closing brace). *)
Definition comments_at (S : list item) (st e : span) (c : acomments) : Prop :=
  leads S st (ac_detached c) (ac_leading c) /\ trails S e (ac_trailing c).
