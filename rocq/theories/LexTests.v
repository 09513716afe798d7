(** The unit tests of protox-parse/src/lex/tests.rs, evaluated in the model.
    These are tests of the reading of the code, not proofs of properties. *)
From Verif Require Import Base Utf8 Errors Lex.

Definition k0 : cfg := {| munch_ideal := false; f64_display := fun _ t => t; f64_to_string := fun _ t => t |}.
Definition k1 : cfg := {| munch_ideal := true; f64_display := fun _ t => t; f64_to_string := fun _ t => t |}.

Definition run (k : cfg) (tfm : bool) (src : bytes) :=
  match lex_all k {| l_rest := src; l_start := 0; l_end := 0; l_errs := []; l_tfm := tfm; l_assert := false |} with
  | Done (ts, s) => Some (map fst ts, l_errs s, l_assert s)
  | _ => None
  end.
Definition nl : bytes := [10].

Example t_simple : run k0 false
  (b "hell0 052 42 0x2A 5. 0.5 0.42e+2 2e-4 .2e+3 52e3 true" ++ nl ++
   b "        false ""hello \a\b\f\n\r\t\v\?\\\'\"" \052 \x2a"" 'hello " ++ [240;159;152;128] ++ b "' _foo")
  = Some ([Some (TIdent (b "hell0")); Some (TInt 42); Some (TInt 42); Some (TInt 42);
           Some (TFloat (b "5.")); Some (TFloat (b "0.5")); Some (TFloat (b "0.42e+2"));
           Some (TFloat (b "2e-4")); Some (TFloat (b ".2e+3")); Some (TFloat (b "52e3"));
           Some (TIdent (b "true")); Some TNewline; Some (TIdent (b "false"));
           Some (TStr (b "hello " ++ [7;8;12;10;13;9;11;63;92;39;34] ++ b " * *"));
           Some (TStr (b "hello " ++ [240;159;152;128])); Some (TIdent (b "_foo"))], [], false).
Proof. vm_compute. reflexivity. Qed.

Example t_overflow : run k0 false (b "99999999999999999999999999999999999999 4")
  = Some ([Some (TInt 0); Some (TInt 4)], [IntegerOutOfRange (0, 38)], false).
Proof. vm_compute. reflexivity. Qed.

Example t_float_suffix : run k0 false (b "10f 5.f 0.5f 0.42e+2f 2e-4f .2e+3f")
  = Some (map (fun s => Some (TFloat s)) [b "10"; b "5."; b "0.5"; b "0.42e+2"; b "2e-4"; b ".2e+3"],
          map FloatSuffixOutsideTextFormat [(0,3); (4,7); (8,12); (13,21); (22,27); (28,34)], false).
Proof. vm_compute. reflexivity. Qed.
Example t_float_suffix_tfm : run k0 true (b "10f 5.f 0.5f 0.42e+2f 2e-4f .2e+3f")
  = Some (map (fun s => Some (TFloat s)) [b "10"; b "5."; b "0.5"; b "0.42e+2"; b "2e-4"; b ".2e+3"], [], false).
Proof. vm_compute. reflexivity. Qed.

Example t_invalid_token : run k0 false (b "@ foo") = Some ([None; Some (TIdent (b "foo"))], [], false).
Proof. vm_compute. reflexivity. Qed.
Example t_invalid_string_char : run k0 false ([34; 0; 34] ++ b " foo")
  = Some ([Some (TStr []); Some (TIdent (b "foo"))], [InvalidStringCharacters (1,2)], false).
Proof. vm_compute. reflexivity. Qed.
Example t_unterminated_string : run k0 false (b """hello " ++ nl ++ b " foo")
  = Some ([Some (TStr (b "hello ")); Some (TIdent (b "foo"))], [UnterminatedString (7,8)], false).
Proof. vm_compute. reflexivity. Qed.
Example t_invalid_escape : run k0 false (b """\m"" foo")
  = Some ([Some (TStr (b "m")); Some (TIdent (b "foo"))], [InvalidStringEscape (1,2)], false).
Proof. vm_compute. reflexivity. Qed.
Example t_xff : run k0 false (b """\xFF""") = Some ([Some (TStr [255])], [], false).
Proof. vm_compute. reflexivity. Qed.
Example t_string_eof : run k0 false (b """a")
  = Some ([Some (TStr (b "a"))], [UnexpectedEof (b "string terminator")], false).
Proof. vm_compute. reflexivity. Qed.
Example t_merge1 : run k0 false ([34; 92; 0; 34] ++ b " foo")
  = Some ([Some (TStr []); Some (TIdent (b "foo"))], [InvalidStringEscape (1,3)], false).
Proof. vm_compute. reflexivity. Qed.
Example t_merge2 : run k0 false (b "9999999999999999999999 " ++ [34; 92; 0; 34])
  = Some ([Some (TInt 0); Some (TStr [])], [IntegerOutOfRange (0,22); InvalidStringEscape (24,26)], false).
Proof. vm_compute. reflexivity. Qed.
Example t_merge3 : run k0 false [34; 92; 0; 32; 92; 0; 34]
  = Some ([Some (TStr [32])], [InvalidStringEscape (1,3); InvalidStringEscape (4,6)], false).
Proof. vm_compute. reflexivity. Qed.
Example t_unicode : run k0 false (b "'\u0068\u0065\u006c\u006c\u006f\u0020\U0001f600'")
  = Some ([Some (TStr (b "hello " ++ [240;159;152;128]))], [], false).
Proof. vm_compute. reflexivity. Qed.
Example t_bad_unicode : option_map (fun x => snd (fst x)) (run k0 false (b "'\Uffffffff'")) = Some [InvalidStringEscape (1,11)].
Proof. vm_compute. reflexivity. Qed.
Example t_line_comment : run k0 false (b "foo // bar " ++ nl ++ b " quz")
  = Some ([Some (TIdent (b "foo")); Some (TLineComment (b " bar " ++ nl)); Some (TIdent (b "quz"))], [], false).
Proof. vm_compute. reflexivity. Qed.
Example t_line_crlf : run k0 false (b "// foo" ++ [13;10] ++ b " // bar" ++ [13;10])
  = Some ([Some (TLineComment (b " foo" ++ nl)); Some (TLineComment (b " bar" ++ nl))], [], false).
Proof. vm_compute. reflexivity. Qed.
Example t_block : run k0 false (b "foo /* bar" ++ nl ++ b " */ quz")
  = Some ([Some (TIdent (b "foo")); Some (TBlockComment (b " bar" ++ nl)); Some (TIdent (b "quz"))], [], false).
Proof. vm_compute. reflexivity. Qed.
Example t_block_multi : run k0 false (b "/* foo" ++ nl ++ b " * bar" ++ nl ++ b " quz*/")
  = Some ([Some (TBlockComment (b " foo" ++ nl ++ b " bar" ++ nl ++ b "quz"))], [], false).
Proof. vm_compute. reflexivity. Qed.
Example t_nested : option_map (fun x => snd (fst x)) (run k0 false (b "foo /* /* bar" ++ nl ++ b " */ */ quz")) = Some [NestedBlockComment (7,9)].
Proof. vm_compute. reflexivity. Qed.
Example t_nested_unterm : option_map (fun x => snd (fst x)) (run k0 false (b "foo /* /* bar" ++ nl ++ b " */ quz")) = Some [NestedBlockComment (7,9)].
Proof. vm_compute. reflexivity. Qed.
Example t_block_unterm : option_map (fun x => snd (fst x)) (run k0 false (b "foo /* bar" ++ nl ++ b " quz")) = Some [UnexpectedEof (b "comment terminator")].
Proof. vm_compute. reflexivity. Qed.
Example t_block_nl : run k0 false (b "/* bar */" ++ nl) = Some ([Some (TBlockComment (b " bar ")); Some TNewline], [], false).
Proof. vm_compute. reflexivity. Qed.
Example t_block_crlf : run k0 false (b "/* foo" ++ [13;10] ++ b " bar */")
  = Some ([Some (TBlockComment (b " foo" ++ nl ++ b "bar "))], [], false).
Proof. vm_compute. reflexivity. Qed.
Example t_hash : run k0 false (b "# bar") = Some ([Some (TLineComment (b " bar"))], [HashCommentOutsideTextFormat (0,5)], false).
Proof. vm_compute. reflexivity. Qed.
Example t_hash_tfm : run k0 true (b "# bar") = Some ([Some (TLineComment (b " bar"))], [], false).
Proof. vm_compute. reflexivity. Qed.
Example t_ws1 : run k0 false (b "value: -2.0") = Some ([Some (TIdent (b "value")); Some TColon; Some TMinus; Some (TFloat (b "2.0"))], [], false).
Proof. vm_compute. reflexivity. Qed.
Example t_ws2 : run k0 false (b "value: 2 . 0") = Some ([Some (TIdent (b "value")); Some TColon; Some (TInt 2); Some TDot; Some (TInt 0)], [], false).
Proof. vm_compute. reflexivity. Qed.
Example t_glued : run k0 false (b "foo: 10bar: 20_foo")
  = Some ([Some (TIdent (b "foo")); Some TColon; Some (TInt 10); Some (TIdent (b "bar")); Some TColon; Some (TInt 20); Some (TIdent (b "_foo"))],
          [NoSpaceBetweenIntAndIdent (5,10); NoSpaceBetweenIntAndIdent (12,18)], false).
Proof. vm_compute. reflexivity. Qed.
Example t_prop_regression_1 : run k0 false (b "08" ++ [194; 161]) = Some ([Some (TInt 0); None], [], false).
Proof. vm_compute. reflexivity. Qed.
Example t_ideal_08 : run k1 false (b "08" ++ [194; 161]) = Some ([Some (TInt 0); Some (TInt 8); None], [], false).
Proof. vm_compute. reflexivity. Qed.
