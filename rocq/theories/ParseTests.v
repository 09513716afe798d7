(** GENERATED by tools/mktests.py from the unit tests and insta snapshots of
    protox-parse (parse/tests.rs, tests.rs). These are tests of the reading of the
    code, not proofs of properties. Doubles are compared by the text in the
    snapshot where it equals the source text. *)
From Verif Require Import Base Utf8 Errors Lex Ast Comments Parse Lines Descriptor Generate ParseApi.

Definition sgn (neg : bool) (t : bytes) : bytes := (if neg then b "-" else []) ++ t.
(* enough of Rust's printing of doubles for these tests *)
Definition expand (t : bytes) : bytes :=
  if bytes_eqb t (b "9e6") then b "9000000"
  else if bytes_eqb t (b "9e22") then b "90000000000000000000000" else t.
Definition disp (neg : bool) (t : bytes) : bytes :=
  sgn neg (if existsb (N.eqb 46) t then t else t ++ b ".0").
Definition kt : cfg :=
  {| munch_ideal := false; f64_display := disp; f64_to_string := fun neg t => sgn neg (expand t) |}.

(** The [case!] macro of parse/tests.rs:5-15. *)
Definition case_ {A} (m : P A) (src : bytes) : option (A + list perr) :=
  match m (p_init src) with
  | POk a s => match l_errs (p_lex s) with
               | [] => if l_assert (p_lex s) then None else Some (inl a)
               | es => if l_assert (p_lex s) then None else Some (inr es) end
  | PErr s => if l_assert (p_lex s) then None else Some (inr (l_errs (p_lex s)))
  | _ => None
  end.
Definition fuel_ : nat := 20%nat.
Definition tp_parse_option := parse_option kt.
Definition tp_parse_text_format_message := parse_text_format_message kt.
Definition tp_parse_enum := parse_enum kt.
Definition tp_parse_service := parse_service kt.
Definition tp_parse_package := parse_package kt.
Definition tp_parse_import := parse_import kt.
Definition tp_parse_extend := parse_extend kt (parse_message_body kt fuel_).
Definition tp_parse_reserved := parse_reserved kt.
Definition tp_parse_field := parse_field kt (parse_message_body kt fuel_).
Definition tp_parse_message := parse_message kt (parse_message_body kt fuel_).
Definition tp_parse_oneof := parse_oneof kt (parse_message_body kt fuel_).

Definition full (src : bytes) : option (file_desc + list perr) :=
  match parse kt loc_sort (b "test.proto") src with
  | Done (inl d, false) => Some (inl d)
  | Done (inr e, false) => Some (inr (pe_all e))
  | _ => None
  end.

Example p_parse_option_1 : case_ (tp_parse_option) [111;112;116;105;111;110;32;102;111;111;32;61;32;53;59] = Some (inl {|op_body:={|ob_name:=[(ONIdent {|id_val:=[102;111;111];id_span:=(7,10)|})];ob_value:=(OVInt {|i_neg:=false;i_val:=5;i_span:=(13,14)|})|};op_comments:={|ac_detached:=[];ac_leading:=None;ac_trailing:=None|};op_span:=(0,15)|}).
Proof. vm_compute. reflexivity. Qed.
Example p_parse_option_2 : case_ (tp_parse_option) [47;47;100;101;116;97;99;104;101;100;10;10;32;47;42;108;101;97;100;105;110;103;42;47;10;111;112;116;105;111;110;32;102;111;111;32;61;32;53;59;47;47;116;114;97;105;108;105;110;103] = Some (inl {|op_body:={|ob_name:=[(ONIdent {|id_val:=[102;111;111];id_span:=(32,35)|})];ob_value:=(OVInt {|i_neg:=false;i_val:=5;i_span:=(38,39)|})|};op_comments:={|ac_detached:=[[100;101;116;97;99;104;101;100;10]];ac_leading:=(Some [108;101;97;100;105;110;103]);ac_trailing:=(Some [116;114;97;105;108;105;110;103])|};op_span:=(25,40)|}).
Proof. vm_compute. reflexivity. Qed.
Example p_parse_option_3 : case_ (tp_parse_option) [111;112;116;105;111;110;32;40;102;111;111;46;98;97;114;41;32;61;32;34;104;101;108;108;111;34;59] = Some (inl {|op_body:={|ob_name:=[(ONExtension {|tn_dot:=None;tn_name:=[{|id_val:=[102;111;111];id_span:=(8,11)|}; {|id_val:=[98;97;114];id_span:=(12,15)|}]|} (7,16))];ob_value:=(OVString {|st_val:=[104;101;108;108;111];st_span:=(19,26)|})|};op_comments:={|ac_detached:=[];ac_leading:=None;ac_trailing:=None|};op_span:=(0,27)|}).
Proof. vm_compute. reflexivity. Qed.
Example p_parse_option_4 : case_ (tp_parse_option) [111;112;116;105;111;110;32;40;102;111;111;41;46;98;97;114;32;61;32;116;114;117;101;59] = Some (inl {|op_body:={|ob_name:=[(ONExtension {|tn_dot:=None;tn_name:=[{|id_val:=[102;111;111];id_span:=(8,11)|}]|} (7,12)); (ONIdent {|id_val:=[98;97;114];id_span:=(13,16)|})];ob_value:=(OVIdent false {|id_val:=[116;114;117;101];id_span:=(19,23)|} (19,23))|};op_comments:={|ac_detached:=[];ac_leading:=None;ac_trailing:=None|};op_span:=(0,24)|}).
Proof. vm_compute. reflexivity. Qed.
Example p_parse_option_5 : case_ (tp_parse_option) [111;112;116;105;111;110;32;102;111;111;46;40;98;97;114;46;98;97;122;41;46;113;117;120;32;61;32;105;100;101;110;116;59] = Some (inl {|op_body:={|ob_name:=[(ONIdent {|id_val:=[102;111;111];id_span:=(7,10)|}); (ONExtension {|tn_dot:=None;tn_name:=[{|id_val:=[98;97;114];id_span:=(12,15)|}; {|id_val:=[98;97;122];id_span:=(16,19)|}]|} (11,20)); (ONIdent {|id_val:=[113;117;120];id_span:=(21,24)|})];ob_value:=(OVIdent false {|id_val:=[105;100;101;110;116];id_span:=(27,32)|} (27,32))|};op_comments:={|ac_detached:=[];ac_leading:=None;ac_trailing:=None|};op_span:=(0,33)|}).
Proof. vm_compute. reflexivity. Qed.
Example p_parse_option_6 : case_ (tp_parse_option) [111;112;116;105;111;110;32;59] = Some (inr [UnexpectedToken [97;110;32;105;100;101;110;116;105;102;105;101;114;32;111;114;32;39;40;39] [59] (7,8)]).
Proof. vm_compute. reflexivity. Qed.
Example p_parse_option_7 : case_ (tp_parse_option) [111;112;116;105;111;110;32;102;111;111;32;40] = Some (inr [UnexpectedToken [39;61;39;32;111;114;32;39;46;39] [40] (11,12)]).
Proof. vm_compute. reflexivity. Qed.
Example p_parse_option_8 : case_ (tp_parse_option) [111;112;116;105;111;110;32;102;111;111;46;93] = Some (inr [UnexpectedToken [97;110;32;105;100;101;110;116;105;102;105;101;114;32;111;114;32;39;40;39] [93] (11,12)]).
Proof. vm_compute. reflexivity. Qed.
Example p_parse_option_9 : case_ (tp_parse_option) [111;112;116;105;111;110;32;102;111;111;32;61;32;61] = Some (inr [UnexpectedToken [97;32;99;111;110;115;116;97;110;116] [61] (13,14)]).
Proof. vm_compute. reflexivity. Qed.
Example p_parse_option_10 : case_ (tp_parse_option) [111;112;116;105;111;110;32;102;111;111;32;61;32;49;32;41] = Some (inr [UnexpectedToken [39;59;39] [41] (15,16)]).
Proof. vm_compute. reflexivity. Qed.
Example p_parse_option_11 : case_ (tp_parse_option) [111;112;116;105;111;110;32;102;111;111;32;61;32;123;125;59] = Some (inl {|op_body:={|ob_name:=[(ONIdent {|id_val:=[102;111;111];id_span:=(7,10)|})];ob_value:=(OVAggregate [] (13,15))|};op_comments:={|ac_detached:=[];ac_leading:=None;ac_trailing:=None|};op_span:=(0,16)|}).
Proof. vm_compute. reflexivity. Qed.
Example p_parse_option_12 : case_ (tp_parse_option) [111;112;116;105;111;110;32;40;101;120;116;41;46;102;111;111;32;61;32;123;32;102;111;111;58;32;53;32;125;59] = Some (inl {|op_body:={|ob_name:=[(ONExtension {|tn_dot:=None;tn_name:=[{|id_val:=[101;120;116];id_span:=(8,11)|}]|} (7,12)); (ONIdent {|id_val:=[102;111;111];id_span:=(13,16)|})];ob_value:=(OVAggregate [102;111;111;32;58;32;53] (19,29))|};op_comments:={|ac_detached:=[];ac_leading:=None;ac_trailing:=None|};op_span:=(0,30)|}).
Proof. vm_compute. reflexivity. Qed.
Example p_parse_option_13 : case_ (tp_parse_option) [111;112;116;105;111;110;32;113;117;122;46;40;98;97;114;41;32;61;32;123;32;102;111;111;58;32;91;98;108;97;104;93;32;125;59] = Some (inl {|op_body:={|ob_name:=[(ONIdent {|id_val:=[113;117;122];id_span:=(7,10)|}); (ONExtension {|tn_dot:=None;tn_name:=[{|id_val:=[98;97;114];id_span:=(12,15)|}]|} (11,16))];ob_value:=(OVAggregate [102;111;111;32;58;32;91;32;98;108;97;104;32;93] (19,34))|};op_comments:={|ac_detached:=[];ac_leading:=None;ac_trailing:=None|};op_span:=(0,35)|}).
Proof. vm_compute. reflexivity. Qed.
Example p_parse_option_14 : case_ (tp_parse_option) [111;112;116;105;111;110;32;98;97;122;32;61;32;123;32;102;111;111;58;32;91;60;120;58;51;62;44;32;60;121;123;125;59;122;60;97;58;45;102;111;111;62;44;62;93;32;125;59] = Some (inl {|op_body:={|ob_name:=[(ONIdent {|id_val:=[98;97;122];id_span:=(7,10)|})];ob_value:=(OVAggregate [102;111;111;32;58;32;91;32;60;32;120;32;58;32;51;32;62;32;44;32;60;32;121;32;123;32;125;32;59;32;122;32;60;32;97;32;58;32;45;32;102;111;111;32;62;32;44;32;62;32;93] (13,47))|};op_comments:={|ac_detached:=[];ac_leading:=None;ac_trailing:=None|};op_span:=(0,48)|}).
Proof. vm_compute. reflexivity. Qed.
Example p_parse_option_15 : case_ (tp_parse_option) [111;112;116;105;111;110;32;102;111;111;32;61;32;49;102;59] = Some (inr [FloatSuffixOutsideTextFormat (13,15)]).
Proof. vm_compute. reflexivity. Qed.
Example p_parse_option_16 : case_ (tp_parse_option) [111;112;116;105;111;110;32;111;112;116;105;109;105;122;101;95;102;111;114;32;61;32;109;101;115;115;97;103;101;59] = Some (inl {|op_body:={|ob_name:=[(ONIdent {|id_val:=[111;112;116;105;109;105;122;101;95;102;111;114];id_span:=(7,19)|})];ob_value:=(OVIdent false {|id_val:=[109;101;115;115;97;103;101];id_span:=(22,29)|} (22,29))|};op_comments:={|ac_detached:=[];ac_leading:=None;ac_trailing:=None|};op_span:=(0,30)|}).
Proof. vm_compute. reflexivity. Qed.
Example p_parse_option_17 : case_ (tp_parse_option) [111;112;116;105;111;110;32;109;101;115;115;97;103;101;32;61;32;49;59] = Some (inl {|op_body:={|ob_name:=[(ONIdent {|id_val:=[109;101;115;115;97;103;101];id_span:=(7,14)|})];ob_value:=(OVInt {|i_neg:=false;i_val:=1;i_span:=(17,18)|})|};op_comments:={|ac_detached:=[];ac_leading:=None;ac_trailing:=None|};op_span:=(0,19)|}).
Proof. vm_compute. reflexivity. Qed.
Example p_parse_option_18 : case_ (tp_parse_option) [111;112;116;105;111;110;32;101;120;116;46;40;115;101;114;118;105;99;101;46;114;112;99;41;32;61;32;49;59] = Some (inl {|op_body:={|ob_name:=[(ONIdent {|id_val:=[101;120;116];id_span:=(7,10)|}); (ONExtension {|tn_dot:=None;tn_name:=[{|id_val:=[115;101;114;118;105;99;101];id_span:=(12,19)|}; {|id_val:=[114;112;99];id_span:=(20,23)|}]|} (11,24))];ob_value:=(OVInt {|i_neg:=false;i_val:=1;i_span:=(27,28)|})|};op_comments:={|ac_detached:=[];ac_leading:=None;ac_trailing:=None|};op_span:=(0,29)|}).
Proof. vm_compute. reflexivity. Qed.
Example p_parse_option_19 : case_ (tp_parse_option) [111;112;116;105;111;110;32;102;111;111;32;61;32;123] = Some (inr [UnexpectedEof [39;125;39]]).
Proof. vm_compute. reflexivity. Qed.
Example p_parse_option_20 : case_ (tp_parse_option) [111;112;116;105;111;110;32;102;111;111;32;61;32;123;32;120;58;49] = Some (inr [UnexpectedEof [39;125;39]]).
Proof. vm_compute. reflexivity. Qed.
Example p_parse_option_21 : case_ (tp_parse_option) [111;112;116;105;111;110;32;111;112;116;105;109;105;122;101;95;102;111;114;32;61;32;103;111;111;103;108;101;46;112;114;111;116;111;98;117;102;46;83;80;69;69;68;59] = Some (inr [UnexpectedToken [39;59;39] [46] (28,29)]).
Proof. vm_compute. reflexivity. Qed.
Example p_parse_option_22 : case_ (tp_parse_option) [111;112;116;105;111;110;32;101;120;116;46;40;46;102;111;111;46;98;97;114;41;32;61;32;52;50;59] = Some (inl {|op_body:={|ob_name:=[(ONIdent {|id_val:=[101;120;116];id_span:=(7,10)|}); (ONExtension {|tn_dot:=(Some (12,13));tn_name:=[{|id_val:=[102;111;111];id_span:=(13,16)|}; {|id_val:=[98;97;114];id_span:=(17,20)|}]|} (11,21))];ob_value:=(OVInt {|i_neg:=false;i_val:=42;i_span:=(24,26)|})|};op_comments:={|ac_detached:=[];ac_leading:=None;ac_trailing:=None|};op_span:=(0,27)|}).
Proof. vm_compute. reflexivity. Qed.
Example p_parse_option_23 : case_ (tp_parse_option) [111;112;116;105;111;110;32;102;111;111;32;61;32;45;39;97;39;59] = Some (inr [UnexpectedToken [97;32;110;117;109;101;114;105;99;32;108;105;116;101;114;97;108] [34;97;34] (14,17)]).
Proof. vm_compute. reflexivity. Qed.
Example p_parse_option_24 : case_ (tp_parse_option) [111;112;116;105;111;110;32;102;111;111;32;61;32;123;32;125;32;125] = Some (inr [UnexpectedToken [39;59;39] [125] (17,18)]).
Proof. vm_compute. reflexivity. Qed.
Example p_parse_option_25 : case_ (tp_parse_option) [111;112;116;105;111;110;32;102;111;111;32;61;32;123] = Some (inr [UnexpectedEof [39;125;39]]).
Proof. vm_compute. reflexivity. Qed.
Example p_parse_text_format_message_1 : case_ (tp_parse_text_format_message) [102;111;111;58;32;49;48] = Some (inl [102;111;111;32;58;32;49;48]).
Proof. vm_compute. reflexivity. Qed.
Example p_parse_text_format_message_2 : case_ (tp_parse_text_format_message) [102;111;111;58;32;49;48;102] = Some (inl [102;111;111;32;58;32;49;48;46;48]).
Proof. vm_compute. reflexivity. Qed.
Example p_parse_text_format_message_3 : case_ (tp_parse_text_format_message) [102;111;111;58;32;49;46;48;102] = Some (inl [102;111;111;32;58;32;49;46;48]).
Proof. vm_compute. reflexivity. Qed.
Example p_parse_text_format_message_4 : case_ (tp_parse_text_format_message) [102;111;111;58;32;39;98;97;114;39;32;34;98;97;122;34;32;10;9;32;39;113;117;122;39] = Some (inl [102;111;111;32;58;32;34;98;97;114;34;32;34;98;97;122;34;32;34;113;117;122;34]).
Proof. vm_compute. reflexivity. Qed.
Example p_parse_text_format_message_5 : case_ (tp_parse_text_format_message) [115;58;32;34;102;105;114;115;116;34;32;39;115;101;99;111;110;100;39;10;32;32;32;32;32;32;32;32;32;32;32;32;34;116;104;105;114;100;34;10;32;32;32;32;32;32;32;32;106;111;105;110;101;100;58;32;34;102;105;114;115;116;34;34;115;101;99;111;110;100;34;39;116;104;105;114;100;39;39;102;111;117;114;116;104;39] = Some (inl [115;32;58;32;34;102;105;114;115;116;34;32;34;115;101;99;111;110;100;34;32;34;116;104;105;114;100;34;32;106;111;105;110;101;100;32;58;32;34;102;105;114;115;116;34;32;34;115;101;99;111;110;100;34;32;34;116;104;105;114;100;34;32;34;102;111;117;114;116;104;34]).
Proof. vm_compute. reflexivity. Qed.
Example p_parse_text_format_message_6 : case_ (tp_parse_text_format_message) [109;101;115;115;97;103;101;58;32;123;32;102;111;111;58;32;34;98;97;114;34;32;125] = Some (inl [109;101;115;115;97;103;101;32;58;32;123;32;102;111;111;32;58;32;34;98;97;114;34;32;125]).
Proof. vm_compute. reflexivity. Qed.
Example p_parse_text_format_message_7 : case_ (tp_parse_text_format_message) [91;101;120;116;46;115;99;97;108;97;114;93;58;32;49;48] = Some (inl [91;32;101;120;116;32;46;32;115;99;97;108;97;114;32;93;32;58;32;49;48]).
Proof. vm_compute. reflexivity. Qed.
Example p_parse_text_format_message_8 : case_ (tp_parse_text_format_message) [91;101;120;116;46;109;101;115;115;97;103;101;93;58;32;123;32;102;111;111;58;32;34;98;97;114;34;32;125] = Some (inl [91;32;101;120;116;32;46;32;109;101;115;115;97;103;101;32;93;32;58;32;123;32;102;111;111;32;58;32;34;98;97;114;34;32;125]).
Proof. vm_compute. reflexivity. Qed.
Example p_parse_text_format_message_9 : case_ (tp_parse_text_format_message) [97;110;121;58;32;123;32;91;116;121;112;101;46;103;111;111;103;108;101;97;112;105;115;46;99;111;109;47;102;111;111;46;98;97;114;93;58;32;123;32;102;111;111;58;32;34;98;97;114;34;32;125;32;125] = Some (inl [97;110;121;32;58;32;123;32;91;32;116;121;112;101;32;46;32;103;111;111;103;108;101;97;112;105;115;32;46;32;99;111;109;32;47;32;102;111;111;32;46;32;98;97;114;32;93;32;58;32;123;32;102;111;111;32;58;32;34;98;97;114;34;32;125;32;125]).
Proof. vm_compute. reflexivity. Qed.
Example p_parse_text_format_message_10 : case_ (tp_parse_text_format_message) [102;111;111;58;32;101;110;117;109] = Some (inl [102;111;111;32;58;32;101;110;117;109]).
Proof. vm_compute. reflexivity. Qed.
Example p_parse_text_format_message_11 : case_ (tp_parse_text_format_message) [102;111;111;58;32;91;101;110;117;109;93] = Some (inl [102;111;111;32;58;32;91;32;101;110;117;109;32;93]).
Proof. vm_compute. reflexivity. Qed.
Example p_parse_text_format_message_12 : case_ (tp_parse_text_format_message) [102;111;111;58;32;45;101;110;117;109] = Some (inl [102;111;111;32;58;32;45;32;101;110;117;109]).
Proof. vm_compute. reflexivity. Qed.
Example p_parse_text_format_message_13 : case_ (tp_parse_text_format_message) [102;111;111;58;32;91;45;101;110;117;109;93] = Some (inl [102;111;111;32;58;32;91;32;45;32;101;110;117;109;32;93]).
Proof. vm_compute. reflexivity. Qed.
Example p_parse_text_format_message_14 : case_ (tp_parse_text_format_message) [112;111;116;32;60;32;107;105;110;100;58;32;84;85;76;73;80;32;110;97;109;101;58;32;34;66;111;98;34;32;108;101;103;115;58;32;48;32;62] = Some (inl [112;111;116;32;60;32;107;105;110;100;32;58;32;84;85;76;73;80;32;110;97;109;101;32;58;32;34;66;111;98;34;32;108;101;103;115;32;58;32;48;32;62]).
Proof. vm_compute. reflexivity. Qed.
Example p_parse_text_format_message_15 : case_ (tp_parse_text_format_message) [101;115;99;97;112;101;115;58;32;39;92;97;92;98;92;102;92;110;92;114;92;116;92;118;92;63;92;92;92;39;92;34;92;49;92;49;49;92;49;49;49;92;120;97;92;120;65;65;92;117;49;49;49;49;92;85;48;48;49;48;49;49;49;49;39] = Some (inl [101;115;99;97;112;101;115;32;58;32;34;92;120;48;55;92;120;48;56;92;120;48;99;92;110;92;114;92;116;92;120;48;98;63;92;92;92;39;92;34;92;120;48;49;92;116;73;92;110;92;120;97;97;92;120;101;49;92;120;56;52;92;120;57;49;92;120;102;52;92;120;56;49;92;120;56;52;92;120;57;49;34]).
Proof. vm_compute. reflexivity. Qed.
Example p_parse_text_format_message_16 : case_ (tp_parse_text_format_message) [118;97;108;117;101;58;32;45;39;115;116;114;105;110;103;39] = Some (inl [118;97;108;117;101;32;58;32;45;32;34;115;116;114;105;110;103;34]).
Proof. vm_compute. reflexivity. Qed.
Example p_parse_text_format_message_17 : case_ (tp_parse_text_format_message) [118;97;108;117;101;58;32;45] = Some (inl [118;97;108;117;101;32;58;32;45]).
Proof. vm_compute. reflexivity. Qed.
Example p_parse_text_format_message_18 : case_ (tp_parse_text_format_message) [118;97;108;117;101] = Some (inl [118;97;108;117;101]).
Proof. vm_compute. reflexivity. Qed.
Example p_parse_text_format_message_19 : case_ (tp_parse_text_format_message) [118;97;108;117;101;58;32;123] = Some (inl [118;97;108;117;101;32;58;32;123]).
Proof. vm_compute. reflexivity. Qed.
Example p_parse_text_format_message_20 : case_ (tp_parse_text_format_message) [118;97;108;117;101;58;32;123;125;32;102;111;111;58;32;49;48;102] = Some (inl [118;97;108;117;101;32;58;32;123;32;125;32;102;111;111;32;58;32;49;48;46;48]).
Proof. vm_compute. reflexivity. Qed.
Example p_parse_text_format_message_21 : case_ (tp_parse_text_format_message) [118;97;108;117;101;58;32;60] = Some (inl [118;97;108;117;101;32;58;32;60]).
Proof. vm_compute. reflexivity. Qed.
Example p_parse_text_format_message_22 : case_ (tp_parse_text_format_message) [118;97;108;117;101;32;39;102;111;111;39] = Some (inl [118;97;108;117;101;32;34;102;111;111;34]).
Proof. vm_compute. reflexivity. Qed.
Example p_parse_text_format_message_23 : case_ (tp_parse_text_format_message) [118;97;108;117;101;58;32;49;32;47;42;32;98;108;111;99;107;32;42;47;32;118;97;108;117;101;58;32;50;32;47;47;32;108;105;110;101;10;32;118;97;108;117;101;58;32;51] = Some (inl [118;97;108;117;101;32;58;32;49;32;118;97;108;117;101;32;58;32;50;32;118;97;108;117;101;32;58;32;51]).
Proof. vm_compute. reflexivity. Qed.
Example p_parse_enum_1 : case_ (tp_parse_enum) [101;110;117;109;32;70;111;111;32;123;125] = Some (inl {|en_name:={|id_val:=[70;111;111];id_span:=(5,8)|};en_options:=[];en_values:=[];en_reserved:=[];en_comments:={|ac_detached:=[];ac_leading:=None;ac_trailing:=None|};en_span:=(0,11)|}).
Proof. vm_compute. reflexivity. Qed.
Example p_parse_enum_2 : case_ (tp_parse_enum) [101;110;117;109;32;70;111;111;32;123;32;59;32;59;32;125] = Some (inl {|en_name:={|id_val:=[70;111;111];id_span:=(5,8)|};en_options:=[];en_values:=[];en_reserved:=[];en_comments:={|ac_detached:=[];ac_leading:=None;ac_trailing:=None|};en_span:=(0,16)|}).
Proof. vm_compute. reflexivity. Qed.
Example p_parse_enum_3 : case_ (tp_parse_enum) [47;42;100;101;116;97;99;104;101;100;42;47;47;42;108;101;97;100;105;110;103;42;47;10;101;110;117;109;32;70;111;111;32;123;10;47;47;116;114;97;105;108;105;110;103;10;10;59;32;59;32;125] = Some (inl {|en_name:={|id_val:=[70;111;111];id_span:=(29,32)|};en_options:=[];en_values:=[];en_reserved:=[];en_comments:={|ac_detached:=[[100;101;116;97;99;104;101;100]];ac_leading:=(Some [108;101;97;100;105;110;103]);ac_trailing:=(Some [116;114;97;105;108;105;110;103;10])|};en_span:=(24,52)|}).
Proof. vm_compute. reflexivity. Qed.
Example p_parse_enum_4 : case_ (tp_parse_enum) [101;110;117;109;32;70;111;111;32;123;32;66;65;82;32;61;32;49;59;32;125] = Some (inl {|en_name:={|id_val:=[70;111;111];id_span:=(5,8)|};en_options:=[];en_values:=[{|ev_name:={|id_val:=[66;65;82];id_span:=(11,14)|};ev_number:={|i_neg:=false;i_val:=1;i_span:=(17,18)|};ev_options:=None;ev_comments:={|ac_detached:=[];ac_leading:=None;ac_trailing:=None|};ev_span:=(11,19)|}];en_reserved:=[];en_comments:={|ac_detached:=[];ac_leading:=None;ac_trailing:=None|};en_span:=(0,21)|}).
Proof. vm_compute. reflexivity. Qed.
Example p_parse_enum_5 : case_ (tp_parse_enum) [101;110;117;109;32;70;111;111;32;123;32;111;112;116;105;111;110;32;98;97;114;32;61;32;39;113;117;122;39;32;59;32;86;65;76;32;61;32;45;49;59;32;125] = Some (inl {|en_name:={|id_val:=[70;111;111];id_span:=(5,8)|};en_options:=[{|op_body:={|ob_name:=[(ONIdent {|id_val:=[98;97;114];id_span:=(18,21)|})];ob_value:=(OVString {|st_val:=[113;117;122];st_span:=(24,29)|})|};op_comments:={|ac_detached:=[];ac_leading:=None;ac_trailing:=None|};op_span:=(11,31)|}];en_values:=[{|ev_name:={|id_val:=[86;65;76];id_span:=(32,35)|};ev_number:={|i_neg:=true;i_val:=1;i_span:=(38,40)|};ev_options:=None;ev_comments:={|ac_detached:=[];ac_leading:=None;ac_trailing:=None|};ev_span:=(32,41)|}];en_reserved:=[];en_comments:={|ac_detached:=[];ac_leading:=None;ac_trailing:=None|};en_span:=(0,43)|}).
Proof. vm_compute. reflexivity. Qed.
Example p_parse_enum_6 : case_ (tp_parse_enum) [101;110;117;109;32;70;111;111;32;123;32;66;65;82;32;61;32;48;32;91;111;112;116;32;61;32;48;46;53;93;59;32;125] = Some (inl {|en_name:={|id_val:=[70;111;111];id_span:=(5,8)|};en_options:=[];en_values:=[{|ev_name:={|id_val:=[66;65;82];id_span:=(11,14)|};ev_number:={|i_neg:=false;i_val:=0;i_span:=(17,18)|};ev_options:=(Some {|ol_options:=[{|ob_name:=[(ONIdent {|id_val:=[111;112;116];id_span:=(20,23)|})];ob_value:=(OVFloat {|fl_neg:=false;fl_text:=[48;46;53];fl_span:=(26,29)|})|}];ol_span:=(19,30)|});ev_comments:={|ac_detached:=[];ac_leading:=None;ac_trailing:=None|};ev_span:=(11,31)|}];en_reserved:=[];en_comments:={|ac_detached:=[];ac_leading:=None;ac_trailing:=None|};en_span:=(0,33)|}).
Proof. vm_compute. reflexivity. Qed.
Example p_parse_enum_7 : case_ (tp_parse_enum) [101;110;117;109;32;70;111;111;32;123;32;66;65;82;32;61;32;48;59;32;114;101;115;101;114;118;101;100;32;45;49;32;116;111;32;109;97;120;59;32;125] = Some (inl {|en_name:={|id_val:=[70;111;111];id_span:=(5,8)|};en_options:=[];en_values:=[{|ev_name:={|id_val:=[66;65;82];id_span:=(11,14)|};ev_number:={|i_neg:=false;i_val:=0;i_span:=(17,18)|};ev_options:=None;ev_comments:={|ac_detached:=[];ac_leading:=None;ac_trailing:=None|};ev_span:=(11,19)|}];en_reserved:=[{|rs_kind:=(RKRanges [{|rr_start:={|i_neg:=true;i_val:=1;i_span:=(29,31)|};rr_end:=(REMax (35,38))|}]);rs_comments:={|ac_detached:=[];ac_leading:=None;ac_trailing:=None|};rs_span:=(20,39)|}];en_comments:={|ac_detached:=[];ac_leading:=None;ac_trailing:=None|};en_span:=(0,41)|}).
Proof. vm_compute. reflexivity. Qed.
Example p_parse_enum_8 : case_ (tp_parse_enum) [101;110;117;109;32;51] = Some (inr [UnexpectedToken [97;110;32;105;100;101;110;116;105;102;105;101;114] [51] (5,6)]).
Proof. vm_compute. reflexivity. Qed.
Example p_parse_enum_9 : case_ (tp_parse_enum) [101;110;117;109;32;70;111;111;32;48;46;49] = Some (inr [UnexpectedToken [39;123;39] [48;46;49] (9,12)]).
Proof. vm_compute. reflexivity. Qed.
Example p_parse_enum_10 : case_ (tp_parse_enum) [101;110;117;109;32;70;111;111;32;123;93] = Some (inr [UnexpectedToken [97;110;32;105;100;101;110;116;105;102;105;101;114;44;32;39;125;39;44;32;39;114;101;115;101;114;118;101;100;39;32;111;114;32;39;111;112;116;105;111;110;39] [93] (10,11)]).
Proof. vm_compute. reflexivity. Qed.
Example p_parse_enum_11 : case_ (tp_parse_enum) [101;110;117;109;32;70;111;111;32;123;32;66;65;82;32;46] = Some (inr [UnexpectedToken [39;61;39] [46] (15,16)]).
Proof. vm_compute. reflexivity. Qed.
Example p_parse_enum_12 : case_ (tp_parse_enum) [101;110;117;109;32;70;111;111;32;123;32;66;65;82;32;61;32;102;111;111] = Some (inr [UnexpectedToken [97;110;32;105;110;116;101;103;101;114] [102;111;111] (17,20)]).
Proof. vm_compute. reflexivity. Qed.
Example p_parse_enum_13 : case_ (tp_parse_enum) [101;110;117;109;32;70;111;111;32;123;32;109;101;115;115;97;103;101;32;61;32;49;59;32;125] = Some (inl {|en_name:={|id_val:=[70;111;111];id_span:=(5,8)|};en_options:=[];en_values:=[{|ev_name:={|id_val:=[109;101;115;115;97;103;101];id_span:=(11,18)|};ev_number:={|i_neg:=false;i_val:=1;i_span:=(21,22)|};ev_options:=None;ev_comments:={|ac_detached:=[];ac_leading:=None;ac_trailing:=None|};ev_span:=(11,23)|}];en_reserved:=[];en_comments:={|ac_detached:=[];ac_leading:=None;ac_trailing:=None|};en_span:=(0,25)|}).
Proof. vm_compute. reflexivity. Qed.
Example p_parse_enum_14 : case_ (tp_parse_enum) [101;110;117;109;32;34;70;111;111;34] = Some (inr [UnexpectedToken [97;110;32;105;100;101;110;116;105;102;105;101;114] [34;70;111;111;34] (5,10)]).
Proof. vm_compute. reflexivity. Qed.
Example p_parse_enum_15 : case_ (tp_parse_enum) [101;110;117;109;32;70;111;111;32;123;32;66;65;82;32;61;32;48;32;91;40;97;110;46;101;120;116;41;46;111;112;116;32;61;32;48;46;53;93;59;32;125] = Some (inl {|en_name:={|id_val:=[70;111;111];id_span:=(5,8)|};en_options:=[];en_values:=[{|ev_name:={|id_val:=[66;65;82];id_span:=(11,14)|};ev_number:={|i_neg:=false;i_val:=0;i_span:=(17,18)|};ev_options:=(Some {|ol_options:=[{|ob_name:=[(ONExtension {|tn_dot:=None;tn_name:=[{|id_val:=[97;110];id_span:=(21,23)|}; {|id_val:=[101;120;116];id_span:=(24,27)|}]|} (20,28)); (ONIdent {|id_val:=[111;112;116];id_span:=(29,32)|})];ob_value:=(OVFloat {|fl_neg:=false;fl_text:=[48;46;53];fl_span:=(35,38)|})|}];ol_span:=(19,39)|});ev_comments:={|ac_detached:=[];ac_leading:=None;ac_trailing:=None|};ev_span:=(11,40)|}];en_reserved:=[];en_comments:={|ac_detached:=[];ac_leading:=None;ac_trailing:=None|};en_span:=(0,42)|}).
Proof. vm_compute. reflexivity. Qed.
Example p_parse_enum_16 : case_ (tp_parse_enum) [101;110;117;109;32;70;111;111;32;123;32;66;65;82;32;61;32;48;32;125] = Some (inr [UnexpectedToken [39;59;39;32;111;114;32;39;91;39] [125] (19,20)]).
Proof. vm_compute. reflexivity. Qed.
Example p_parse_service_1 : case_ (tp_parse_service) [115;101;114;118;105;99;101;32;70;111;111;32;123;125] = Some (inl {|sv_name:={|id_val:=[70;111;111];id_span:=(8,11)|};sv_options:=[];sv_methods:=[];sv_comments:={|ac_detached:=[];ac_leading:=None;ac_trailing:=None|};sv_span:=(0,14)|}).
Proof. vm_compute. reflexivity. Qed.
Example p_parse_service_2 : case_ (tp_parse_service) [115;101;114;118;105;99;101;32;70;111;111;32;123;32;59;32;59;32;125] = Some (inl {|sv_name:={|id_val:=[70;111;111];id_span:=(8,11)|};sv_options:=[];sv_methods:=[];sv_comments:={|ac_detached:=[];ac_leading:=None;ac_trailing:=None|};sv_span:=(0,19)|}).
Proof. vm_compute. reflexivity. Qed.
Example p_parse_service_3 : case_ (tp_parse_service) [47;47;100;101;116;97;99;104;101;100;10;10;47;47;108;101;97;100;105;110;103;10;115;101;114;118;105;99;101;32;70;111;111;32;123;10;47;42;32;110;111;116;116;114;97;105;108;105;110;103;32;42;47;59;32;59;32;125] = Some (inl {|sv_name:={|id_val:=[70;111;111];id_span:=(30,33)|};sv_options:=[];sv_methods:=[];sv_comments:={|ac_detached:=[[100;101;116;97;99;104;101;100;10]];ac_leading:=(Some [108;101;97;100;105;110;103;10]);ac_trailing:=None|};sv_span:=(22,58)|}).
Proof. vm_compute. reflexivity. Qed.
Example p_parse_service_4 : case_ (tp_parse_service) [115;101;114;118;105;99;101;32;115;101;114;118;105;99;101;32;123;32;125] = Some (inl {|sv_name:={|id_val:=[115;101;114;118;105;99;101];id_span:=(8,15)|};sv_options:=[];sv_methods:=[];sv_comments:={|ac_detached:=[];ac_leading:=None;ac_trailing:=None|};sv_span:=(0,19)|}).
Proof. vm_compute. reflexivity. Qed.
Example p_parse_service_5 : case_ (tp_parse_service) [115;101;114;118;105;99;101;32;70;111;111;32;123;32;114;112;99;32;98;97;114;40;65;41;32;114;101;116;117;114;110;115;32;40;66;46;67;41;59;32;125] = Some (inl {|sv_name:={|id_val:=[70;111;111];id_span:=(8,11)|};sv_options:=[];sv_methods:=[{|me_name:={|id_val:=[98;97;114];id_span:=(18,21)|};me_input:={|tn_dot:=None;tn_name:=[{|id_val:=[65];id_span:=(22,23)|}]|};me_output:={|tn_dot:=None;tn_name:=[{|id_val:=[66];id_span:=(34,35)|}; {|id_val:=[67];id_span:=(36,37)|}]|};me_options:=[];me_client:=None;me_server:=None;me_comments:={|ac_detached:=[];ac_leading:=None;ac_trailing:=None|};me_span:=(14,39)|}];sv_comments:={|ac_detached:=[];ac_leading:=None;ac_trailing:=None|};sv_span:=(0,41)|}).
Proof. vm_compute. reflexivity. Qed.
Example p_parse_service_6 : case_ (tp_parse_service) [115;101;114;118;105;99;101;32;70;111;111;32;123;32;114;112;99;32;98;97;114;40;115;116;114;101;97;109;32;46;65;46;66;41;32;114;101;116;117;114;110;115;32;40;115;116;114;101;97;109;32;46;67;41;59;32;125] = Some (inl {|sv_name:={|id_val:=[70;111;111];id_span:=(8,11)|};sv_options:=[];sv_methods:=[{|me_name:={|id_val:=[98;97;114];id_span:=(18,21)|};me_input:={|tn_dot:=(Some (29,30));tn_name:=[{|id_val:=[65];id_span:=(30,31)|}; {|id_val:=[66];id_span:=(32,33)|}]|};me_output:={|tn_dot:=(Some (51,52));tn_name:=[{|id_val:=[67];id_span:=(52,53)|}]|};me_options:=[];me_client:=(Some (22,28));me_server:=(Some (44,50));me_comments:={|ac_detached:=[];ac_leading:=None;ac_trailing:=None|};me_span:=(14,55)|}];sv_comments:={|ac_detached:=[];ac_leading:=None;ac_trailing:=None|};sv_span:=(0,57)|}).
Proof. vm_compute. reflexivity. Qed.
Example p_parse_service_7 : case_ (tp_parse_service) [115;101;114;118;105;99;101;32;70;111;111;32;123;32;114;112;99;32;98;97;114;40;65;41;32;114;101;116;117;114;110;115;32;40;66;46;67;41;32;123;32;125;32;125] = Some (inl {|sv_name:={|id_val:=[70;111;111];id_span:=(8,11)|};sv_options:=[];sv_methods:=[{|me_name:={|id_val:=[98;97;114];id_span:=(18,21)|};me_input:={|tn_dot:=None;tn_name:=[{|id_val:=[65];id_span:=(22,23)|}]|};me_output:={|tn_dot:=None;tn_name:=[{|id_val:=[66];id_span:=(34,35)|}; {|id_val:=[67];id_span:=(36,37)|}]|};me_options:=[];me_client:=None;me_server:=None;me_comments:={|ac_detached:=[];ac_leading:=None;ac_trailing:=None|};me_span:=(14,42)|}];sv_comments:={|ac_detached:=[];ac_leading:=None;ac_trailing:=None|};sv_span:=(0,44)|}).
Proof. vm_compute. reflexivity. Qed.
Example p_parse_service_8 : case_ (tp_parse_service) [115;101;114;118;105;99;101;32;70;111;111;32;123;32;114;112;99;32;98;97;114;40;65;41;32;114;101;116;117;114;110;115;32;40;66;46;67;41;32;123;32;59;32;59;32;125;32;125] = Some (inl {|sv_name:={|id_val:=[70;111;111];id_span:=(8,11)|};sv_options:=[];sv_methods:=[{|me_name:={|id_val:=[98;97;114];id_span:=(18,21)|};me_input:={|tn_dot:=None;tn_name:=[{|id_val:=[65];id_span:=(22,23)|}]|};me_output:={|tn_dot:=None;tn_name:=[{|id_val:=[66];id_span:=(34,35)|}; {|id_val:=[67];id_span:=(36,37)|}]|};me_options:=[];me_client:=None;me_server:=None;me_comments:={|ac_detached:=[];ac_leading:=None;ac_trailing:=None|};me_span:=(14,46)|}];sv_comments:={|ac_detached:=[];ac_leading:=None;ac_trailing:=None|};sv_span:=(0,48)|}).
Proof. vm_compute. reflexivity. Qed.
Example p_parse_service_9 : case_ (tp_parse_service) [115;101;114;118;105;99;101;32;70;111;111;32;123;32;114;112;99;32;98;97;114;40;65;41;32;114;101;116;117;114;110;115;32;40;66;46;67;41;32;123;32;111;112;116;105;111;110;32;111;112;116;32;61;32;45;49;59;32;125;32;125] = Some (inl {|sv_name:={|id_val:=[70;111;111];id_span:=(8,11)|};sv_options:=[];sv_methods:=[{|me_name:={|id_val:=[98;97;114];id_span:=(18,21)|};me_input:={|tn_dot:=None;tn_name:=[{|id_val:=[65];id_span:=(22,23)|}]|};me_output:={|tn_dot:=None;tn_name:=[{|id_val:=[66];id_span:=(34,35)|}; {|id_val:=[67];id_span:=(36,37)|}]|};me_options:=[{|op_body:={|ob_name:=[(ONIdent {|id_val:=[111;112;116];id_span:=(48,51)|})];ob_value:=(OVInt {|i_neg:=true;i_val:=1;i_span:=(54,56)|})|};op_comments:={|ac_detached:=[];ac_leading:=None;ac_trailing:=None|};op_span:=(41,57)|}];me_client:=None;me_server:=None;me_comments:={|ac_detached:=[];ac_leading:=None;ac_trailing:=None|};me_span:=(14,59)|}];sv_comments:={|ac_detached:=[];ac_leading:=None;ac_trailing:=None|};sv_span:=(0,61)|}).
Proof. vm_compute. reflexivity. Qed.
Example p_parse_service_10 : case_ (tp_parse_service) [115;101;114;118;105;99;101;32;59] = Some (inr [UnexpectedToken [97;110;32;105;100;101;110;116;105;102;105;101;114] [59] (8,9)]).
Proof. vm_compute. reflexivity. Qed.
Example p_parse_service_11 : case_ (tp_parse_service) [115;101;114;118;105;99;101;32;70;111;111;32;40] = Some (inr [UnexpectedToken [39;123;39] [40] (12,13)]).
Proof. vm_compute. reflexivity. Qed.
Example p_parse_service_12 : case_ (tp_parse_service) [115;101;114;118;105;99;101;32;70;111;111;32;123;32;98;97;114] = Some (inr [UnexpectedToken [39;114;112;99;39;44;32;39;125;39;44;32;39;111;112;116;105;111;110;39;32;111;114;32;39;59;39] [98;97;114] (14,17)]).
Proof. vm_compute. reflexivity. Qed.
Example p_parse_service_13 : case_ (tp_parse_service) [115;101;114;118;105;99;101;32;70;111;111;32;123;32;114;112;99;32;61] = Some (inr [UnexpectedToken [97;110;32;105;100;101;110;116;105;102;105;101;114] [61] (18,19)]).
Proof. vm_compute. reflexivity. Qed.
Example p_parse_service_14 : case_ (tp_parse_service) [115;101;114;118;105;99;101;32;70;111;111;32;123;32;114;112;99;32;98;97;114;123] = Some (inr [UnexpectedToken [39;40;39] [123] (21,22)]).
Proof. vm_compute. reflexivity. Qed.
Example p_parse_service_15 : case_ (tp_parse_service) [115;101;114;118;105;99;101;32;70;111;111;32;123;32;114;112;99;32;98;97;114;40;43] = Some (inr [UnexpectedToken [39;115;116;114;101;97;109;39;32;111;114;32;97;32;116;121;112;101;32;110;97;109;101] [43] (22,23)]).
Proof. vm_compute. reflexivity. Qed.
Example p_parse_service_16 : case_ (tp_parse_service) [115;101;114;118;105;99;101;32;70;111;111;32;123;32;114;112;99;32;98;97;114;40;65;40] = Some (inr [UnexpectedToken [39;46;39;32;111;114;32;39;41;39] [40] (23,24)]).
Proof. vm_compute. reflexivity. Qed.
Example p_parse_service_17 : case_ (tp_parse_service) [115;101;114;118;105;99;101;32;70;111;111;32;123;32;114;112;99;32;98;97;114;40;65;41;32;91] = Some (inr [UnexpectedToken [39;114;101;116;117;114;110;115;39] [91] (25,26)]).
Proof. vm_compute. reflexivity. Qed.
Example p_parse_service_18 : case_ (tp_parse_service) [115;101;114;118;105;99;101;32;70;111;111;32;123;32;114;112;99;32;98;97;114;40;65;41;32;114;101;116;117;114;110;115;32;61] = Some (inr [UnexpectedToken [39;40;39] [61] (33,34)]).
Proof. vm_compute. reflexivity. Qed.
Example p_parse_service_19 : case_ (tp_parse_service) [115;101;114;118;105;99;101;32;70;111;111;32;123;32;114;112;99;32;98;97;114;40;65;41;32;114;101;116;117;114;110;115;32;40;41] = Some (inr [UnexpectedToken [39;115;116;114;101;97;109;39;32;111;114;32;97;32;116;121;112;101;32;110;97;109;101] [41] (34,35)]).
Proof. vm_compute. reflexivity. Qed.
Example p_parse_service_20 : case_ (tp_parse_service) [115;101;114;118;105;99;101;32;70;111;111;32;123;32;114;112;99;32;98;97;114;40;65;41;32;114;101;116;117;114;110;115;32;40;115;116;114;101;97;109;32;61;41] = Some (inr [UnexpectedToken [97;32;116;121;112;101;32;110;97;109;101] [61] (41,42)]).
Proof. vm_compute. reflexivity. Qed.
Example p_parse_service_21 : case_ (tp_parse_service) [115;101;114;118;105;99;101;32;70;111;111;32;123;32;114;112;99;32;98;97;114;40;65;41;32;114;101;116;117;114;110;115;32;40;115;116;114;101;97;109;32;66;125] = Some (inr [UnexpectedToken [39;46;39;32;111;114;32;39;41;39] [125] (42,43)]).
Proof. vm_compute. reflexivity. Qed.
Example p_parse_service_22 : case_ (tp_parse_service) [115;101;114;118;105;99;101;32;70;111;111;32;123;32;114;112;99;32;98;97;114;40;65;41;32;114;101;116;117;114;110;115;32;40;115;116;114;101;97;109;32;66;41;32;41] = Some (inr [UnexpectedToken [39;59;39;32;111;114;32;39;123;39] [41] (44,45)]).
Proof. vm_compute. reflexivity. Qed.
Example p_parse_service_23 : case_ (tp_parse_service) [115;101;114;118;105;99;101;32;70;111;111;32;123;32;114;112;99;32;98;97;114;40;65;41;32;114;101;116;117;114;110;115;32;40;115;116;114;101;97;109;32;66;41;32;123;114;112;99] = Some (inr [UnexpectedToken [39;111;112;116;105;111;110;39;44;32;39;125;39;32;111;114;32;39;59;39] [114;112;99] (45,48)]).
Proof. vm_compute. reflexivity. Qed.
Example p_parse_service_24 : case_ (tp_parse_service) [115;101;114;118;105;99;101;32;70;111;111;32;123;32;114;112;99;32;98;97;114;40;115;116;114;101;97;109;32;115;116;114;101;97;109;41;32;114;101;116;117;114;110;115;32;40;115;116;114;101;97;109;32;115;116;114;101;97;109;46;115;116;114;101;97;109;41;59;32;125] = Some (inl {|sv_name:={|id_val:=[70;111;111];id_span:=(8,11)|};sv_options:=[];sv_methods:=[{|me_name:={|id_val:=[98;97;114];id_span:=(18,21)|};me_input:={|tn_dot:=None;tn_name:=[{|id_val:=[115;116;114;101;97;109];id_span:=(29,35)|}]|};me_output:={|tn_dot:=None;tn_name:=[{|id_val:=[115;116;114;101;97;109];id_span:=(53,59)|}; {|id_val:=[115;116;114;101;97;109];id_span:=(60,66)|}]|};me_options:=[];me_client:=(Some (22,28));me_server:=(Some (46,52));me_comments:={|ac_detached:=[];ac_leading:=None;ac_trailing:=None|};me_span:=(14,68)|}];sv_comments:={|ac_detached:=[];ac_leading:=None;ac_trailing:=None|};sv_span:=(0,70)|}).
Proof. vm_compute. reflexivity. Qed.
Example p_parse_service_25 : case_ (tp_parse_service) [115;101;114;118;105;99;101;32;70;111;111;32;123;32;114;112;99;32;98;97;114;40;115;116;114;101;97;109;32;46;115;116;114;101;97;109;46;114;112;99;41;32;114;101;116;117;114;110;115;32;40;115;116;114;101;97;109;32;46;109;97;112;46;101;110;117;109;41;59;32;125] = Some (inl {|sv_name:={|id_val:=[70;111;111];id_span:=(8,11)|};sv_options:=[];sv_methods:=[{|me_name:={|id_val:=[98;97;114];id_span:=(18,21)|};me_input:={|tn_dot:=(Some (29,30));tn_name:=[{|id_val:=[115;116;114;101;97;109];id_span:=(30,36)|}; {|id_val:=[114;112;99];id_span:=(37,40)|}]|};me_output:={|tn_dot:=(Some (58,59));tn_name:=[{|id_val:=[109;97;112];id_span:=(59,62)|}; {|id_val:=[101;110;117;109];id_span:=(63,67)|}]|};me_options:=[];me_client:=(Some (22,28));me_server:=(Some (51,57));me_comments:={|ac_detached:=[];ac_leading:=None;ac_trailing:=None|};me_span:=(14,69)|}];sv_comments:={|ac_detached:=[];ac_leading:=None;ac_trailing:=None|};sv_span:=(0,71)|}).
Proof. vm_compute. reflexivity. Qed.
Example p_parse_service_26 : case_ (tp_parse_service) [115;101;114;118;105;99;101;32;70;111;111;32;123;10;32;32;32;32;32;32;32;32;32;32;32;32;111;112;116;105;111;110;32;102;111;111;32;61;32;98;97;114;59;10;32;32;32;32;32;32;32;32;125] = Some (inl {|sv_name:={|id_val:=[70;111;111];id_span:=(8,11)|};sv_options:=[{|op_body:={|ob_name:=[(ONIdent {|id_val:=[102;111;111];id_span:=(33,36)|})];ob_value:=(OVIdent false {|id_val:=[98;97;114];id_span:=(39,42)|} (39,42))|};op_comments:={|ac_detached:=[];ac_leading:=None;ac_trailing:=None|};op_span:=(26,43)|}];sv_methods:=[];sv_comments:={|ac_detached:=[];ac_leading:=None;ac_trailing:=None|};sv_span:=(0,53)|}).
Proof. vm_compute. reflexivity. Qed.
Example p_parse_package_1 : case_ (tp_parse_package) [112;97;99;107;97;103;101;32;102;111;111;59] = Some (inl {|pk_name:=[{|id_val:=[102;111;111];id_span:=(8,11)|}];pk_comments:={|ac_detached:=[];ac_leading:=None;ac_trailing:=None|};pk_span:=(0,12)|}).
Proof. vm_compute. reflexivity. Qed.
Example p_parse_package_2 : case_ (tp_parse_package) [47;47;100;101;116;97;99;104;101;100;10;47;47;100;101;116;97;99;104;101;100;50;10;10;47;47;100;101;116;97;99;104;101;100;51;10;10;112;97;99;107;97;103;101;32;102;111;111;59;10;47;42;116;114;97;105;108;105;110;103;42;47] = Some (inl {|pk_name:=[{|id_val:=[102;111;111];id_span:=(45,48)|}];pk_comments:={|ac_detached:=[[100;101;116;97;99;104;101;100;10;100;101;116;97;99;104;101;100;50;10]; [100;101;116;97;99;104;101;100;51;10]];ac_leading:=None;ac_trailing:=(Some [116;114;97;105;108;105;110;103])|};pk_span:=(37,49)|}).
Proof. vm_compute. reflexivity. Qed.
Example p_parse_package_3 : case_ (tp_parse_package) [112;97;99;107;97;103;101;32;102;111;111;46;98;97;114;59] = Some (inl {|pk_name:=[{|id_val:=[102;111;111];id_span:=(8,11)|}; {|id_val:=[98;97;114];id_span:=(12,15)|}];pk_comments:={|ac_detached:=[];ac_leading:=None;ac_trailing:=None|};pk_span:=(0,16)|}).
Proof. vm_compute. reflexivity. Qed.
Example p_parse_package_4 : case_ (tp_parse_package) [112;97;99;107;97;103;101;32;61] = Some (inr [UnexpectedToken [97;110;32;105;100;101;110;116;105;102;105;101;114] [61] (8,9)]).
Proof. vm_compute. reflexivity. Qed.
Example p_parse_package_5 : case_ (tp_parse_package) [112;97;99;107;97;103;101;32;102;111;111;41] = Some (inr [UnexpectedToken [39;46;39;32;111;114;32;39;59;39] [41] (11,12)]).
Proof. vm_compute. reflexivity. Qed.
Example p_parse_import_1 : case_ (tp_parse_import) [105;109;112;111;114;116;32;39;102;111;111;39;59] = Some (inl {|im_kind:=None;im_value:=[102;111;111];im_value_span:=(7,12);im_comments:={|ac_detached:=[];ac_leading:=None;ac_trailing:=None|};im_span:=(0,13)|}).
Proof. vm_compute. reflexivity. Qed.
Example p_parse_import_2 : case_ (tp_parse_import) [47;42;108;101;97;100;105;110;103;42;47;10;105;109;112;111;114;116;32;39;102;111;111;39;59;47;42;116;114;97;105;108;105;110;103;42;47;10] = Some (inl {|im_kind:=None;im_value:=[102;111;111];im_value_span:=(19,24);im_comments:={|ac_detached:=[];ac_leading:=(Some [108;101;97;100;105;110;103]);ac_trailing:=(Some [116;114;97;105;108;105;110;103])|};im_span:=(12,25)|}).
Proof. vm_compute. reflexivity. Qed.
Example p_parse_import_3 : case_ (tp_parse_import) [105;109;112;111;114;116;32;119;101;97;107;32;34;102;111;111;34;59] = Some (inl {|im_kind:=(Some (IWeak,(7,11)));im_value:=[102;111;111];im_value_span:=(12,17);im_comments:={|ac_detached:=[];ac_leading:=None;ac_trailing:=None|};im_span:=(0,18)|}).
Proof. vm_compute. reflexivity. Qed.
Example p_parse_import_4 : case_ (tp_parse_import) [105;109;112;111;114;116;32;112;117;98;108;105;99;32;39;102;92;120;54;102;111;39;59] = Some (inl {|im_kind:=(Some (IPublic,(7,13)));im_value:=[102;111;111];im_value_span:=(14,22);im_comments:={|ac_detached:=[];ac_leading:=None;ac_trailing:=None|};im_span:=(0,23)|}).
Proof. vm_compute. reflexivity. Qed.
Example p_parse_import_5 : case_ (tp_parse_import) [105;109;112;111;114;116;32;59] = Some (inr [UnexpectedToken [97;32;115;116;114;105;110;103;32;108;105;116;101;114;97;108;44;32;39;112;117;98;108;105;99;39;32;111;114;32;39;119;101;97;107;39] [59] (7,8)]).
Proof. vm_compute. reflexivity. Qed.
Example p_parse_import_6 : case_ (tp_parse_import) [105;109;112;111;114;116;32;112;117;98;108;105;99;32;59] = Some (inr [UnexpectedToken [97;32;115;116;114;105;110;103;32;108;105;116;101;114;97;108] [59] (14,15)]).
Proof. vm_compute. reflexivity. Qed.
Example p_parse_import_7 : case_ (tp_parse_import) [105;109;112;111;114;116;32;39;102;111;111;39;32;109;101;115;115;97;103;101] = Some (inr [UnexpectedToken [39;59;39] [109;101;115;115;97;103;101] (13,20)]).
Proof. vm_compute. reflexivity. Qed.
Example p_parse_import_8 : case_ (tp_parse_import) [105;109;112;111;114;116;32;39;102;111;111;92;92;98;97;114;39;59] = Some (inr [InvalidImport (7,17)]).
Proof. vm_compute. reflexivity. Qed.
Example p_parse_import_9 : case_ (tp_parse_import) [105;109;112;111;114;116;32;39;102;111;111;47;47;98;97;114;39;59] = Some (inr [InvalidImport (7,17)]).
Proof. vm_compute. reflexivity. Qed.
Example p_parse_import_10 : case_ (tp_parse_import) [105;109;112;111;114;116;32;39;102;111;111;47;46;47;98;97;114;39;59] = Some (inr [InvalidImport (7,18)]).
Proof. vm_compute. reflexivity. Qed.
Example p_parse_import_11 : case_ (tp_parse_import) [105;109;112;111;114;116;32;39;102;111;111;47;46;46;47;98;97;114;39;59] = Some (inr [InvalidImport (7,19)]).
Proof. vm_compute. reflexivity. Qed.
Example p_parse_import_12 : case_ (tp_parse_import) [105;109;112;111;114;116;32;39;92;120;70;70;39;59] = Some (inr [InvalidUtf8String (7,13)]).
Proof. vm_compute. reflexivity. Qed.
Example p_parse_import_13 : case_ (tp_parse_import) [105;109;112;111;114;116;32;39;102;111;111;39;32;34;98;97;114;34;59] = Some (inl {|im_kind:=None;im_value:=[102;111;111;98;97;114];im_value_span:=(7,18);im_comments:={|ac_detached:=[];ac_leading:=None;ac_trailing:=None|};im_span:=(0,19)|}).
Proof. vm_compute. reflexivity. Qed.
Example p_parse_extension_1 : case_ (tp_parse_extend) [101;120;116;101;110;100;32;70;111;111;32;123;32;125] = Some (inl {|et_extendee:={|tn_dot:=None;tn_name:=[{|id_val:=[70;111;111];id_span:=(7,10)|}]|};et_fields:=[];et_comments:={|ac_detached:=[];ac_leading:=None;ac_trailing:=None|};et_span:=(0,14)|}).
Proof. vm_compute. reflexivity. Qed.
Example p_parse_extension_2 : case_ (tp_parse_extend) [47;42;108;101;97;100;105;110;103;42;47;101;120;116;101;110;100;32;70;111;111;32;123;10;47;47;116;114;97;105;108;105;110;103;10;32;125] = Some (inl {|et_extendee:={|tn_dot:=None;tn_name:=[{|id_val:=[70;111;111];id_span:=(18,21)|}]|};et_fields:=[];et_comments:={|ac_detached:=[];ac_leading:=(Some [108;101;97;100;105;110;103]);ac_trailing:=(Some [116;114;97;105;108;105;110;103;10])|};et_span:=(11,37)|}).
Proof. vm_compute. reflexivity. Qed.
Example p_parse_extension_3 : case_ (tp_parse_extend) [101;120;116;101;110;100;32;70;111;111;32;123;32;59;32;59;32;125] = Some (inl {|et_extendee:={|tn_dot:=None;tn_name:=[{|id_val:=[70;111;111];id_span:=(7,10)|}]|};et_fields:=[];et_comments:={|ac_detached:=[];ac_leading:=None;ac_trailing:=None|};et_span:=(0,18)|}).
Proof. vm_compute. reflexivity. Qed.
Example p_parse_extension_4 : case_ (tp_parse_extend) [101;120;116;101;110;100;32;70;111;111;46;70;111;111;32;123;32;111;112;116;105;111;110;97;108;32;105;110;116;51;50;32;98;97;114;32;61;32;49;50;54;59;32;125] = Some (inl {|et_extendee:={|tn_dot:=None;tn_name:=[{|id_val:=[70;111;111];id_span:=(7,10)|}; {|id_val:=[70;111;111];id_span:=(11,14)|}]|};et_fields:=[{|fd_label:=(Some (LOptional,(17,25)));fd_name:={|id_val:=[98;97;114];id_span:=(32,35)|};fd_kind:=(FKNormal TyInt32 (26,31));fd_number:={|i_neg:=false;i_val:=126;i_span:=(38,41)|};fd_options:=None;fd_comments:={|ac_detached:=[];ac_leading:=None;ac_trailing:=None|};fd_span:=(17,42)|}];et_comments:={|ac_detached:=[];ac_leading:=None;ac_trailing:=None|};et_span:=(0,44)|}).
Proof. vm_compute. reflexivity. Qed.
Example p_parse_extension_5 : case_ (tp_parse_extend) [101;120;116;101;110;100;32;46;70;111;111;32;123;32;111;112;116;105;111;110;97;108;32;105;110;116;51;50;32;98;97;114;32;61;32;49;50;54;59;32;114;101;112;101;97;116;101;100;32;115;116;114;105;110;103;32;113;117;122;32;61;32;49;50;55;59;32;125] = Some (inl {|et_extendee:={|tn_dot:=(Some (7,8));tn_name:=[{|id_val:=[70;111;111];id_span:=(8,11)|}]|};et_fields:=[{|fd_label:=(Some (LOptional,(14,22)));fd_name:={|id_val:=[98;97;114];id_span:=(29,32)|};fd_kind:=(FKNormal TyInt32 (23,28));fd_number:={|i_neg:=false;i_val:=126;i_span:=(35,38)|};fd_options:=None;fd_comments:={|ac_detached:=[];ac_leading:=None;ac_trailing:=None|};fd_span:=(14,39)|}; {|fd_label:=(Some (LRepeated,(40,48)));fd_name:={|id_val:=[113;117;122];id_span:=(56,59)|};fd_kind:=(FKNormal TyString (49,55));fd_number:={|i_neg:=false;i_val:=127;i_span:=(62,65)|};fd_options:=None;fd_comments:={|ac_detached:=[];ac_leading:=None;ac_trailing:=None|};fd_span:=(40,66)|}];et_comments:={|ac_detached:=[];ac_leading:=None;ac_trailing:=None|};et_span:=(0,68)|}).
Proof. vm_compute. reflexivity. Qed.
Example p_parse_extension_6 : case_ (tp_parse_extend) [101;120;116;101;110;100;32;70;111;111;32;123;32;114;101;112;101;97;116;101;100;32;103;114;111;117;112;32;65;32;61;32;49;32;123;32;111;112;116;105;111;110;97;108;32;115;116;114;105;110;103;32;110;97;109;101;32;61;32;50;59;32;125;32;125] = Some (inl {|et_extendee:={|tn_dot:=None;tn_name:=[{|id_val:=[70;111;111];id_span:=(7,10)|}]|};et_fields:=[{|fd_label:=(Some (LRepeated,(13,21)));fd_name:={|id_val:=[65];id_span:=(28,29)|};fd_kind:=(FKGroup (22,27) (Body [(MIField {|fd_label:=(Some (LOptional,(36,44)));fd_name:={|id_val:=[110;97;109;101];id_span:=(52,56)|};fd_kind:=(FKNormal TyString (45,51));fd_number:={|i_neg:=false;i_val:=2;i_span:=(59,60)|};fd_options:=None;fd_comments:={|ac_detached:=[];ac_leading:=None;ac_trailing:=None|};fd_span:=(36,61)|})] [] [] []));fd_number:={|i_neg:=false;i_val:=1;i_span:=(32,33)|};fd_options:=None;fd_comments:={|ac_detached:=[];ac_leading:=None;ac_trailing:=None|};fd_span:=(13,63)|}];et_comments:={|ac_detached:=[];ac_leading:=None;ac_trailing:=None|};et_span:=(0,65)|}).
Proof. vm_compute. reflexivity. Qed.
Example p_parse_extension_7 : case_ (tp_parse_extend) [101;120;116;101;110;100;32;93;32] = Some (inr [UnexpectedToken [97;32;116;121;112;101;32;110;97;109;101] [93] (7,8)]).
Proof. vm_compute. reflexivity. Qed.
Example p_parse_extension_8 : case_ (tp_parse_extend) [101;120;116;101;110;100;32;123;32;39;102;111;111;39;32;125] = Some (inr [UnexpectedToken [97;32;116;121;112;101;32;110;97;109;101] [123] (7,8)]).
Proof. vm_compute. reflexivity. Qed.
Example p_parse_reserved_1 : case_ (tp_parse_reserved) [47;47;100;101;116;97;99;104;101;100;10;10;114;101;115;101;114;118;101;100;32;39;102;111;111;39;59;47;47;116;114;97;105;108;105;110;103] = Some (inl {|rs_kind:=(RKNames [{|id_val:=[102;111;111];id_span:=(21,26)|}]);rs_comments:={|ac_detached:=[[100;101;116;97;99;104;101;100;10]];ac_leading:=None;ac_trailing:=(Some [116;114;97;105;108;105;110;103])|};rs_span:=(12,27)|}).
Proof. vm_compute. reflexivity. Qed.
Example p_parse_reserved_2 : case_ (tp_parse_reserved) [114;101;115;101;114;118;101;100;32;48;44;32;50;32;116;111;32;51;44;32;53;32;116;111;32;109;97;120;59] = Some (inl {|rs_kind:=(RKRanges [{|rr_start:={|i_neg:=false;i_val:=0;i_span:=(9,10)|};rr_end:=RENone|}; {|rr_start:={|i_neg:=false;i_val:=2;i_span:=(12,13)|};rr_end:=(REInt {|i_neg:=false;i_val:=3;i_span:=(17,18)|})|}; {|rr_start:={|i_neg:=false;i_val:=5;i_span:=(20,21)|};rr_end:=(REMax (25,28))|}]);rs_comments:={|ac_detached:=[];ac_leading:=None;ac_trailing:=None|};rs_span:=(0,29)|}).
Proof. vm_compute. reflexivity. Qed.
Example p_parse_reserved_3 : case_ (tp_parse_reserved) [114;101;115;101;114;118;101;100;32;45;49;59] = Some (inl {|rs_kind:=(RKRanges [{|rr_start:={|i_neg:=true;i_val:=1;i_span:=(9,11)|};rr_end:=RENone|}]);rs_comments:={|ac_detached:=[];ac_leading:=None;ac_trailing:=None|};rs_span:=(0,12)|}).
Proof. vm_compute. reflexivity. Qed.
Example p_parse_reserved_4 : case_ (tp_parse_reserved) [114;101;115;101;114;118;101;100;32;39;102;111;111;39;44;32;39;98;97;114;39;59] = Some (inl {|rs_kind:=(RKNames [{|id_val:=[102;111;111];id_span:=(9,14)|}; {|id_val:=[98;97;114];id_span:=(16,21)|}]);rs_comments:={|ac_detached:=[];ac_leading:=None;ac_trailing:=None|};rs_span:=(0,22)|}).
Proof. vm_compute. reflexivity. Qed.
Example p_parse_reserved_5 : case_ (tp_parse_reserved) [114;101;115;101;114;118;101;100;32;59] = Some (inr [UnexpectedToken [97;32;112;111;115;105;116;105;118;101;32;105;110;116;101;103;101;114;32;111;114;32;115;116;114;105;110;103] [59] (9,10)]).
Proof. vm_compute. reflexivity. Qed.
Example p_parse_reserved_6 : case_ (tp_parse_reserved) [114;101;115;101;114;118;101;100;32;39;48;102;111;111;39;59] = Some (inr [InvalidIdentifier (9,15)]).
Proof. vm_compute. reflexivity. Qed.
Example p_parse_reserved_7 : case_ (tp_parse_reserved) [114;101;115;101;114;118;101;100;32;39;92;120;70;70;39;59] = Some (inr [InvalidUtf8String (9,15); InvalidIdentifier (9,15)]).
Proof. vm_compute. reflexivity. Qed.
Example p_parse_reserved_8 : case_ (tp_parse_reserved) [114;101;115;101;114;118;101;100;32;45;49;102;59] = Some (inr [FloatSuffixOutsideTextFormat (10,12); UnexpectedToken [97;110;32;105;110;116;101;103;101;114] [49;46;48] (10,12)]).
Proof. vm_compute. reflexivity. Qed.
Example p_parse_group_1 : case_ (tp_parse_field) [47;47;108;101;97;100;105;110;103;10;111;112;116;105;111;110;97;108;32;103;114;111;117;112;32;65;32;61;32;49;32;123;10;47;42;116;114;97;105;108;105;110;103;42;47;32;125] = Some (inl {|fd_label:=(Some (LOptional,(10,18)));fd_name:={|id_val:=[65];id_span:=(25,26)|};fd_kind:=(FKGroup (19,24) (Body [] [] [] []));fd_number:={|i_neg:=false;i_val:=1;i_span:=(29,30)|};fd_options:=None;fd_comments:={|ac_detached:=[];ac_leading:=(Some [108;101;97;100;105;110;103;10]);ac_trailing:=(Some [116;114;97;105;108;105;110;103])|};fd_span:=(10,47)|}).
Proof. vm_compute. reflexivity. Qed.
Example p_parse_group_2 : case_ (tp_parse_field) [111;112;116;105;111;110;97;108;32;103;114;111;117;112;32;65;32;61;32;49;32;123;32;125] = Some (inl {|fd_label:=(Some (LOptional,(0,8)));fd_name:={|id_val:=[65];id_span:=(15,16)|};fd_kind:=(FKGroup (9,14) (Body [] [] [] []));fd_number:={|i_neg:=false;i_val:=1;i_span:=(19,20)|};fd_options:=None;fd_comments:={|ac_detached:=[];ac_leading:=None;ac_trailing:=None|};fd_span:=(0,24)|}).
Proof. vm_compute. reflexivity. Qed.
Example p_parse_group_3 : case_ (tp_parse_field) [111;112;116;105;111;110;97;108;32;103;114;111;117;112;32;65;32;61;32;49;32;123;32;59;32;59;32;125] = Some (inl {|fd_label:=(Some (LOptional,(0,8)));fd_name:={|id_val:=[65];id_span:=(15,16)|};fd_kind:=(FKGroup (9,14) (Body [] [] [] []));fd_number:={|i_neg:=false;i_val:=1;i_span:=(19,20)|};fd_options:=None;fd_comments:={|ac_detached:=[];ac_leading:=None;ac_trailing:=None|};fd_span:=(0,28)|}).
Proof. vm_compute. reflexivity. Qed.
Example p_parse_group_4 : case_ (tp_parse_field) [111;112;116;105;111;110;97;108;32;103;114;111;117;112;32;65;32;61;32;49;32;91;100;101;112;114;101;99;97;116;101;100;32;61;32;116;114;117;101;93;32;123;32;125] = Some (inl {|fd_label:=(Some (LOptional,(0,8)));fd_name:={|id_val:=[65];id_span:=(15,16)|};fd_kind:=(FKGroup (9,14) (Body [] [] [] []));fd_number:={|i_neg:=false;i_val:=1;i_span:=(19,20)|};fd_options:=(Some {|ol_options:=[{|ob_name:=[(ONIdent {|id_val:=[100;101;112;114;101;99;97;116;101;100];id_span:=(22,32)|})];ob_value:=(OVIdent false {|id_val:=[116;114;117;101];id_span:=(35,39)|} (35,39))|}];ol_span:=(21,40)|});fd_comments:={|ac_detached:=[];ac_leading:=None;ac_trailing:=None|};fd_span:=(0,44)|}).
Proof. vm_compute. reflexivity. Qed.
Example p_parse_group_5 : case_ (tp_parse_field) [111;112;116;105;111;110;97;108;32;103;114;111;117;112;32;65;32;61;32;49;32;123;32;111;112;116;105;111;110;97;108;32;115;105;110;116;51;50;32;102;111;111;32;61;32;50;59;32;125] = Some (inl {|fd_label:=(Some (LOptional,(0,8)));fd_name:={|id_val:=[65];id_span:=(15,16)|};fd_kind:=(FKGroup (9,14) (Body [(MIField {|fd_label:=(Some (LOptional,(23,31)));fd_name:={|id_val:=[102;111;111];id_span:=(39,42)|};fd_kind:=(FKNormal TySint32 (32,38));fd_number:={|i_neg:=false;i_val:=2;i_span:=(45,46)|};fd_options:=None;fd_comments:={|ac_detached:=[];ac_leading:=None;ac_trailing:=None|};fd_span:=(23,47)|})] [] [] []));fd_number:={|i_neg:=false;i_val:=1;i_span:=(19,20)|};fd_options:=None;fd_comments:={|ac_detached:=[];ac_leading:=None;ac_trailing:=None|};fd_span:=(0,49)|}).
Proof. vm_compute. reflexivity. Qed.
Example p_parse_group_6 : case_ (tp_parse_field) [111;112;116;105;111;110;97;108;32;103;114;111;117;112;32;97;32;61;32;49;32;123;32;125] = Some (inr [InvalidGroupName (15,16)]).
Proof. vm_compute. reflexivity. Qed.
Example p_parse_group_7 : case_ (tp_parse_field) [111;112;116;105;111;110;97;108;32;103;114;111;117;112;32;44;32;123;32;125] = Some (inr [UnexpectedToken [97;110;32;105;100;101;110;116;105;102;105;101;114] [44] (15,16)]).
Proof. vm_compute. reflexivity. Qed.
Example p_parse_group_8 : case_ (tp_parse_field) [111;112;116;105;111;110;97;108;32;103;114;111;117;112;32;97;32;91] = Some (inr [InvalidGroupName (15,16); UnexpectedToken [39;61;39] [91] (17,18)]).
Proof. vm_compute. reflexivity. Qed.
Example p_parse_group_9 : case_ (tp_parse_field) [111;112;116;105;111;110;97;108;32;103;114;111;117;112;32;65;32;61;32;123] = Some (inr [UnexpectedToken [97;110;32;105;110;116;101;103;101;114] [123] (19,20)]).
Proof. vm_compute. reflexivity. Qed.
Example p_parse_group_10 : case_ (tp_parse_field) [111;112;116;105;111;110;97;108;32;103;114;111;117;112;32;65;32;61;32;49;32;59] = Some (inr [UnexpectedToken [39;123;39;32;111;114;32;39;91;39] [59] (21,22)]).
Proof. vm_compute. reflexivity. Qed.
Example p_parse_group_11 : case_ (tp_parse_field) [111;112;116;105;111;110;97;108;32;103;114;111;117;112;32;65;32;61;32;49;32;123;93] = Some (inr [UnexpectedToken [97;32;109;101;115;115;97;103;101;32;102;105;101;108;100;44;32;111;110;101;111;102;44;32;114;101;115;101;114;118;101;100;32;114;97;110;103;101;44;32;101;110;117;109;44;32;109;101;115;115;97;103;101;44;32;111;112;116;105;111;110;32;111;114;32;39;125;39] [93] (22,23)]).
Proof. vm_compute. reflexivity. Qed.
Example p_parse_group_12 : case_ (tp_parse_field) [111;112;116;105;111;110;97;108;32;103;114;111;117;112;32;65;32;61;32;49;102;32;123;32;125;59] = Some (inr [FloatSuffixOutsideTextFormat (19,21); UnexpectedToken [97;110;32;105;110;116;101;103;101;114] [49;46;48] (19,21)]).
Proof. vm_compute. reflexivity. Qed.
Example p_parse_group_13 : case_ (tp_parse_field) [111;112;116;105;111;110;97;108;32;39;103;114;111;117;112;39;32;65;32;61;32;49;32;123;32;125;59] = Some (inr [UnexpectedToken [97;32;102;105;101;108;100;32;116;121;112;101] [34;103;114;111;117;112;34] (9,16)]).
Proof. vm_compute. reflexivity. Qed.
Example p_parse_field_1 : case_ (tp_parse_field) [109;97;112;60;115;116;114;105;110;103;44;32;80;114;111;106;101;99;116;62;32;112;114;111;106;101;99;116;115;32;61;32;51;59] = Some (inl {|fd_label:=None;fd_name:={|id_val:=[112;114;111;106;101;99;116;115];id_span:=(21,29)|};fd_kind:=(FKMap (0,20) TyString (4,10) (TyNamed {|tn_dot:=None;tn_name:=[{|id_val:=[80;114;111;106;101;99;116];id_span:=(12,19)|}]|}) (12,19));fd_number:={|i_neg:=false;i_val:=3;i_span:=(32,33)|};fd_options:=None;fd_comments:={|ac_detached:=[];ac_leading:=None;ac_trailing:=None|};fd_span:=(0,34)|}).
Proof. vm_compute. reflexivity. Qed.
Example p_parse_field_2 : case_ (tp_parse_field) [47;42;108;101;97;100;105;110;103;42;47;109;97;112;60;115;116;114;105;110;103;44;32;105;110;116;51;50;62;32;112;114;111;106;101;99;116;115;32;61;32;51;59;10;47;42;116;114;97;105;108;105;110;103;42;47;10] = Some (inl {|fd_label:=None;fd_name:={|id_val:=[112;114;111;106;101;99;116;115];id_span:=(30,38)|};fd_kind:=(FKMap (11,29) TyString (15,21) TyInt32 (23,28));fd_number:={|i_neg:=false;i_val:=3;i_span:=(41,42)|};fd_options:=None;fd_comments:={|ac_detached:=[];ac_leading:=(Some [108;101;97;100;105;110;103]);ac_trailing:=(Some [116;114;97;105;108;105;110;103])|};fd_span:=(11,43)|}).
Proof. vm_compute. reflexivity. Qed.
Example p_parse_field_3 : case_ (tp_parse_field) [109;97;112;60;105;110;116;51;50;44;32;98;111;111;108;62;32;110;97;109;101;32;61;32;53;32;91;111;112;116;32;61;32;116;114;117;101;44;32;111;112;116;50;32;61;32;52;46;53;93;59] = Some (inl {|fd_label:=None;fd_name:={|id_val:=[110;97;109;101];id_span:=(17,21)|};fd_kind:=(FKMap (0,16) TyInt32 (4,9) TyBool (11,15));fd_number:={|i_neg:=false;i_val:=5;i_span:=(24,25)|};fd_options:=(Some {|ol_options:=[{|ob_name:=[(ONIdent {|id_val:=[111;112;116];id_span:=(27,30)|})];ob_value:=(OVIdent false {|id_val:=[116;114;117;101];id_span:=(33,37)|} (33,37))|}; {|ob_name:=[(ONIdent {|id_val:=[111;112;116;50];id_span:=(39,43)|})];ob_value:=(OVFloat {|fl_neg:=false;fl_text:=[52;46;53];fl_span:=(46,49)|})|}];ol_span:=(26,50)|});fd_comments:={|ac_detached:=[];ac_leading:=None;ac_trailing:=None|};fd_span:=(0,51)|}).
Proof. vm_compute. reflexivity. Qed.
Example p_parse_field_4 : case_ (tp_parse_field) [109;97;112;60;46;102;111;111;46;98;97;114;44;32;98;111;111;108;62;32;105;110;118;97;108;105;100;32;61;32;45;48;59] = Some (inl {|fd_label:=None;fd_name:={|id_val:=[105;110;118;97;108;105;100];id_span:=(20,27)|};fd_kind:=(FKMap (0,19) (TyNamed {|tn_dot:=(Some (4,5));tn_name:=[{|id_val:=[102;111;111];id_span:=(5,8)|}; {|id_val:=[98;97;114];id_span:=(9,12)|}]|}) (4,12) TyBool (14,18));fd_number:={|i_neg:=true;i_val:=0;i_span:=(30,32)|};fd_options:=None;fd_comments:={|ac_detached:=[];ac_leading:=None;ac_trailing:=None|};fd_span:=(0,33)|}).
Proof. vm_compute. reflexivity. Qed.
Example p_parse_field_5 : case_ (tp_parse_field) [109;97;112;62] = Some (inr [UnexpectedToken [39;60;39] [62] (3,4)]).
Proof. vm_compute. reflexivity. Qed.
Example p_parse_field_6 : case_ (tp_parse_field) [109;97;112;60;59] = Some (inr [UnexpectedToken [97;32;102;105;101;108;100;32;116;121;112;101] [59] (4,5)]).
Proof. vm_compute. reflexivity. Qed.
Example p_parse_field_7 : case_ (tp_parse_field) [109;97;112;60;105;110;116;51;50;40] = Some (inr [UnexpectedToken [39;44;39] [40] (9,10)]).
Proof. vm_compute. reflexivity. Qed.
Example p_parse_field_8 : case_ (tp_parse_field) [109;97;112;60;115;116;114;105;110;103;44;32;61] = Some (inr [UnexpectedToken [97;32;102;105;101;108;100;32;116;121;112;101] [61] (12,13)]).
Proof. vm_compute. reflexivity. Qed.
Example p_parse_field_9 : case_ (tp_parse_field) [109;97;112;60;115;116;114;105;110;103;44;32;46;70;111;111;44] = Some (inr [UnexpectedToken [39;46;39;32;111;114;32;39;62;39] [44] (16,17)]).
Proof. vm_compute. reflexivity. Qed.
Example p_parse_field_10 : case_ (tp_parse_field) [109;97;112;60;115;116;114;105;110;103;44;32;70;111;111;62;32;59] = Some (inr [UnexpectedToken [97;110;32;105;100;101;110;116;105;102;105;101;114] [59] (17,18)]).
Proof. vm_compute. reflexivity. Qed.
Example p_parse_field_11 : case_ (tp_parse_field) [109;97;112;60;115;116;114;105;110;103;44;32;70;111;111;62;32;102;111;111;32;93] = Some (inr [UnexpectedToken [39;61;39] [93] (21,22)]).
Proof. vm_compute. reflexivity. Qed.
Example p_parse_field_12 : case_ (tp_parse_field) [109;97;112;60;115;116;114;105;110;103;44;32;70;111;111;62;32;102;111;111;32;61;32;120] = Some (inr [UnexpectedToken [97;110;32;105;110;116;101;103;101;114] [120] (23,24)]).
Proof. vm_compute. reflexivity. Qed.
Example p_parse_field_13 : case_ (tp_parse_field) [109;97;112;60;115;116;114;105;110;103;44;32;70;111;111;62;32;102;111;111;32;61;32;49;32;115;101;114;118;105;99;101] = Some (inr [UnexpectedToken [39;59;39;32;111;114;32;39;91;39] [115;101;114;118;105;99;101] (25,32)]).
Proof. vm_compute. reflexivity. Qed.
Example p_parse_field_14 : case_ (tp_parse_field) [109;97;112;60;102;111;111;59] = Some (inr [UnexpectedToken [39;46;39;32;111;114;32;39;44;39] [59] (7,8)]).
Proof. vm_compute. reflexivity. Qed.
Example p_parse_field_15 : case_ (tp_parse_field) [100;111;117;98;108;101;32;100;111;117;98;108;101;32;61;32;49;32;91;100;101;102;97;117;108;116;32;61;32;45;110;97;110;93;59] = Some (inl {|fd_label:=None;fd_name:={|id_val:=[100;111;117;98;108;101];id_span:=(7,13)|};fd_kind:=(FKNormal TyDouble (0,6));fd_number:={|i_neg:=false;i_val:=1;i_span:=(16,17)|};fd_options:=(Some {|ol_options:=[{|ob_name:=[(ONIdent {|id_val:=[100;101;102;97;117;108;116];id_span:=(19,26)|})];ob_value:=(OVIdent true {|id_val:=[110;97;110];id_span:=(30,33)|} (29,33))|}];ol_span:=(18,34)|});fd_comments:={|ac_detached:=[];ac_leading:=None;ac_trailing:=None|};fd_span:=(0,35)|}).
Proof. vm_compute. reflexivity. Qed.
Example p_parse_field_16 : case_ (tp_parse_field) [111;112;116;105;111;110;97;108;32;105;110;116;51;50;32;110;97;109;101;32;61;32;53;32;91;40;101;120;116;41;32;61;32;34;102;111;111;34;93;59] = Some (inl {|fd_label:=(Some (LOptional,(0,8)));fd_name:={|id_val:=[110;97;109;101];id_span:=(15,19)|};fd_kind:=(FKNormal TyInt32 (9,14));fd_number:={|i_neg:=false;i_val:=5;i_span:=(22,23)|};fd_options:=(Some {|ol_options:=[{|ob_name:=[(ONExtension {|tn_dot:=None;tn_name:=[{|id_val:=[101;120;116];id_span:=(26,29)|}]|} (25,30))];ob_value:=(OVString {|st_val:=[102;111;111];st_span:=(33,38)|})|}];ol_span:=(24,39)|});fd_comments:={|ac_detached:=[];ac_leading:=None;ac_trailing:=None|};fd_span:=(0,40)|}).
Proof. vm_compute. reflexivity. Qed.
Example p_parse_field_17 : case_ (tp_parse_field) [123] = Some (inr [UnexpectedToken [97;32;109;101;115;115;97;103;101;32;102;105;101;108;100] [123] (0,1)]).
Proof. vm_compute. reflexivity. Qed.
Example p_parse_message_1 : case_ (tp_parse_message) [109;101;115;115;97;103;101;32;70;111;111;32;123;125] = Some (inl {|ms_name:={|id_val:=[70;111;111];id_span:=(8,11)|};ms_body:=(Body [] [] [] []);ms_comments:={|ac_detached:=[];ac_leading:=None;ac_trailing:=None|};ms_span:=(0,14)|}).
Proof. vm_compute. reflexivity. Qed.
Example p_parse_message_2 : case_ (tp_parse_message) [47;47;100;101;116;97;99;104;101;100;10;47;42;108;101;97;100;105;110;103;42;47;109;101;115;115;97;103;101;32;70;111;111;32;123;47;42;116;114;97;105;108;105;110;103;42;47;125] = Some (inl {|ms_name:={|id_val:=[70;111;111];id_span:=(30,33)|};ms_body:=(Body [] [] [] []);ms_comments:={|ac_detached:=[[100;101;116;97;99;104;101;100;10]];ac_leading:=(Some [108;101;97;100;105;110;103]);ac_trailing:=None|};ms_span:=(22,48)|}).
Proof. vm_compute. reflexivity. Qed.
Example p_parse_message_3 : case_ (tp_parse_message) [109;101;115;115;97;103;101;32;70;111;111;32;123;32;59;32;59;32;125] = Some (inl {|ms_name:={|id_val:=[70;111;111];id_span:=(8,11)|};ms_body:=(Body [] [] [] []);ms_comments:={|ac_detached:=[];ac_leading:=None;ac_trailing:=None|};ms_span:=(0,19)|}).
Proof. vm_compute. reflexivity. Qed.
Example p_parse_message_4 : case_ (tp_parse_message) [109;101;115;115;97;103;101;32;70;111;111;32;123;109;101;115;115;97;103;101;32;66;97;114;32;123;125;101;110;117;109;32;81;117;122;32;123;125;101;120;116;101;110;100;32;66;97;114;32;123;125;125] = Some (inl {|ms_name:={|id_val:=[70;111;111];id_span:=(8,11)|};ms_body:=(Body [(MIMessage {|ms_name:={|id_val:=[66;97;114];id_span:=(21,24)|};ms_body:=(Body [] [] [] []);ms_comments:={|ac_detached:=[];ac_leading:=None;ac_trailing:=None|};ms_span:=(13,27)|}); (MIEnum {|en_name:={|id_val:=[81;117;122];id_span:=(32,35)|};en_options:=[];en_values:=[];en_reserved:=[];en_comments:={|ac_detached:=[];ac_leading:=None;ac_trailing:=None|};en_span:=(27,38)|}); (MIExtend {|et_extendee:={|tn_dot:=None;tn_name:=[{|id_val:=[66;97;114];id_span:=(45,48)|}]|};et_fields:=[];et_comments:={|ac_detached:=[];ac_leading:=None;ac_trailing:=None|};et_span:=(38,51)|})] [] [] []);ms_comments:={|ac_detached:=[];ac_leading:=None;ac_trailing:=None|};ms_span:=(0,52)|}).
Proof. vm_compute. reflexivity. Qed.
Example p_parse_message_5 : case_ (tp_parse_message) [109;101;115;115;97;103;101;32;70;111;111;32;123;10;32;32;32;32;32;32;32;32;32;32;32;32;102;105;120;101;100;51;50;32;97;32;61;32;49;59;10;32;32;32;32;32;32;32;32;32;32;32;32;111;112;116;105;111;110;97;108;32;109;97;112;60;105;110;116;51;50;44;32;98;111;111;108;62;32;98;32;61;32;50;59;10;10;32;32;32;32;32;32;32;32;32;32;32;32;111;112;116;105;111;110;97;108;32;103;114;111;117;112;32;67;32;61;32;51;32;123;10;32;32;32;32;32;32;32;32;32;32;32;32;32;32;32;32;114;101;113;117;105;114;101;100;32;102;108;111;97;116;32;100;32;61;32;49;59;10;32;32;32;32;32;32;32;32;32;32;32;32;125;10;10;32;32;32;32;32;32;32;32;32;32;32;32;111;110;101;111;102;32;120;32;123;10;32;32;32;32;32;32;32;32;32;32;32;32;32;32;32;32;115;116;114;105;110;103;32;121;32;61;32;52;59;10;32;32;32;32;32;32;32;32;32;32;32;32;125;10;32;32;32;32;32;32;32;32;125] = Some (inl {|ms_name:={|id_val:=[70;111;111];id_span:=(8,11)|};ms_body:=(Body [(MIField {|fd_label:=None;fd_name:={|id_val:=[97];id_span:=(34,35)|};fd_kind:=(FKNormal TyFixed32 (26,33));fd_number:={|i_neg:=false;i_val:=1;i_span:=(38,39)|};fd_options:=None;fd_comments:={|ac_detached:=[];ac_leading:=None;ac_trailing:=None|};fd_span:=(26,40)|}); (MIField {|fd_label:=(Some (LOptional,(53,61)));fd_name:={|id_val:=[98];id_span:=(79,80)|};fd_kind:=(FKMap (62,78) TyInt32 (66,71) TyBool (73,77));fd_number:={|i_neg:=false;i_val:=2;i_span:=(83,84)|};fd_options:=None;fd_comments:={|ac_detached:=[];ac_leading:=None;ac_trailing:=None|};fd_span:=(53,85)|}); (MIField {|fd_label:=(Some (LOptional,(99,107)));fd_name:={|id_val:=[67];id_span:=(114,115)|};fd_kind:=(FKGroup (108,113) (Body [(MIField {|fd_label:=(Some (LRequired,(138,146)));fd_name:={|id_val:=[100];id_span:=(153,154)|};fd_kind:=(FKNormal TyFloat (147,152));fd_number:={|i_neg:=false;i_val:=1;i_span:=(157,158)|};fd_options:=None;fd_comments:={|ac_detached:=[];ac_leading:=None;ac_trailing:=None|};fd_span:=(138,159)|})] [] [] []));fd_number:={|i_neg:=false;i_val:=3;i_span:=(118,119)|};fd_options:=None;fd_comments:={|ac_detached:=[];ac_leading:=None;ac_trailing:=None|};fd_span:=(99,173)|}); (MIOneof {|oo_name:={|id_val:=[120];id_span:=(193,194)|};oo_options:=[];oo_fields:=[{|fd_label:=None;fd_name:={|id_val:=[121];id_span:=(220,221)|};fd_kind:=(FKNormal TyString (213,219));fd_number:={|i_neg:=false;i_val:=4;i_span:=(224,225)|};fd_options:=None;fd_comments:={|ac_detached:=[];ac_leading:=None;ac_trailing:=None|};fd_span:=(213,226)|}];oo_comments:={|ac_detached:=[];ac_leading:=None;ac_trailing:=None|};oo_span:=(187,240)|})] [] [] []);ms_comments:={|ac_detached:=[];ac_leading:=None;ac_trailing:=None|};ms_span:=(0,250)|}).
Proof. vm_compute. reflexivity. Qed.
Example p_parse_message_6 : case_ (tp_parse_message) [109;101;115;115;97;103;101;32;70;111;111;32;123;32;114;101;112;101;97;116;101;100;32;66;97;114;32;97;32;61;32;49;59;32;125] = Some (inl {|ms_name:={|id_val:=[70;111;111];id_span:=(8,11)|};ms_body:=(Body [(MIField {|fd_label:=(Some (LRepeated,(14,22)));fd_name:={|id_val:=[97];id_span:=(27,28)|};fd_kind:=(FKNormal (TyNamed {|tn_dot:=None;tn_name:=[{|id_val:=[66;97;114];id_span:=(23,26)|}]|}) (23,26));fd_number:={|i_neg:=false;i_val:=1;i_span:=(31,32)|};fd_options:=None;fd_comments:={|ac_detached:=[];ac_leading:=None;ac_trailing:=None|};fd_span:=(14,33)|})] [] [] []);ms_comments:={|ac_detached:=[];ac_leading:=None;ac_trailing:=None|};ms_span:=(0,35)|}).
Proof. vm_compute. reflexivity. Qed.
Example p_parse_message_7 : case_ (tp_parse_message) [109;101;115;115;97;103;101;32;70;111;111;32;123;32;114;101;112;101;97;116;101;100;32;66;97;114;32;115;101;114;118;105;99;101;32;61;32;50;59;32;125] = Some (inl {|ms_name:={|id_val:=[70;111;111];id_span:=(8,11)|};ms_body:=(Body [(MIField {|fd_label:=(Some (LRepeated,(14,22)));fd_name:={|id_val:=[115;101;114;118;105;99;101];id_span:=(27,34)|};fd_kind:=(FKNormal (TyNamed {|tn_dot:=None;tn_name:=[{|id_val:=[66;97;114];id_span:=(23,26)|}]|}) (23,26));fd_number:={|i_neg:=false;i_val:=2;i_span:=(37,38)|};fd_options:=None;fd_comments:={|ac_detached:=[];ac_leading:=None;ac_trailing:=None|};fd_span:=(14,39)|})] [] [] []);ms_comments:={|ac_detached:=[];ac_leading:=None;ac_trailing:=None|};ms_span:=(0,41)|}).
Proof. vm_compute. reflexivity. Qed.
Example p_parse_message_8 : case_ (tp_parse_message) [109;101;115;115;97;103;101;32;70;111;111;32;123;32;101;120;116;101;110;115;105;111;110;115;32;53;44;32;55;32;116;111;32;56;44;32;49;48;32;116;111;32;109;97;120;32;91;100;101;112;114;101;99;97;116;101;100;32;61;32;102;97;108;115;101;93;59;32;125] = Some (inl {|ms_name:={|id_val:=[70;111;111];id_span:=(8,11)|};ms_body:=(Body [] [{|ex_ranges:=[{|rr_start:={|i_neg:=false;i_val:=5;i_span:=(25,26)|};rr_end:=RENone|}; {|rr_start:={|i_neg:=false;i_val:=7;i_span:=(28,29)|};rr_end:=(REInt {|i_neg:=false;i_val:=8;i_span:=(33,34)|})|}; {|rr_start:={|i_neg:=false;i_val:=10;i_span:=(36,38)|};rr_end:=(REMax (42,45))|}];ex_options:=(Some {|ol_options:=[{|ob_name:=[(ONIdent {|id_val:=[100;101;112;114;101;99;97;116;101;100];id_span:=(47,57)|})];ob_value:=(OVIdent false {|id_val:=[102;97;108;115;101];id_span:=(60,65)|} (60,65))|}];ol_span:=(46,66)|});ex_comments:={|ac_detached:=[];ac_leading:=None;ac_trailing:=None|};ex_span:=(14,67)|}] [] []);ms_comments:={|ac_detached:=[];ac_leading:=None;ac_trailing:=None|};ms_span:=(0,69)|}).
Proof. vm_compute. reflexivity. Qed.
Example p_parse_message_9 : case_ (tp_parse_message) [109;101;115;115;97;103;101;32;70;111;111;32;123;32;114;101;112;101;97;116;101;100;32;109;97;112;60;115;105;110;116;51;50;44;32;102;105;120;101;100;54;52;62;32;109;32;61;32;49;59;32;125] = Some (inl {|ms_name:={|id_val:=[70;111;111];id_span:=(8,11)|};ms_body:=(Body [(MIField {|fd_label:=(Some (LRepeated,(14,22)));fd_name:={|id_val:=[109];id_span:=(44,45)|};fd_kind:=(FKMap (23,43) TySint32 (27,33) TyFixed64 (35,42));fd_number:={|i_neg:=false;i_val:=1;i_span:=(48,49)|};fd_options:=None;fd_comments:={|ac_detached:=[];ac_leading:=None;ac_trailing:=None|};fd_span:=(14,50)|})] [] [] []);ms_comments:={|ac_detached:=[];ac_leading:=None;ac_trailing:=None|};ms_span:=(0,52)|}).
Proof. vm_compute. reflexivity. Qed.
Example p_parse_message_10 : case_ (tp_parse_message) [109;101;115;115;97;103;101;32;70;111;111;32;123;32;103;114;111;117;112;32;66;97;122;32;61;32;49;32;123;125;32;125] = Some (inl {|ms_name:={|id_val:=[70;111;111];id_span:=(8,11)|};ms_body:=(Body [(MIField {|fd_label:=None;fd_name:={|id_val:=[66;97;122];id_span:=(20,23)|};fd_kind:=(FKGroup (14,19) (Body [] [] [] []));fd_number:={|i_neg:=false;i_val:=1;i_span:=(26,27)|};fd_options:=None;fd_comments:={|ac_detached:=[];ac_leading:=None;ac_trailing:=None|};fd_span:=(14,30)|})] [] [] []);ms_comments:={|ac_detached:=[];ac_leading:=None;ac_trailing:=None|};ms_span:=(0,32)|}).
Proof. vm_compute. reflexivity. Qed.
Example p_parse_message_11 : case_ (tp_parse_message) [109;101;115;115;97;103;101;32;70;111;111;32;123;32;44;32;125] = Some (inr [UnexpectedToken [97;32;109;101;115;115;97;103;101;32;102;105;101;108;100;44;32;111;110;101;111;102;44;32;114;101;115;101;114;118;101;100;32;114;97;110;103;101;44;32;101;110;117;109;44;32;109;101;115;115;97;103;101;44;32;111;112;116;105;111;110;32;111;114;32;39;125;39] [44] (14,15)]).
Proof. vm_compute. reflexivity. Qed.
Example p_parse_message_12 : case_ (tp_parse_message) [109;101;115;115;97;103;101;32;70;111;111;32;123;10;32;32;32;32;32;32;32;32;109;101;115;115;97;103;101;32;70;111;111;32;123;10;32;32;32;32;32;32;32;32;32;32;32;32;111;112;116;105;111;110;97;108;32;105;110;116;51;50;32;115;116;97;114;116;32;61;32;49;59;32;32;47;47;32;116;114;97;105;108;49;10;32;32;32;32;32;32;32;32;32;32;32;32;111;112;116;105;111;110;97;108;32;105;110;116;51;50;32;101;110;100;32;61;32;50;59;32;32;32;32;47;47;32;116;114;97;105;108;50;10;32;32;32;32;32;32;32;32;125;10;32;32;32;32;125] = Some (inl {|ms_name:={|id_val:=[70;111;111];id_span:=(8,11)|};ms_body:=(Body [(MIMessage {|ms_name:={|id_val:=[70;111;111];id_span:=(30,33)|};ms_body:=(Body [(MIField {|fd_label:=(Some (LOptional,(48,56)));fd_name:={|id_val:=[115;116;97;114;116];id_span:=(63,68)|};fd_kind:=(FKNormal TyInt32 (57,62));fd_number:={|i_neg:=false;i_val:=1;i_span:=(71,72)|};fd_options:=None;fd_comments:={|ac_detached:=[];ac_leading:=None;ac_trailing:=(Some [32;116;114;97;105;108;49;10])|};fd_span:=(48,73)|}); (MIField {|fd_label:=(Some (LOptional,(97,105)));fd_name:={|id_val:=[101;110;100];id_span:=(112,115)|};fd_kind:=(FKNormal TyInt32 (106,111));fd_number:={|i_neg:=false;i_val:=2;i_span:=(118,119)|};fd_options:=None;fd_comments:={|ac_detached:=[];ac_leading:=None;ac_trailing:=(Some [32;116;114;97;105;108;50;10])|};fd_span:=(97,120)|})] [] [] []);ms_comments:={|ac_detached:=[];ac_leading:=None;ac_trailing:=None|};ms_span:=(22,143)|})] [] [] []);ms_comments:={|ac_detached:=[];ac_leading:=None;ac_trailing:=None|};ms_span:=(0,149)|}).
Proof. vm_compute. reflexivity. Qed.
Example p_parse_message_13 : case_ (tp_parse_message) [109;101;115;115;97;103;101;32;70;111;111;32;123;32;115;101;114;118;105;99;101;32;102;111;111;32;61;32;49;59;32;125] = Some (inl {|ms_name:={|id_val:=[70;111;111];id_span:=(8,11)|};ms_body:=(Body [(MIField {|fd_label:=None;fd_name:={|id_val:=[102;111;111];id_span:=(22,25)|};fd_kind:=(FKNormal (TyNamed {|tn_dot:=None;tn_name:=[{|id_val:=[115;101;114;118;105;99;101];id_span:=(14,21)|}]|}) (14,21));fd_number:={|i_neg:=false;i_val:=1;i_span:=(28,29)|};fd_options:=None;fd_comments:={|ac_detached:=[];ac_leading:=None;ac_trailing:=None|};fd_span:=(14,30)|})] [] [] []);ms_comments:={|ac_detached:=[];ac_leading:=None;ac_trailing:=None|};ms_span:=(0,32)|}).
Proof. vm_compute. reflexivity. Qed.
Example p_parse_message_14 : case_ (tp_parse_message) [109;101;115;115;97;103;101;32;70;111;111;32;123;32;111;112;116;105;111;110;97;108;32;114;112;99;32;102;111;111;32;61;32;49;59;32;125] = Some (inl {|ms_name:={|id_val:=[70;111;111];id_span:=(8,11)|};ms_body:=(Body [(MIField {|fd_label:=(Some (LOptional,(14,22)));fd_name:={|id_val:=[102;111;111];id_span:=(27,30)|};fd_kind:=(FKNormal (TyNamed {|tn_dot:=None;tn_name:=[{|id_val:=[114;112;99];id_span:=(23,26)|}]|}) (23,26));fd_number:={|i_neg:=false;i_val:=1;i_span:=(33,34)|};fd_options:=None;fd_comments:={|ac_detached:=[];ac_leading:=None;ac_trailing:=None|};fd_span:=(14,35)|})] [] [] []);ms_comments:={|ac_detached:=[];ac_leading:=None;ac_trailing:=None|};ms_span:=(0,37)|}).
Proof. vm_compute. reflexivity. Qed.
Example p_parse_message_15 : case_ (tp_parse_message) [109;101;115;115;97;103;101;32;70;111;111;32;123;32;101;120;116;101;110;115;105;111;110;115;32;53;44;32;55;32;116;111;32;56;44;32;49;48;32;116;111;32;109;97;120;32;91;40;101;120;116;46;101;120;116;41;46;101;120;116;46;40;101;120;116;41;32;61;32;123;32;97;58;32;73;68;69;78;84;32;125;93;59;32;125] = Some (inl {|ms_name:={|id_val:=[70;111;111];id_span:=(8,11)|};ms_body:=(Body [] [{|ex_ranges:=[{|rr_start:={|i_neg:=false;i_val:=5;i_span:=(25,26)|};rr_end:=RENone|}; {|rr_start:={|i_neg:=false;i_val:=7;i_span:=(28,29)|};rr_end:=(REInt {|i_neg:=false;i_val:=8;i_span:=(33,34)|})|}; {|rr_start:={|i_neg:=false;i_val:=10;i_span:=(36,38)|};rr_end:=(REMax (42,45))|}];ex_options:=(Some {|ol_options:=[{|ob_name:=[(ONExtension {|tn_dot:=None;tn_name:=[{|id_val:=[101;120;116];id_span:=(48,51)|}; {|id_val:=[101;120;116];id_span:=(52,55)|}]|} (47,56)); (ONIdent {|id_val:=[101;120;116];id_span:=(57,60)|}); (ONExtension {|tn_dot:=None;tn_name:=[{|id_val:=[101;120;116];id_span:=(62,65)|}]|} (61,66))];ob_value:=(OVAggregate [97;32;58;32;73;68;69;78;84] (69,81))|}];ol_span:=(46,82)|});ex_comments:={|ac_detached:=[];ac_leading:=None;ac_trailing:=None|};ex_span:=(14,83)|}] [] []);ms_comments:={|ac_detached:=[];ac_leading:=None;ac_trailing:=None|};ms_span:=(0,85)|}).
Proof. vm_compute. reflexivity. Qed.
Example p_parse_message_16 : case_ (tp_parse_message) [109;101;115;115;97;103;101;32;70;111;111;32;123;32;101;120;116;101;110;115;105;111;110;115;32;53;32;125] = Some (inr [UnexpectedToken [39;116;111;39;44;32;39;44;39;32;111;114;32;39;59;39] [125] (27,28)]).
Proof. vm_compute. reflexivity. Qed.
Example p_parse_message_17 : case_ (tp_parse_message) [109;101;115;115;97;103;101;32;70;111;111;32;123;32;101;120;116;101;110;115;105;111;110;115;32;53;32;116;111;32;53;32;125] = Some (inr [UnexpectedToken [39;44;39;44;32;39;59;39;32;111;114;32;39;91;39] [125] (32,33)]).
Proof. vm_compute. reflexivity. Qed.
Example p_parse_message_18 : case_ (tp_parse_message) [109;101;115;115;97;103;101;32;70;111;111;32;123;32;114;101;115;101;114;118;101;100;32;39;97;39;32;125] = Some (inr [UnexpectedToken [39;44;39;32;111;114;32;39;59;39] [125] (27,28)]).
Proof. vm_compute. reflexivity. Qed.
Example p_parse_message_19 : case_ (tp_parse_message) [109;101;115;115;97;103;101;32;70;111;111;32;123;32;101;120;116;101;110;115;105;111;110;115;32;53;32;116;111;32;125] = Some (inr [UnexpectedToken [97;110;32;105;110;116;101;103;101;114;32;111;114;32;39;109;97;120;39] [125] (30,31)]).
Proof. vm_compute. reflexivity. Qed.
Example p_parse_message_20 : case_ (tp_parse_message) [109;101;115;115;97;103;101;32;70;111;111;32;123;32;111;112;116;105;111;110;97;108;32;46;97;46;98;44;32;125] = Some (inr [UnexpectedToken [39;46;39;32;111;114;32;97;110;32;105;100;101;110;116;105;102;105;101;114] [44] (27,28)]).
Proof. vm_compute. reflexivity. Qed.
Example p_parse_oneof_1 : case_ (tp_parse_oneof) [111;110;101;111;102;32;70;111;111;32;123;125] = Some (inl {|oo_name:={|id_val:=[70;111;111];id_span:=(6,9)|};oo_options:=[];oo_fields:=[];oo_comments:={|ac_detached:=[];ac_leading:=None;ac_trailing:=None|};oo_span:=(0,12)|}).
Proof. vm_compute. reflexivity. Qed.
Example p_parse_oneof_2 : case_ (tp_parse_oneof) [111;110;101;111;102;32;70;111;111;32;123;32;59;32;59;32;125] = Some (inl {|oo_name:={|id_val:=[70;111;111];id_span:=(6,9)|};oo_options:=[];oo_fields:=[];oo_comments:={|ac_detached:=[];ac_leading:=None;ac_trailing:=None|};oo_span:=(0,17)|}).
Proof. vm_compute. reflexivity. Qed.
Example p_parse_oneof_3 : case_ (tp_parse_oneof) [47;42;100;101;116;97;99;104;101;100;49;42;47;47;47;100;101;116;97;99;104;101;100;50;10;10;47;47;108;101;97;100;105;110;103;10;111;110;101;111;102;32;70;111;111;32;123;47;42;116;114;97;105;108;105;110;103;42;47;32;59;32;59;32;125] = Some (inl {|oo_name:={|id_val:=[70;111;111];id_span:=(42,45)|};oo_options:=[];oo_fields:=[];oo_comments:={|ac_detached:=[[100;101;116;97;99;104;101;100;49]; [100;101;116;97;99;104;101;100;50;10]];ac_leading:=(Some [108;101;97;100;105;110;103;10]);ac_trailing:=None|};oo_span:=(36,65)|}).
Proof. vm_compute. reflexivity. Qed.
Example p_parse_oneof_4 : case_ (tp_parse_oneof) [111;110;101;111;102;32;70;111;111;32;123;32;105;110;116;51;50;32;98;97;114;32;61;32;49;59;32;125] = Some (inl {|oo_name:={|id_val:=[70;111;111];id_span:=(6,9)|};oo_options:=[];oo_fields:=[{|fd_label:=None;fd_name:={|id_val:=[98;97;114];id_span:=(18,21)|};fd_kind:=(FKNormal TyInt32 (12,17));fd_number:={|i_neg:=false;i_val:=1;i_span:=(24,25)|};fd_options:=None;fd_comments:={|ac_detached:=[];ac_leading:=None;ac_trailing:=None|};fd_span:=(12,26)|}];oo_comments:={|ac_detached:=[];ac_leading:=None;ac_trailing:=None|};oo_span:=(0,28)|}).
Proof. vm_compute. reflexivity. Qed.
Example p_parse_oneof_5 : case_ (tp_parse_oneof) [111;110;101;111;102;32;70;111;111;32;123;32;111;112;116;105;111;110;97;108;32;103;114;111;117;112;32;66;97;114;32;61;32;49;32;123;125;32;125] = Some (inl {|oo_name:={|id_val:=[70;111;111];id_span:=(6,9)|};oo_options:=[];oo_fields:=[{|fd_label:=(Some (LOptional,(12,20)));fd_name:={|id_val:=[66;97;114];id_span:=(27,30)|};fd_kind:=(FKGroup (21,26) (Body [] [] [] []));fd_number:={|i_neg:=false;i_val:=1;i_span:=(33,34)|};fd_options:=None;fd_comments:={|ac_detached:=[];ac_leading:=None;ac_trailing:=None|};fd_span:=(12,37)|}];oo_comments:={|ac_detached:=[];ac_leading:=None;ac_trailing:=None|};oo_span:=(0,39)|}).
Proof. vm_compute. reflexivity. Qed.
Example p_parse_oneof_6 : case_ (tp_parse_oneof) [111;110;101;111;102;32;70;111;111;32;123;32;103;114;111;117;112;32;66;97;122;32;61;32;45;49;32;123;125;32;125] = Some (inl {|oo_name:={|id_val:=[70;111;111];id_span:=(6,9)|};oo_options:=[];oo_fields:=[{|fd_label:=None;fd_name:={|id_val:=[66;97;122];id_span:=(18,21)|};fd_kind:=(FKGroup (12,17) (Body [] [] [] []));fd_number:={|i_neg:=true;i_val:=1;i_span:=(24,26)|};fd_options:=None;fd_comments:={|ac_detached:=[];ac_leading:=None;ac_trailing:=None|};fd_span:=(12,29)|}];oo_comments:={|ac_detached:=[];ac_leading:=None;ac_trailing:=None|};oo_span:=(0,31)|}).
Proof. vm_compute. reflexivity. Qed.
Example p_parse_oneof_7 : case_ (tp_parse_oneof) [111;110;101;111;102;32;49;48;46;52] = Some (inr [UnexpectedToken [97;110;32;105;100;101;110;116;105;102;105;101;114] [49;48;46;52] (6,10)]).
Proof. vm_compute. reflexivity. Qed.
Example p_parse_oneof_8 : case_ (tp_parse_oneof) [111;110;101;111;102;32;70;111;111;32;60] = Some (inr [UnexpectedToken [39;123;39] [60] (10,11)]).
Proof. vm_compute. reflexivity. Qed.
Example p_parse_oneof_9 : case_ (tp_parse_oneof) [111;110;101;111;102;32;70;111;111;32;123;32;44] = Some (inr [UnexpectedToken [97;32;109;101;115;115;97;103;101;32;102;105;101;108;100;44;32;111;112;116;105;111;110;32;111;114;32;39;125;39] [44] (12,13)]).
Proof. vm_compute. reflexivity. Qed.
Example p_parse_oneof_10 : case_ (tp_parse_oneof) [111;110;101;111;102;32;70;111;111;32;123;32;98;121;116;101;115;32;98;32;61;32;49;32;125] = Some (inr [UnexpectedToken [39;59;39;32;111;114;32;39;91;39] [125] (24,25)]).
Proof. vm_compute. reflexivity. Qed.
Example p_parse_oneof_11 : case_ (tp_parse_oneof) [111;110;101;111;102;32;70;111;111;32;123;32;111;110;101;111;102;32;66;97;114;32;123;125;32;125] = Some (inr [UnexpectedToken [39;61;39] [123] (22,23)]).
Proof. vm_compute. reflexivity. Qed.
Example p_parse_oneof_12 : case_ (tp_parse_oneof) [111;110;101;111;102;32;70;111;111;32;123;32;111;110;101;111;102;32;98;97;114;32;61;32;49;59;32;125] = Some (inl {|oo_name:={|id_val:=[70;111;111];id_span:=(6,9)|};oo_options:=[];oo_fields:=[{|fd_label:=None;fd_name:={|id_val:=[98;97;114];id_span:=(18,21)|};fd_kind:=(FKNormal (TyNamed {|tn_dot:=None;tn_name:=[{|id_val:=[111;110;101;111;102];id_span:=(12,17)|}]|}) (12,17));fd_number:={|i_neg:=false;i_val:=1;i_span:=(24,25)|};fd_options:=None;fd_comments:={|ac_detached:=[];ac_leading:=None;ac_trailing:=None|};fd_span:=(12,26)|}];oo_comments:={|ac_detached:=[];ac_leading:=None;ac_trailing:=None|};oo_span:=(0,28)|}).
Proof. vm_compute. reflexivity. Qed.
Example p_parse_oneof_13 : case_ (tp_parse_oneof) [111;110;101;111;102;32;70;111;111;32;123;32;114;101;113;117;105;114;101;100;32;111;110;101;111;102;32;98;97;114;32;61;32;49;59;32;125] = Some (inl {|oo_name:={|id_val:=[70;111;111];id_span:=(6,9)|};oo_options:=[];oo_fields:=[{|fd_label:=(Some (LRequired,(12,20)));fd_name:={|id_val:=[98;97;114];id_span:=(27,30)|};fd_kind:=(FKNormal (TyNamed {|tn_dot:=None;tn_name:=[{|id_val:=[111;110;101;111;102];id_span:=(21,26)|}]|}) (21,26));fd_number:={|i_neg:=false;i_val:=1;i_span:=(33,34)|};fd_options:=None;fd_comments:={|ac_detached:=[];ac_leading:=None;ac_trailing:=None|};fd_span:=(12,35)|}];oo_comments:={|ac_detached:=[];ac_leading:=None;ac_trailing:=None|};oo_span:=(0,37)|}).
Proof. vm_compute. reflexivity. Qed.
Example p_parse_file_1 : case_ (parse_file_p kt []) [] = Some (inl {|fi_span:=(0,0);fi_syntax:=Proto2;fi_syntax_span:=None;fi_package:=None;fi_imports:=[];fi_options:=[];fi_items:=[]|}).
Proof. vm_compute. reflexivity. Qed.
Example p_parse_file_2 : case_ (parse_file_p kt [112;97;99;107;97;103;101;32;112;114;111;116;111;120;46;108;105;98;59]) [112;97;99;107;97;103;101;32;112;114;111;116;111;120;46;108;105;98;59] = Some (inl {|fi_span:=(0,19);fi_syntax:=Proto2;fi_syntax_span:=None;fi_package:=(Some {|pk_name:=[{|id_val:=[112;114;111;116;111;120];id_span:=(8,14)|}; {|id_val:=[108;105;98];id_span:=(15,18)|}];pk_comments:={|ac_detached:=[];ac_leading:=None;ac_trailing:=None|};pk_span:=(0,19)|});fi_imports:=[];fi_options:=[];fi_items:=[]|}).
Proof. vm_compute. reflexivity. Qed.
Example p_parse_file_3 : case_ (parse_file_p kt [112;97;99;107;97;103;101;32;112;114;111;116;111;120;46;108;105;98;59;10;32;32;32;32;32;32;32;32;112;97;99;107;97;103;101;32;97;110;111;116;104;101;114;46;111;110;101;59;10;32;32;32;32]) [112;97;99;107;97;103;101;32;112;114;111;116;111;120;46;108;105;98;59;10;32;32;32;32;32;32;32;32;112;97;99;107;97;103;101;32;97;110;111;116;104;101;114;46;111;110;101;59;10;32;32;32;32] = Some (inr [DuplicatePackage (0,19) (28,48)]).
Proof. vm_compute. reflexivity. Qed.
Example p_parse_file_4 : case_ (parse_file_p kt [115;121;110;116;97;120;32;61;32;39;112;114;111;116;111;50;39;59;10;10;32;32;32;32;32;32;32;32;111;112;116;105;111;110;32;111;112;116;105;109;105;122;101;95;102;111;114;32;61;32;83;80;69;69;68;59;10;32;32;32;32]) [115;121;110;116;97;120;32;61;32;39;112;114;111;116;111;50;39;59;10;10;32;32;32;32;32;32;32;32;111;112;116;105;111;110;32;111;112;116;105;109;105;122;101;95;102;111;114;32;61;32;83;80;69;69;68;59;10;32;32;32;32] = Some (inl {|fi_span:=(0,56);fi_syntax:=Proto2;fi_syntax_span:=(Some ((0,18),{|ac_detached:=[];ac_leading:=None;ac_trailing:=None|}));fi_package:=None;fi_imports:=[];fi_options:=[{|op_body:={|ob_name:=[(ONIdent {|id_val:=[111;112;116;105;109;105;122;101;95;102;111;114];id_span:=(35,47)|})];ob_value:=(OVIdent false {|id_val:=[83;80;69;69;68];id_span:=(50,55)|} (50,55))|};op_comments:={|ac_detached:=[];ac_leading:=None;ac_trailing:=None|};op_span:=(28,56)|}];fi_items:=[]|}).
Proof. vm_compute. reflexivity. Qed.
Example p_parse_file_5 : case_ (parse_file_p kt [115;121;110;116;97;120;32;61;32;34;112;114;111;116;111;51;34;59;10;10;32;32;32;32;32;32;32;32;105;109;112;111;114;116;32;34;102;111;111;46;112;114;111;116;111;34;59;10;32;32;32;32]) [115;121;110;116;97;120;32;61;32;34;112;114;111;116;111;51;34;59;10;10;32;32;32;32;32;32;32;32;105;109;112;111;114;116;32;34;102;111;111;46;112;114;111;116;111;34;59;10;32;32;32;32] = Some (inl {|fi_span:=(0,47);fi_syntax:=Proto3;fi_syntax_span:=(Some ((0,18),{|ac_detached:=[];ac_leading:=None;ac_trailing:=None|}));fi_package:=None;fi_imports:=[{|im_kind:=None;im_value:=[102;111;111;46;112;114;111;116;111];im_value_span:=(35,46);im_comments:={|ac_detached:=[];ac_leading:=None;ac_trailing:=None|};im_span:=(28,47)|}];fi_options:=[];fi_items:=[]|}).
Proof. vm_compute. reflexivity. Qed.
Example p_parse_file_6 : case_ (parse_file_p kt [115;121;110;116;97;120;32;61;32;39;117;110;107;110;111;119;110;39;59;10;32;32;32;32]) [115;121;110;116;97;120;32;61;32;39;117;110;107;110;111;119;110;39;59;10;32;32;32;32] = Some (inr [UnknownSyntax [117;110;107;110;111;119;110] (9,18)]).
Proof. vm_compute. reflexivity. Qed.
Example p_parse_file_7 : case_ (parse_file_p kt [115;121;110;116;97;120;32;61;32;39;112;114;111;116;111;50;39;59;10;10;32;32;32;32;32;32;32;32;109;101;115;115;97;103;101;32;70;111;111;32;123;32;44;32;125;10;32;32;32;32;32;32;32;32;101;110;117;109;32;66;97;114;32;123;32;59;32;125;10;32;32;32;32;32;32;32;32;111;112;116;105;111;110;32;113;117;122;32;49;59;10;32;32;32;32]) [115;121;110;116;97;120;32;61;32;39;112;114;111;116;111;50;39;59;10;10;32;32;32;32;32;32;32;32;109;101;115;115;97;103;101;32;70;111;111;32;123;32;44;32;125;10;32;32;32;32;32;32;32;32;101;110;117;109;32;66;97;114;32;123;32;59;32;125;10;32;32;32;32;32;32;32;32;111;112;116;105;111;110;32;113;117;122;32;49;59;10;32;32;32;32] = Some (inr [UnexpectedToken [97;32;109;101;115;115;97;103;101;32;102;105;101;108;100;44;32;111;110;101;111;102;44;32;114;101;115;101;114;118;101;100;32;114;97;110;103;101;44;32;101;110;117;109;44;32;109;101;115;115;97;103;101;44;32;111;112;116;105;111;110;32;111;114;32;39;125;39] [44] (42,43); UnexpectedToken [39;61;39;32;111;114;32;39;46;39] [49] (88,89)]).
Proof. vm_compute. reflexivity. Qed.
Example p_parse_file_8 : case_ (parse_file_p kt [115;121;110;116;97;120;32;61;32;39;112;114;111;116;111;51;39;59;10;10;32;32;32;32;32;32;32;32;109;101;115;115;97;103;101;32;70;111;111;32;123;10;32;32;32;32;32;32;32;32;32;32;32;32;47;47;32;116;114;97;105;108;105;110;103;10;10;32;32;32;32;32;32;32;32;32;32;32;32;47;47;32;100;101;116;97;99;104;101;100;10;10;32;32;32;32;32;32;32;32;32;32;32;32;47;47;32;108;101;97;100;105;110;103;10;32;32;32;32;32;32;32;32;32;32;32;32;105;110;116;51;50;32;98;97;114;32;61;32;49;59;10;32;32;32;32;32;32;32;32;32;32;32;32;47;47;32;116;114;97;105;108;105;110;103;50;10;32;32;32;32;32;32;32;32;125;10;32;32;32;32]) [115;121;110;116;97;120;32;61;32;39;112;114;111;116;111;51;39;59;10;10;32;32;32;32;32;32;32;32;109;101;115;115;97;103;101;32;70;111;111;32;123;10;32;32;32;32;32;32;32;32;32;32;32;32;47;47;32;116;114;97;105;108;105;110;103;10;10;32;32;32;32;32;32;32;32;32;32;32;32;47;47;32;100;101;116;97;99;104;101;100;10;10;32;32;32;32;32;32;32;32;32;32;32;32;47;47;32;108;101;97;100;105;110;103;10;32;32;32;32;32;32;32;32;32;32;32;32;105;110;116;51;50;32;98;97;114;32;61;32;49;59;10;32;32;32;32;32;32;32;32;32;32;32;32;47;47;32;116;114;97;105;108;105;110;103;50;10;32;32;32;32;32;32;32;32;125;10;32;32;32;32] = Some (inl {|fi_span:=(0,176);fi_syntax:=Proto3;fi_syntax_span:=(Some ((0,18),{|ac_detached:=[];ac_leading:=None;ac_trailing:=None|}));fi_package:=None;fi_imports:=[];fi_options:=[];fi_items:=[(FIMessage {|ms_name:={|id_val:=[70;111;111];id_span:=(36,39)|};ms_body:=(Body [(MIField {|fd_label:=None;fd_name:={|id_val:=[98;97;114];id_span:=(133,136)|};fd_kind:=(FKNormal TyInt32 (127,132));fd_number:={|i_neg:=false;i_val:=1;i_span:=(139,140)|};fd_options:=None;fd_comments:={|ac_detached:=[[32;100;101;116;97;99;104;101;100;10]];ac_leading:=(Some [32;108;101;97;100;105;110;103;10]);ac_trailing:=(Some [32;116;114;97;105;108;105;110;103;50;10])|};fd_span:=(127,141)|})] [] [] []);ms_comments:={|ac_detached:=[];ac_leading:=None;ac_trailing:=(Some [32;116;114;97;105;108;105;110;103;10])|};ms_span:=(28,176)|})]|}).
Proof. vm_compute. reflexivity. Qed.
Example p_parse_file_9 : case_ (parse_file_p kt [115;121;110;116;97;120;32;61;32;39;112;114;111;116;111;51;39]) [115;121;110;116;97;120;32;61;32;39;112;114;111;116;111;51;39] = Some (inr [UnexpectedEof [39;59;39]]).
Proof. vm_compute. reflexivity. Qed.
Example p_parse_file_10 : case_ (parse_file_p kt [47;42;32;108;101;97;100;105;110;103;32;100;101;116;97;99;104;101;100;32;42;47;10;47;47;32;108;101;97;100;105;110;103;10;32;115;121;110;116;97;120;32;61;32;39;112;114;111;116;111;51;39;59;32;47;42;32;116;114;97;105;108;105;110;103;32;42;47]) [47;42;32;108;101;97;100;105;110;103;32;100;101;116;97;99;104;101;100;32;42;47;10;47;47;32;108;101;97;100;105;110;103;10;32;115;121;110;116;97;120;32;61;32;39;112;114;111;116;111;51;39;59;32;47;42;32;116;114;97;105;108;105;110;103;32;42;47] = Some (inl {|fi_span:=(35,53);fi_syntax:=Proto3;fi_syntax_span:=(Some ((35,53),{|ac_detached:=[[32;108;101;97;100;105;110;103;32;100;101;116;97;99;104;101;100;32]];ac_leading:=(Some [32;108;101;97;100;105;110;103;10]);ac_trailing:=None|}));fi_package:=None;fi_imports:=[];fi_options:=[];fi_items:=[]|}).
Proof. vm_compute. reflexivity. Qed.
Example p_parse_file_11 : case_ (parse_file_p kt [111;112;116;105;111;110;32;105;110;118;97;108;105;100;32;61;32;47]) [111;112;116;105;111;110;32;105;110;118;97;108;105;100;32;61;32;47] = Some (inr [UnexpectedToken [97;32;99;111;110;115;116;97;110;116] [47] (17,18)]).
Proof. vm_compute. reflexivity. Qed.
Example p_parse_file_12 : case_ (parse_file_p kt [10;32;32;32;32;32;32;32;32;47;47;32;99;111;100;101;32;103;111;101;115;32;98;114;114;114;10;32;32;32;32;32;32;32;32;111;112;116;105;111;110;32;111;112;116;105;109;105;122;101;95;102;111;114;32;61;32;83;80;69;69;68;59;10;32;32;32;32]) [10;32;32;32;32;32;32;32;32;47;47;32;99;111;100;101;32;103;111;101;115;32;98;114;114;114;10;32;32;32;32;32;32;32;32;111;112;116;105;111;110;32;111;112;116;105;109;105;122;101;95;102;111;114;32;61;32;83;80;69;69;68;59;10;32;32;32;32] = Some (inl {|fi_span:=(35,63);fi_syntax:=Proto2;fi_syntax_span:=None;fi_package:=None;fi_imports:=[];fi_options:=[{|op_body:={|ob_name:=[(ONIdent {|id_val:=[111;112;116;105;109;105;122;101;95;102;111;114];id_span:=(42,54)|})];ob_value:=(OVIdent false {|id_val:=[83;80;69;69;68];id_span:=(57,62)|} (57,62))|};op_comments:={|ac_detached:=[];ac_leading:=(Some [32;99;111;100;101;32;103;111;101;115;32;98;114;114;114;10]);ac_trailing:=None|};op_span:=(35,63)|}];fi_items:=[]|}).
Proof. vm_compute. reflexivity. Qed.
Example p_parse_file_13 : case_ (parse_file_p kt [115;121;110;116;97;120;32;61;32;34;112;114;111;34;32;10;10;32;39;116;111;51;39;59]) [115;121;110;116;97;120;32;61;32;34;112;114;111;34;32;10;10;32;39;116;111;51;39;59] = Some (inl {|fi_span:=(0,24);fi_syntax:=Proto3;fi_syntax_span:=(Some ((0,24),{|ac_detached:=[];ac_leading:=None;ac_trailing:=None|}));fi_package:=None;fi_imports:=[];fi_options:=[];fi_items:=[]|}).
Proof. vm_compute. reflexivity. Qed.
Example p_parse_file_14 : case_ (parse_file_p kt [59]) [59] = Some (inl {|fi_span:=(0,1);fi_syntax:=Proto2;fi_syntax_span:=None;fi_package:=None;fi_imports:=[];fi_options:=[];fi_items:=[]|}).
Proof. vm_compute. reflexivity. Qed.
Example p_parse_file_15 : case_ (parse_file_p kt [115;121;110;116;97;120;32;61;32;49;59]) [115;121;110;116;97;120;32;61;32;49;59] = Some (inr [UnexpectedToken [97;32;115;116;114;105;110;103] [49] (9,10)]).
Proof. vm_compute. reflexivity. Qed.
Example p_parse_file_16 : case_ (parse_file_p kt [116;104;105;110;103]) [116;104;105;110;103] = Some (inr [UnexpectedToken [39;101;110;117;109;39;44;32;39;101;120;116;101;110;100;39;44;32;39;105;109;112;111;114;116;39;44;32;39;109;101;115;115;97;103;101;39;44;32;39;111;112;116;105;111;110;39;44;32;39;115;101;114;118;105;99;101;39;44;32;39;112;97;99;107;97;103;101;39;32;111;114;32;39;59;39] [116;104;105;110;103] (0,5)]).
Proof. vm_compute. reflexivity. Qed.
Example p_parse_file_17 : case_ (parse_file_p kt [109;101;115;115;97;103;101;32;125;32;125;32;125;32;109;101;115;115;97;103;101;32;125;32;125;32;125]) [109;101;115;115;97;103;101;32;125;32;125;32;125;32;109;101;115;115;97;103;101;32;125;32;125;32;125] = Some (inr [UnexpectedToken [97;110;32;105;100;101;110;116;105;102;105;101;114] [125] (8,9); UnexpectedToken [97;110;32;105;100;101;110;116;105;102;105;101;114] [125] (22,23)]).
Proof. vm_compute. reflexivity. Qed.
Example p_parse_file_18 : case_ (parse_file_p kt [116;104;105;110;103;32;36]) [116;104;105;110;103;32;36] = Some (inr [UnexpectedToken [39;101;110;117;109;39;44;32;39;101;120;116;101;110;100;39;44;32;39;105;109;112;111;114;116;39;44;32;39;109;101;115;115;97;103;101;39;44;32;39;111;112;116;105;111;110;39;44;32;39;115;101;114;118;105;99;101;39;44;32;39;112;97;99;107;97;103;101;39;32;111;114;32;39;59;39] [116;104;105;110;103] (0,5); InvalidToken (6,7)]).
Proof. vm_compute. reflexivity. Qed.
Example f_parse_field_default_1 : full [10;32;32;32;32;32;32;32;32;109;101;115;115;97;103;101;32;70;111;111;32;123;10;32;32;32;32;32;32;32;32;32;32;32;32;111;112;116;105;111;110;97;108;32;105;110;116;51;50;32;101;110;117;109;32;61;32;49;32;91;100;101;102;97;117;108;116;32;61;32;50;46;52;93;59;10;32;32;32;32;32;32;32;32;125;10;32;32;32;32] = Some (inr [ValueInvalidType [97;110;32;105;110;116;101;103;101;114] [50;46;52] (70,73)]).
Proof. vm_compute. reflexivity. Qed.
Example f_parse_field_default_2 : full [10;32;32;32;32;32;32;32;32;109;101;115;115;97;103;101;32;70;111;111;32;123;10;32;32;32;32;32;32;32;32;32;32;32;32;111;112;116;105;111;110;97;108;32;69;110;117;109;32;101;110;117;109;32;61;32;49;32;91;100;101;102;97;117;108;116;32;61;32;79;78;69;93;59;10;32;32;32;32;32;32;32;32;125;10;10;32;32;32;32;32;32;32;32;101;110;117;109;32;69;110;117;109;32;123;125;10;32;32;32;32] = Some (inl {|d_name:=(Some [116;101;115;116;46;112;114;111;116;111]);d_package:=None;d_dependency:=[];d_public:=[];d_weak:=[];d_message:=[(MsgDesc (Some [70;111;111]) [{|f_name:=(Some [101;110;117;109]);f_number:=(Some (1)%Z);f_label:=(Some LabOptional);f_type:=None;f_type_name:=(Some [69;110;117;109]);f_extendee:=None;f_default:=(Some [79;78;69]);f_oneof_index:=None;f_json_name:=None;f_options:=None;f_proto3_optional:=None|}] [] [] [] [] [] None [] [])];d_enum:=[{|e_name:=(Some [69;110;117;109]);e_value:=[];e_options:=None;e_reserved_range:=[];e_reserved_name:=[]|}];d_service:=[];d_extension:=[];d_options:=None;d_source_info:=(Some [{|loc_path:=[];loc_span:=[(1)%Z; (8)%Z; (5)%Z; (20)%Z];loc_leading:=None;loc_trailing:=None;loc_detached:=[]|}; {|loc_path:=[(4)%Z; (0)%Z];loc_span:=[(1)%Z; (8)%Z; (3)%Z; (9)%Z];loc_leading:=None;loc_trailing:=None;loc_detached:=[]|}; {|loc_path:=[(4)%Z; (0)%Z; (1)%Z];loc_span:=[(1)%Z; (16)%Z; (19)%Z];loc_leading:=None;loc_trailing:=None;loc_detached:=[]|}; {|loc_path:=[(4)%Z; (0)%Z; (2)%Z; (0)%Z];loc_span:=[(2)%Z; (12)%Z; (51)%Z];loc_leading:=None;loc_trailing:=None;loc_detached:=[]|}; {|loc_path:=[(4)%Z; (0)%Z; (2)%Z; (0)%Z; (1)%Z];loc_span:=[(2)%Z; (26)%Z; (30)%Z];loc_leading:=None;loc_trailing:=None;loc_detached:=[]|}; {|loc_path:=[(4)%Z; (0)%Z; (2)%Z; (0)%Z; (3)%Z];loc_span:=[(2)%Z; (33)%Z; (34)%Z];loc_leading:=None;loc_trailing:=None;loc_detached:=[]|}; {|loc_path:=[(4)%Z; (0)%Z; (2)%Z; (0)%Z; (4)%Z];loc_span:=[(2)%Z; (12)%Z; (20)%Z];loc_leading:=None;loc_trailing:=None;loc_detached:=[]|}; {|loc_path:=[(4)%Z; (0)%Z; (2)%Z; (0)%Z; (6)%Z];loc_span:=[(2)%Z; (21)%Z; (25)%Z];loc_leading:=None;loc_trailing:=None;loc_detached:=[]|}; {|loc_path:=[(4)%Z; (0)%Z; (2)%Z; (0)%Z; (7)%Z];loc_span:=[(2)%Z; (46)%Z; (49)%Z];loc_leading:=None;loc_trailing:=None;loc_detached:=[]|}; {|loc_path:=[(4)%Z; (0)%Z; (2)%Z; (0)%Z; (8)%Z];loc_span:=[(2)%Z; (35)%Z; (50)%Z];loc_leading:=None;loc_trailing:=None;loc_detached:=[]|}; {|loc_path:=[(5)%Z; (0)%Z];loc_span:=[(5)%Z; (8)%Z; (20)%Z];loc_leading:=None;loc_trailing:=None;loc_detached:=[]|}; {|loc_path:=[(5)%Z; (0)%Z; (1)%Z];loc_span:=[(5)%Z; (13)%Z; (17)%Z];loc_leading:=None;loc_trailing:=None;loc_detached:=[]|}]);d_syntax:=None|}).
Proof. vm_compute. reflexivity. Qed.
Example f_negative_ident_outside_default_1 : full [10;32;32;32;32;32;32;32;32;111;112;116;105;111;110;32;111;112;116;32;61;32;45;102;111;111;59;10;32;32;32;32] = Some (inr [NegativeIdentOutsideDefault (22,26)]).
Proof. vm_compute. reflexivity. Qed.
Example f_map_field_invalid_type_1 : full [109;101;115;115;97;103;101;32;77;101;115;115;97;103;101;32;123;10;32;32;32;32;32;32;32;32;109;97;112;60;105;110;116;54;52;44;32;102;108;111;97;116;62;32;105;110;116;54;52;32;61;32;49;59;10;32;32;32;32;32;32;32;32;109;97;112;60;117;105;110;116;51;50;44;32;100;111;117;98;108;101;62;32;117;105;110;116;51;50;32;61;32;50;59;10;32;32;32;32;32;32;32;32;109;97;112;60;117;105;110;116;54;52;44;32;46;77;101;115;115;97;103;101;62;32;117;105;110;116;54;52;32;61;32;51;59;10;32;32;32;32;32;32;32;32;109;97;112;60;115;105;110;116;51;50;44;32;77;101;115;115;97;103;101;62;32;115;105;110;116;51;50;32;61;32;52;59;10;32;32;32;32;32;32;32;32;109;97;112;60;115;105;110;116;54;52;44;32;98;121;116;101;115;62;32;115;105;110;116;54;52;32;61;32;53;59;10;32;32;32;32;32;32;32;32;109;97;112;60;102;105;120;101;100;51;50;44;32;105;110;116;54;52;62;32;102;105;120;101;100;51;50;32;61;32;54;59;10;32;32;32;32;32;32;32;32;109;97;112;60;102;105;120;101;100;54;52;44;32;117;105;110;116;51;50;62;32;102;105;120;101;100;54;52;32;61;32;55;59;10;32;32;32;32;32;32;32;32;109;97;112;60;115;102;105;120;101;100;51;50;44;32;115;105;110;116;51;50;62;32;115;102;105;120;101;100;51;50;32;61;32;56;59;10;32;32;32;32;32;32;32;32;109;97;112;60;115;102;105;120;101;100;54;52;44;32;115;105;110;116;54;52;62;32;115;102;105;120;101;100;54;52;32;61;32;57;59;10;32;32;32;32;32;32;32;32;109;97;112;60;98;111;111;108;44;32;102;105;120;101;100;51;50;62;32;98;111;111;108;32;61;32;49;48;59;10;32;32;32;32;32;32;32;32;109;97;112;60;115;116;114;105;110;103;44;32;102;105;120;101;100;54;52;62;32;115;116;114;105;110;103;32;61;32;49;49;59;10;32;32;32;32;125] = Some (inl {|d_name:=(Some [116;101;115;116;46;112;114;111;116;111]);d_package:=None;d_dependency:=[];d_public:=[];d_weak:=[];d_message:=[(MsgDesc (Some [77;101;115;115;97;103;101]) [{|f_name:=(Some [105;110;116;54;52]);f_number:=(Some (1)%Z);f_label:=(Some LabRepeated);f_type:=(Some FTMessage);f_type_name:=(Some [73;110;116;54;52;69;110;116;114;121]);f_extendee:=None;f_default:=None;f_oneof_index:=None;f_json_name:=None;f_options:=None;f_proto3_optional:=None|}; {|f_name:=(Some [117;105;110;116;51;50]);f_number:=(Some (2)%Z);f_label:=(Some LabRepeated);f_type:=(Some FTMessage);f_type_name:=(Some [85;105;110;116;51;50;69;110;116;114;121]);f_extendee:=None;f_default:=None;f_oneof_index:=None;f_json_name:=None;f_options:=None;f_proto3_optional:=None|}; {|f_name:=(Some [117;105;110;116;54;52]);f_number:=(Some (3)%Z);f_label:=(Some LabRepeated);f_type:=(Some FTMessage);f_type_name:=(Some [85;105;110;116;54;52;69;110;116;114;121]);f_extendee:=None;f_default:=None;f_oneof_index:=None;f_json_name:=None;f_options:=None;f_proto3_optional:=None|}; {|f_name:=(Some [115;105;110;116;51;50]);f_number:=(Some (4)%Z);f_label:=(Some LabRepeated);f_type:=(Some FTMessage);f_type_name:=(Some [83;105;110;116;51;50;69;110;116;114;121]);f_extendee:=None;f_default:=None;f_oneof_index:=None;f_json_name:=None;f_options:=None;f_proto3_optional:=None|}; {|f_name:=(Some [115;105;110;116;54;52]);f_number:=(Some (5)%Z);f_label:=(Some LabRepeated);f_type:=(Some FTMessage);f_type_name:=(Some [83;105;110;116;54;52;69;110;116;114;121]);f_extendee:=None;f_default:=None;f_oneof_index:=None;f_json_name:=None;f_options:=None;f_proto3_optional:=None|}; {|f_name:=(Some [102;105;120;101;100;51;50]);f_number:=(Some (6)%Z);f_label:=(Some LabRepeated);f_type:=(Some FTMessage);f_type_name:=(Some [70;105;120;101;100;51;50;69;110;116;114;121]);f_extendee:=None;f_default:=None;f_oneof_index:=None;f_json_name:=None;f_options:=None;f_proto3_optional:=None|}; {|f_name:=(Some [102;105;120;101;100;54;52]);f_number:=(Some (7)%Z);f_label:=(Some LabRepeated);f_type:=(Some FTMessage);f_type_name:=(Some [70;105;120;101;100;54;52;69;110;116;114;121]);f_extendee:=None;f_default:=None;f_oneof_index:=None;f_json_name:=None;f_options:=None;f_proto3_optional:=None|}; {|f_name:=(Some [115;102;105;120;101;100;51;50]);f_number:=(Some (8)%Z);f_label:=(Some LabRepeated);f_type:=(Some FTMessage);f_type_name:=(Some [83;102;105;120;101;100;51;50;69;110;116;114;121]);f_extendee:=None;f_default:=None;f_oneof_index:=None;f_json_name:=None;f_options:=None;f_proto3_optional:=None|}; {|f_name:=(Some [115;102;105;120;101;100;54;52]);f_number:=(Some (9)%Z);f_label:=(Some LabRepeated);f_type:=(Some FTMessage);f_type_name:=(Some [83;102;105;120;101;100;54;52;69;110;116;114;121]);f_extendee:=None;f_default:=None;f_oneof_index:=None;f_json_name:=None;f_options:=None;f_proto3_optional:=None|}; {|f_name:=(Some [98;111;111;108]);f_number:=(Some (10)%Z);f_label:=(Some LabRepeated);f_type:=(Some FTMessage);f_type_name:=(Some [66;111;111;108;69;110;116;114;121]);f_extendee:=None;f_default:=None;f_oneof_index:=None;f_json_name:=None;f_options:=None;f_proto3_optional:=None|}; {|f_name:=(Some [115;116;114;105;110;103]);f_number:=(Some (11)%Z);f_label:=(Some LabRepeated);f_type:=(Some FTMessage);f_type_name:=(Some [83;116;114;105;110;103;69;110;116;114;121]);f_extendee:=None;f_default:=None;f_oneof_index:=None;f_json_name:=None;f_options:=None;f_proto3_optional:=None|}] [] [(MsgDesc (Some [73;110;116;54;52;69;110;116;114;121]) [{|f_name:=(Some [107;101;121]);f_number:=(Some (1)%Z);f_label:=(Some LabOptional);f_type:=(Some FTInt64);f_type_name:=None;f_extendee:=None;f_default:=None;f_oneof_index:=None;f_json_name:=(Some [107;101;121]);f_options:=None;f_proto3_optional:=None|}; {|f_name:=(Some [118;97;108;117;101]);f_number:=(Some (2)%Z);f_label:=(Some LabOptional);f_type:=(Some FTFloat);f_type_name:=None;f_extendee:=None;f_default:=None;f_oneof_index:=None;f_json_name:=(Some [118;97;108;117;101]);f_options:=None;f_proto3_optional:=None|}] [] [] [] [] [] (Some {|mo_map_entry:=(Some true);mo_uninterpreted:=[]|}) [] []); (MsgDesc (Some [85;105;110;116;51;50;69;110;116;114;121]) [{|f_name:=(Some [107;101;121]);f_number:=(Some (1)%Z);f_label:=(Some LabOptional);f_type:=(Some FTUint32);f_type_name:=None;f_extendee:=None;f_default:=None;f_oneof_index:=None;f_json_name:=(Some [107;101;121]);f_options:=None;f_proto3_optional:=None|}; {|f_name:=(Some [118;97;108;117;101]);f_number:=(Some (2)%Z);f_label:=(Some LabOptional);f_type:=(Some FTDouble);f_type_name:=None;f_extendee:=None;f_default:=None;f_oneof_index:=None;f_json_name:=(Some [118;97;108;117;101]);f_options:=None;f_proto3_optional:=None|}] [] [] [] [] [] (Some {|mo_map_entry:=(Some true);mo_uninterpreted:=[]|}) [] []); (MsgDesc (Some [85;105;110;116;54;52;69;110;116;114;121]) [{|f_name:=(Some [107;101;121]);f_number:=(Some (1)%Z);f_label:=(Some LabOptional);f_type:=(Some FTUint64);f_type_name:=None;f_extendee:=None;f_default:=None;f_oneof_index:=None;f_json_name:=(Some [107;101;121]);f_options:=None;f_proto3_optional:=None|}; {|f_name:=(Some [118;97;108;117;101]);f_number:=(Some (2)%Z);f_label:=(Some LabOptional);f_type:=None;f_type_name:=(Some [46;77;101;115;115;97;103;101]);f_extendee:=None;f_default:=None;f_oneof_index:=None;f_json_name:=(Some [118;97;108;117;101]);f_options:=None;f_proto3_optional:=None|}] [] [] [] [] [] (Some {|mo_map_entry:=(Some true);mo_uninterpreted:=[]|}) [] []); (MsgDesc (Some [83;105;110;116;51;50;69;110;116;114;121]) [{|f_name:=(Some [107;101;121]);f_number:=(Some (1)%Z);f_label:=(Some LabOptional);f_type:=(Some FTSint32);f_type_name:=None;f_extendee:=None;f_default:=None;f_oneof_index:=None;f_json_name:=(Some [107;101;121]);f_options:=None;f_proto3_optional:=None|}; {|f_name:=(Some [118;97;108;117;101]);f_number:=(Some (2)%Z);f_label:=(Some LabOptional);f_type:=None;f_type_name:=(Some [77;101;115;115;97;103;101]);f_extendee:=None;f_default:=None;f_oneof_index:=None;f_json_name:=(Some [118;97;108;117;101]);f_options:=None;f_proto3_optional:=None|}] [] [] [] [] [] (Some {|mo_map_entry:=(Some true);mo_uninterpreted:=[]|}) [] []); (MsgDesc (Some [83;105;110;116;54;52;69;110;116;114;121]) [{|f_name:=(Some [107;101;121]);f_number:=(Some (1)%Z);f_label:=(Some LabOptional);f_type:=(Some FTSint64);f_type_name:=None;f_extendee:=None;f_default:=None;f_oneof_index:=None;f_json_name:=(Some [107;101;121]);f_options:=None;f_proto3_optional:=None|}; {|f_name:=(Some [118;97;108;117;101]);f_number:=(Some (2)%Z);f_label:=(Some LabOptional);f_type:=(Some FTBytes);f_type_name:=None;f_extendee:=None;f_default:=None;f_oneof_index:=None;f_json_name:=(Some [118;97;108;117;101]);f_options:=None;f_proto3_optional:=None|}] [] [] [] [] [] (Some {|mo_map_entry:=(Some true);mo_uninterpreted:=[]|}) [] []); (MsgDesc (Some [70;105;120;101;100;51;50;69;110;116;114;121]) [{|f_name:=(Some [107;101;121]);f_number:=(Some (1)%Z);f_label:=(Some LabOptional);f_type:=(Some FTFixed32);f_type_name:=None;f_extendee:=None;f_default:=None;f_oneof_index:=None;f_json_name:=(Some [107;101;121]);f_options:=None;f_proto3_optional:=None|}; {|f_name:=(Some [118;97;108;117;101]);f_number:=(Some (2)%Z);f_label:=(Some LabOptional);f_type:=(Some FTInt64);f_type_name:=None;f_extendee:=None;f_default:=None;f_oneof_index:=None;f_json_name:=(Some [118;97;108;117;101]);f_options:=None;f_proto3_optional:=None|}] [] [] [] [] [] (Some {|mo_map_entry:=(Some true);mo_uninterpreted:=[]|}) [] []); (MsgDesc (Some [70;105;120;101;100;54;52;69;110;116;114;121]) [{|f_name:=(Some [107;101;121]);f_number:=(Some (1)%Z);f_label:=(Some LabOptional);f_type:=(Some FTFixed64);f_type_name:=None;f_extendee:=None;f_default:=None;f_oneof_index:=None;f_json_name:=(Some [107;101;121]);f_options:=None;f_proto3_optional:=None|}; {|f_name:=(Some [118;97;108;117;101]);f_number:=(Some (2)%Z);f_label:=(Some LabOptional);f_type:=(Some FTUint32);f_type_name:=None;f_extendee:=None;f_default:=None;f_oneof_index:=None;f_json_name:=(Some [118;97;108;117;101]);f_options:=None;f_proto3_optional:=None|}] [] [] [] [] [] (Some {|mo_map_entry:=(Some true);mo_uninterpreted:=[]|}) [] []); (MsgDesc (Some [83;102;105;120;101;100;51;50;69;110;116;114;121]) [{|f_name:=(Some [107;101;121]);f_number:=(Some (1)%Z);f_label:=(Some LabOptional);f_type:=(Some FTSfixed32);f_type_name:=None;f_extendee:=None;f_default:=None;f_oneof_index:=None;f_json_name:=(Some [107;101;121]);f_options:=None;f_proto3_optional:=None|}; {|f_name:=(Some [118;97;108;117;101]);f_number:=(Some (2)%Z);f_label:=(Some LabOptional);f_type:=(Some FTSint32);f_type_name:=None;f_extendee:=None;f_default:=None;f_oneof_index:=None;f_json_name:=(Some [118;97;108;117;101]);f_options:=None;f_proto3_optional:=None|}] [] [] [] [] [] (Some {|mo_map_entry:=(Some true);mo_uninterpreted:=[]|}) [] []); (MsgDesc (Some [83;102;105;120;101;100;54;52;69;110;116;114;121]) [{|f_name:=(Some [107;101;121]);f_number:=(Some (1)%Z);f_label:=(Some LabOptional);f_type:=(Some FTSfixed64);f_type_name:=None;f_extendee:=None;f_default:=None;f_oneof_index:=None;f_json_name:=(Some [107;101;121]);f_options:=None;f_proto3_optional:=None|}; {|f_name:=(Some [118;97;108;117;101]);f_number:=(Some (2)%Z);f_label:=(Some LabOptional);f_type:=(Some FTSint64);f_type_name:=None;f_extendee:=None;f_default:=None;f_oneof_index:=None;f_json_name:=(Some [118;97;108;117;101]);f_options:=None;f_proto3_optional:=None|}] [] [] [] [] [] (Some {|mo_map_entry:=(Some true);mo_uninterpreted:=[]|}) [] []); (MsgDesc (Some [66;111;111;108;69;110;116;114;121]) [{|f_name:=(Some [107;101;121]);f_number:=(Some (1)%Z);f_label:=(Some LabOptional);f_type:=(Some FTBool);f_type_name:=None;f_extendee:=None;f_default:=None;f_oneof_index:=None;f_json_name:=(Some [107;101;121]);f_options:=None;f_proto3_optional:=None|}; {|f_name:=(Some [118;97;108;117;101]);f_number:=(Some (2)%Z);f_label:=(Some LabOptional);f_type:=(Some FTFixed32);f_type_name:=None;f_extendee:=None;f_default:=None;f_oneof_index:=None;f_json_name:=(Some [118;97;108;117;101]);f_options:=None;f_proto3_optional:=None|}] [] [] [] [] [] (Some {|mo_map_entry:=(Some true);mo_uninterpreted:=[]|}) [] []); (MsgDesc (Some [83;116;114;105;110;103;69;110;116;114;121]) [{|f_name:=(Some [107;101;121]);f_number:=(Some (1)%Z);f_label:=(Some LabOptional);f_type:=(Some FTString);f_type_name:=None;f_extendee:=None;f_default:=None;f_oneof_index:=None;f_json_name:=(Some [107;101;121]);f_options:=None;f_proto3_optional:=None|}; {|f_name:=(Some [118;97;108;117;101]);f_number:=(Some (2)%Z);f_label:=(Some LabOptional);f_type:=(Some FTFixed64);f_type_name:=None;f_extendee:=None;f_default:=None;f_oneof_index:=None;f_json_name:=(Some [118;97;108;117;101]);f_options:=None;f_proto3_optional:=None|}] [] [] [] [] [] (Some {|mo_map_entry:=(Some true);mo_uninterpreted:=[]|}) [] [])] [] [] [] None [] [])];d_enum:=[];d_service:=[];d_extension:=[];d_options:=None;d_source_info:=(Some [{|loc_path:=[];loc_span:=[(0)%Z; (0)%Z; (12)%Z; (5)%Z];loc_leading:=None;loc_trailing:=None;loc_detached:=[]|}; {|loc_path:=[(4)%Z; (0)%Z];loc_span:=[(0)%Z; (0)%Z; (12)%Z; (5)%Z];loc_leading:=None;loc_trailing:=None;loc_detached:=[]|}; {|loc_path:=[(4)%Z; (0)%Z; (1)%Z];loc_span:=[(0)%Z; (8)%Z; (15)%Z];loc_leading:=None;loc_trailing:=None;loc_detached:=[]|}; {|loc_path:=[(4)%Z; (0)%Z; (2)%Z; (0)%Z];loc_span:=[(1)%Z; (8)%Z; (36)%Z];loc_leading:=None;loc_trailing:=None;loc_detached:=[]|}; {|loc_path:=[(4)%Z; (0)%Z; (2)%Z; (0)%Z; (1)%Z];loc_span:=[(1)%Z; (26)%Z; (31)%Z];loc_leading:=None;loc_trailing:=None;loc_detached:=[]|}; {|loc_path:=[(4)%Z; (0)%Z; (2)%Z; (0)%Z; (3)%Z];loc_span:=[(1)%Z; (34)%Z; (35)%Z];loc_leading:=None;loc_trailing:=None;loc_detached:=[]|}; {|loc_path:=[(4)%Z; (0)%Z; (2)%Z; (0)%Z; (6)%Z];loc_span:=[(1)%Z; (8)%Z; (25)%Z];loc_leading:=None;loc_trailing:=None;loc_detached:=[]|}; {|loc_path:=[(4)%Z; (0)%Z; (2)%Z; (1)%Z];loc_span:=[(2)%Z; (8)%Z; (39)%Z];loc_leading:=None;loc_trailing:=None;loc_detached:=[]|}; {|loc_path:=[(4)%Z; (0)%Z; (2)%Z; (1)%Z; (1)%Z];loc_span:=[(2)%Z; (28)%Z; (34)%Z];loc_leading:=None;loc_trailing:=None;loc_detached:=[]|}; {|loc_path:=[(4)%Z; (0)%Z; (2)%Z; (1)%Z; (3)%Z];loc_span:=[(2)%Z; (37)%Z; (38)%Z];loc_leading:=None;loc_trailing:=None;loc_detached:=[]|}; {|loc_path:=[(4)%Z; (0)%Z; (2)%Z; (1)%Z; (6)%Z];loc_span:=[(2)%Z; (8)%Z; (27)%Z];loc_leading:=None;loc_trailing:=None;loc_detached:=[]|}; {|loc_path:=[(4)%Z; (0)%Z; (2)%Z; (2)%Z];loc_span:=[(3)%Z; (8)%Z; (41)%Z];loc_leading:=None;loc_trailing:=None;loc_detached:=[]|}; {|loc_path:=[(4)%Z; (0)%Z; (2)%Z; (2)%Z; (1)%Z];loc_span:=[(3)%Z; (30)%Z; (36)%Z];loc_leading:=None;loc_trailing:=None;loc_detached:=[]|}; {|loc_path:=[(4)%Z; (0)%Z; (2)%Z; (2)%Z; (3)%Z];loc_span:=[(3)%Z; (39)%Z; (40)%Z];loc_leading:=None;loc_trailing:=None;loc_detached:=[]|}; {|loc_path:=[(4)%Z; (0)%Z; (2)%Z; (2)%Z; (6)%Z];loc_span:=[(3)%Z; (8)%Z; (29)%Z];loc_leading:=None;loc_trailing:=None;loc_detached:=[]|}; {|loc_path:=[(4)%Z; (0)%Z; (2)%Z; (3)%Z];loc_span:=[(4)%Z; (8)%Z; (40)%Z];loc_leading:=None;loc_trailing:=None;loc_detached:=[]|}; {|loc_path:=[(4)%Z; (0)%Z; (2)%Z; (3)%Z; (1)%Z];loc_span:=[(4)%Z; (29)%Z; (35)%Z];loc_leading:=None;loc_trailing:=None;loc_detached:=[]|}; {|loc_path:=[(4)%Z; (0)%Z; (2)%Z; (3)%Z; (3)%Z];loc_span:=[(4)%Z; (38)%Z; (39)%Z];loc_leading:=None;loc_trailing:=None;loc_detached:=[]|}; {|loc_path:=[(4)%Z; (0)%Z; (2)%Z; (3)%Z; (6)%Z];loc_span:=[(4)%Z; (8)%Z; (28)%Z];loc_leading:=None;loc_trailing:=None;loc_detached:=[]|}; {|loc_path:=[(4)%Z; (0)%Z; (2)%Z; (4)%Z];loc_span:=[(5)%Z; (8)%Z; (38)%Z];loc_leading:=None;loc_trailing:=None;loc_detached:=[]|}; {|loc_path:=[(4)%Z; (0)%Z; (2)%Z; (4)%Z; (1)%Z];loc_span:=[(5)%Z; (27)%Z; (33)%Z];loc_leading:=None;loc_trailing:=None;loc_detached:=[]|}; {|loc_path:=[(4)%Z; (0)%Z; (2)%Z; (4)%Z; (3)%Z];loc_span:=[(5)%Z; (36)%Z; (37)%Z];loc_leading:=None;loc_trailing:=None;loc_detached:=[]|}; {|loc_path:=[(4)%Z; (0)%Z; (2)%Z; (4)%Z; (6)%Z];loc_span:=[(5)%Z; (8)%Z; (26)%Z];loc_leading:=None;loc_trailing:=None;loc_detached:=[]|}; {|loc_path:=[(4)%Z; (0)%Z; (2)%Z; (5)%Z];loc_span:=[(6)%Z; (8)%Z; (40)%Z];loc_leading:=None;loc_trailing:=None;loc_detached:=[]|}; {|loc_path:=[(4)%Z; (0)%Z; (2)%Z; (5)%Z; (1)%Z];loc_span:=[(6)%Z; (28)%Z; (35)%Z];loc_leading:=None;loc_trailing:=None;loc_detached:=[]|}; {|loc_path:=[(4)%Z; (0)%Z; (2)%Z; (5)%Z; (3)%Z];loc_span:=[(6)%Z; (38)%Z; (39)%Z];loc_leading:=None;loc_trailing:=None;loc_detached:=[]|}; {|loc_path:=[(4)%Z; (0)%Z; (2)%Z; (5)%Z; (6)%Z];loc_span:=[(6)%Z; (8)%Z; (27)%Z];loc_leading:=None;loc_trailing:=None;loc_detached:=[]|}; {|loc_path:=[(4)%Z; (0)%Z; (2)%Z; (6)%Z];loc_span:=[(7)%Z; (8)%Z; (41)%Z];loc_leading:=None;loc_trailing:=None;loc_detached:=[]|}; {|loc_path:=[(4)%Z; (0)%Z; (2)%Z; (6)%Z; (1)%Z];loc_span:=[(7)%Z; (29)%Z; (36)%Z];loc_leading:=None;loc_trailing:=None;loc_detached:=[]|}; {|loc_path:=[(4)%Z; (0)%Z; (2)%Z; (6)%Z; (3)%Z];loc_span:=[(7)%Z; (39)%Z; (40)%Z];loc_leading:=None;loc_trailing:=None;loc_detached:=[]|}; {|loc_path:=[(4)%Z; (0)%Z; (2)%Z; (6)%Z; (6)%Z];loc_span:=[(7)%Z; (8)%Z; (28)%Z];loc_leading:=None;loc_trailing:=None;loc_detached:=[]|}; {|loc_path:=[(4)%Z; (0)%Z; (2)%Z; (7)%Z];loc_span:=[(8)%Z; (8)%Z; (43)%Z];loc_leading:=None;loc_trailing:=None;loc_detached:=[]|}; {|loc_path:=[(4)%Z; (0)%Z; (2)%Z; (7)%Z; (1)%Z];loc_span:=[(8)%Z; (30)%Z; (38)%Z];loc_leading:=None;loc_trailing:=None;loc_detached:=[]|}; {|loc_path:=[(4)%Z; (0)%Z; (2)%Z; (7)%Z; (3)%Z];loc_span:=[(8)%Z; (41)%Z; (42)%Z];loc_leading:=None;loc_trailing:=None;loc_detached:=[]|}; {|loc_path:=[(4)%Z; (0)%Z; (2)%Z; (7)%Z; (6)%Z];loc_span:=[(8)%Z; (8)%Z; (29)%Z];loc_leading:=None;loc_trailing:=None;loc_detached:=[]|}; {|loc_path:=[(4)%Z; (0)%Z; (2)%Z; (8)%Z];loc_span:=[(9)%Z; (8)%Z; (43)%Z];loc_leading:=None;loc_trailing:=None;loc_detached:=[]|}; {|loc_path:=[(4)%Z; (0)%Z; (2)%Z; (8)%Z; (1)%Z];loc_span:=[(9)%Z; (30)%Z; (38)%Z];loc_leading:=None;loc_trailing:=None;loc_detached:=[]|}; {|loc_path:=[(4)%Z; (0)%Z; (2)%Z; (8)%Z; (3)%Z];loc_span:=[(9)%Z; (41)%Z; (42)%Z];loc_leading:=None;loc_trailing:=None;loc_detached:=[]|}; {|loc_path:=[(4)%Z; (0)%Z; (2)%Z; (8)%Z; (6)%Z];loc_span:=[(9)%Z; (8)%Z; (29)%Z];loc_leading:=None;loc_trailing:=None;loc_detached:=[]|}; {|loc_path:=[(4)%Z; (0)%Z; (2)%Z; (9)%Z];loc_span:=[(10)%Z; (8)%Z; (37)%Z];loc_leading:=None;loc_trailing:=None;loc_detached:=[]|}; {|loc_path:=[(4)%Z; (0)%Z; (2)%Z; (9)%Z; (1)%Z];loc_span:=[(10)%Z; (27)%Z; (31)%Z];loc_leading:=None;loc_trailing:=None;loc_detached:=[]|}; {|loc_path:=[(4)%Z; (0)%Z; (2)%Z; (9)%Z; (3)%Z];loc_span:=[(10)%Z; (34)%Z; (36)%Z];loc_leading:=None;loc_trailing:=None;loc_detached:=[]|}; {|loc_path:=[(4)%Z; (0)%Z; (2)%Z; (9)%Z; (6)%Z];loc_span:=[(10)%Z; (8)%Z; (26)%Z];loc_leading:=None;loc_trailing:=None;loc_detached:=[]|}; {|loc_path:=[(4)%Z; (0)%Z; (2)%Z; (10)%Z];loc_span:=[(11)%Z; (8)%Z; (41)%Z];loc_leading:=None;loc_trailing:=None;loc_detached:=[]|}; {|loc_path:=[(4)%Z; (0)%Z; (2)%Z; (10)%Z; (1)%Z];loc_span:=[(11)%Z; (29)%Z; (35)%Z];loc_leading:=None;loc_trailing:=None;loc_detached:=[]|}; {|loc_path:=[(4)%Z; (0)%Z; (2)%Z; (10)%Z; (3)%Z];loc_span:=[(11)%Z; (38)%Z; (40)%Z];loc_leading:=None;loc_trailing:=None;loc_detached:=[]|}; {|loc_path:=[(4)%Z; (0)%Z; (2)%Z; (10)%Z; (6)%Z];loc_span:=[(11)%Z; (8)%Z; (28)%Z];loc_leading:=None;loc_trailing:=None;loc_detached:=[]|}]);d_syntax:=None|}).
Proof. vm_compute. reflexivity. Qed.
Example e_map_field_invalid_type_1 : full [109;101;115;115;97;103;101;32;77;101;115;115;97;103;101;32;123;10;32;32;32;32;32;32;32;32;32;32;32;32;109;97;112;60;77;101;115;115;97;103;101;44;32;115;102;105;120;101;100;51;50;62;32;102;105;101;108;100;32;61;32;49;59;10;32;32;32;32;32;32;32;32;125] = Some (inr [InvalidMapFieldKeyType (34,41)]).
Proof. vm_compute. reflexivity. Qed.
Example e_map_field_invalid_type_2 : full [109;101;115;115;97;103;101;32;77;101;115;115;97;103;101;32;123;10;32;32;32;32;32;32;32;32;32;32;32;32;109;97;112;60;46;77;101;115;115;97;103;101;44;32;102;105;120;101;100;51;50;62;32;102;105;101;108;100;32;61;32;49;59;10;32;32;32;32;32;32;32;32;125] = Some (inr [InvalidMapFieldKeyType (34,42)]).
Proof. vm_compute. reflexivity. Qed.
Example e_map_field_invalid_type_3 : full [109;101;115;115;97;103;101;32;77;101;115;115;97;103;101;32;123;10;32;32;32;32;32;32;32;32;32;32;32;32;109;97;112;60;46;77;101;115;115;97;103;101;44;32;98;111;111;108;62;32;102;105;101;108;100;32;61;32;49;59;10;32;32;32;32;32;32;32;32;125] = Some (inr [InvalidMapFieldKeyType (34,42)]).
Proof. vm_compute. reflexivity. Qed.
Example e_map_field_invalid_type_4 : full [109;101;115;115;97;103;101;32;77;101;115;115;97;103;101;32;123;10;32;32;32;32;32;32;32;32;32;32;32;32;109;97;112;60;102;108;111;97;116;44;32;115;116;114;105;110;103;62;32;102;105;101;108;100;32;61;32;49;59;10;32;32;32;32;32;32;32;32;125] = Some (inr [InvalidMapFieldKeyType (34,39)]).
Proof. vm_compute. reflexivity. Qed.
Example e_map_field_invalid_type_5 : full [109;101;115;115;97;103;101;32;77;101;115;115;97;103;101;32;123;10;32;32;32;32;32;32;32;32;32;32;32;32;109;97;112;60;100;111;117;98;108;101;44;32;105;110;116;54;52;62;32;102;105;101;108;100;32;61;32;49;59;10;32;32;32;32;32;32;32;32;125] = Some (inr [InvalidMapFieldKeyType (34,40)]).
Proof. vm_compute. reflexivity. Qed.
Example e_map_field_invalid_type_6 : full [109;101;115;115;97;103;101;32;77;101;115;115;97;103;101;32;123;10;32;32;32;32;32;32;32;32;32;32;32;32;109;97;112;60;69;110;117;109;44;32;105;110;116;54;52;62;32;102;105;101;108;100;32;61;32;49;59;10;10;32;32;32;32;32;32;32;32;32;32;32;32;101;110;117;109;32;69;110;117;109;32;123;10;32;32;32;32;32;32;32;32;32;32;32;32;32;32;32;32;90;69;82;79;32;61;32;48;59;10;32;32;32;32;32;32;32;32;32;32;32;32;125;10;32;32;32;32;32;32;32;32;125] = Some (inr [InvalidMapFieldKeyType (34,38)]).
Proof. vm_compute. reflexivity. Qed.
Example f_invalid_message_number_1 : full [109;101;115;115;97;103;101;32;70;111;111;32;123;32;111;112;116;105;111;110;97;108;32;105;110;116;51;50;32;105;32;61;32;49;59;32;125] = Some (inl {|d_name:=(Some [116;101;115;116;46;112;114;111;116;111]);d_package:=None;d_dependency:=[];d_public:=[];d_weak:=[];d_message:=[(MsgDesc (Some [70;111;111]) [{|f_name:=(Some [105]);f_number:=(Some (1)%Z);f_label:=(Some LabOptional);f_type:=(Some FTInt32);f_type_name:=None;f_extendee:=None;f_default:=None;f_oneof_index:=None;f_json_name:=None;f_options:=None;f_proto3_optional:=None|}] [] [] [] [] [] None [] [])];d_enum:=[];d_service:=[];d_extension:=[];d_options:=None;d_source_info:=(Some [{|loc_path:=[];loc_span:=[(0)%Z; (0)%Z; (37)%Z];loc_leading:=None;loc_trailing:=None;loc_detached:=[]|}; {|loc_path:=[(4)%Z; (0)%Z];loc_span:=[(0)%Z; (0)%Z; (37)%Z];loc_leading:=None;loc_trailing:=None;loc_detached:=[]|}; {|loc_path:=[(4)%Z; (0)%Z; (1)%Z];loc_span:=[(0)%Z; (8)%Z; (11)%Z];loc_leading:=None;loc_trailing:=None;loc_detached:=[]|}; {|loc_path:=[(4)%Z; (0)%Z; (2)%Z; (0)%Z];loc_span:=[(0)%Z; (14)%Z; (35)%Z];loc_leading:=None;loc_trailing:=None;loc_detached:=[]|}; {|loc_path:=[(4)%Z; (0)%Z; (2)%Z; (0)%Z; (1)%Z];loc_span:=[(0)%Z; (29)%Z; (30)%Z];loc_leading:=None;loc_trailing:=None;loc_detached:=[]|}; {|loc_path:=[(4)%Z; (0)%Z; (2)%Z; (0)%Z; (3)%Z];loc_span:=[(0)%Z; (33)%Z; (34)%Z];loc_leading:=None;loc_trailing:=None;loc_detached:=[]|}; {|loc_path:=[(4)%Z; (0)%Z; (2)%Z; (0)%Z; (4)%Z];loc_span:=[(0)%Z; (14)%Z; (22)%Z];loc_leading:=None;loc_trailing:=None;loc_detached:=[]|}; {|loc_path:=[(4)%Z; (0)%Z; (2)%Z; (0)%Z; (5)%Z];loc_span:=[(0)%Z; (23)%Z; (28)%Z];loc_leading:=None;loc_trailing:=None;loc_detached:=[]|}]);d_syntax:=None|}).
Proof. vm_compute. reflexivity. Qed.
Example f_invalid_message_number_2 : full [109;101;115;115;97;103;101;32;70;111;111;32;123;32;111;112;116;105;111;110;97;108;32;105;110;116;51;50;32;105;32;61;32;53;51;54;56;55;48;57;49;49;59;32;125] = Some (inl {|d_name:=(Some [116;101;115;116;46;112;114;111;116;111]);d_package:=None;d_dependency:=[];d_public:=[];d_weak:=[];d_message:=[(MsgDesc (Some [70;111;111]) [{|f_name:=(Some [105]);f_number:=(Some (536870911)%Z);f_label:=(Some LabOptional);f_type:=(Some FTInt32);f_type_name:=None;f_extendee:=None;f_default:=None;f_oneof_index:=None;f_json_name:=None;f_options:=None;f_proto3_optional:=None|}] [] [] [] [] [] None [] [])];d_enum:=[];d_service:=[];d_extension:=[];d_options:=None;d_source_info:=(Some [{|loc_path:=[];loc_span:=[(0)%Z; (0)%Z; (45)%Z];loc_leading:=None;loc_trailing:=None;loc_detached:=[]|}; {|loc_path:=[(4)%Z; (0)%Z];loc_span:=[(0)%Z; (0)%Z; (45)%Z];loc_leading:=None;loc_trailing:=None;loc_detached:=[]|}; {|loc_path:=[(4)%Z; (0)%Z; (1)%Z];loc_span:=[(0)%Z; (8)%Z; (11)%Z];loc_leading:=None;loc_trailing:=None;loc_detached:=[]|}; {|loc_path:=[(4)%Z; (0)%Z; (2)%Z; (0)%Z];loc_span:=[(0)%Z; (14)%Z; (43)%Z];loc_leading:=None;loc_trailing:=None;loc_detached:=[]|}; {|loc_path:=[(4)%Z; (0)%Z; (2)%Z; (0)%Z; (1)%Z];loc_span:=[(0)%Z; (29)%Z; (30)%Z];loc_leading:=None;loc_trailing:=None;loc_detached:=[]|}; {|loc_path:=[(4)%Z; (0)%Z; (2)%Z; (0)%Z; (3)%Z];loc_span:=[(0)%Z; (33)%Z; (42)%Z];loc_leading:=None;loc_trailing:=None;loc_detached:=[]|}; {|loc_path:=[(4)%Z; (0)%Z; (2)%Z; (0)%Z; (4)%Z];loc_span:=[(0)%Z; (14)%Z; (22)%Z];loc_leading:=None;loc_trailing:=None;loc_detached:=[]|}; {|loc_path:=[(4)%Z; (0)%Z; (2)%Z; (0)%Z; (5)%Z];loc_span:=[(0)%Z; (23)%Z; (28)%Z];loc_leading:=None;loc_trailing:=None;loc_detached:=[]|}]);d_syntax:=None|}).
Proof. vm_compute. reflexivity. Qed.
Example f_invalid_message_number_3 : full [109;101;115;115;97;103;101;32;70;111;111;32;123;32;111;112;116;105;111;110;97;108;32;105;110;116;51;50;32;105;32;61;32;49;56;57;57;57;59;32;125] = Some (inl {|d_name:=(Some [116;101;115;116;46;112;114;111;116;111]);d_package:=None;d_dependency:=[];d_public:=[];d_weak:=[];d_message:=[(MsgDesc (Some [70;111;111]) [{|f_name:=(Some [105]);f_number:=(Some (18999)%Z);f_label:=(Some LabOptional);f_type:=(Some FTInt32);f_type_name:=None;f_extendee:=None;f_default:=None;f_oneof_index:=None;f_json_name:=None;f_options:=None;f_proto3_optional:=None|}] [] [] [] [] [] None [] [])];d_enum:=[];d_service:=[];d_extension:=[];d_options:=None;d_source_info:=(Some [{|loc_path:=[];loc_span:=[(0)%Z; (0)%Z; (41)%Z];loc_leading:=None;loc_trailing:=None;loc_detached:=[]|}; {|loc_path:=[(4)%Z; (0)%Z];loc_span:=[(0)%Z; (0)%Z; (41)%Z];loc_leading:=None;loc_trailing:=None;loc_detached:=[]|}; {|loc_path:=[(4)%Z; (0)%Z; (1)%Z];loc_span:=[(0)%Z; (8)%Z; (11)%Z];loc_leading:=None;loc_trailing:=None;loc_detached:=[]|}; {|loc_path:=[(4)%Z; (0)%Z; (2)%Z; (0)%Z];loc_span:=[(0)%Z; (14)%Z; (39)%Z];loc_leading:=None;loc_trailing:=None;loc_detached:=[]|}; {|loc_path:=[(4)%Z; (0)%Z; (2)%Z; (0)%Z; (1)%Z];loc_span:=[(0)%Z; (29)%Z; (30)%Z];loc_leading:=None;loc_trailing:=None;loc_detached:=[]|}; {|loc_path:=[(4)%Z; (0)%Z; (2)%Z; (0)%Z; (3)%Z];loc_span:=[(0)%Z; (33)%Z; (38)%Z];loc_leading:=None;loc_trailing:=None;loc_detached:=[]|}; {|loc_path:=[(4)%Z; (0)%Z; (2)%Z; (0)%Z; (4)%Z];loc_span:=[(0)%Z; (14)%Z; (22)%Z];loc_leading:=None;loc_trailing:=None;loc_detached:=[]|}; {|loc_path:=[(4)%Z; (0)%Z; (2)%Z; (0)%Z; (5)%Z];loc_span:=[(0)%Z; (23)%Z; (28)%Z];loc_leading:=None;loc_trailing:=None;loc_detached:=[]|}]);d_syntax:=None|}).
Proof. vm_compute. reflexivity. Qed.
Example f_invalid_message_number_4 : full [109;101;115;115;97;103;101;32;70;111;111;32;123;32;111;112;116;105;111;110;97;108;32;105;110;116;51;50;32;105;32;61;32;50;48;48;48;48;59;32;125] = Some (inl {|d_name:=(Some [116;101;115;116;46;112;114;111;116;111]);d_package:=None;d_dependency:=[];d_public:=[];d_weak:=[];d_message:=[(MsgDesc (Some [70;111;111]) [{|f_name:=(Some [105]);f_number:=(Some (20000)%Z);f_label:=(Some LabOptional);f_type:=(Some FTInt32);f_type_name:=None;f_extendee:=None;f_default:=None;f_oneof_index:=None;f_json_name:=None;f_options:=None;f_proto3_optional:=None|}] [] [] [] [] [] None [] [])];d_enum:=[];d_service:=[];d_extension:=[];d_options:=None;d_source_info:=(Some [{|loc_path:=[];loc_span:=[(0)%Z; (0)%Z; (41)%Z];loc_leading:=None;loc_trailing:=None;loc_detached:=[]|}; {|loc_path:=[(4)%Z; (0)%Z];loc_span:=[(0)%Z; (0)%Z; (41)%Z];loc_leading:=None;loc_trailing:=None;loc_detached:=[]|}; {|loc_path:=[(4)%Z; (0)%Z; (1)%Z];loc_span:=[(0)%Z; (8)%Z; (11)%Z];loc_leading:=None;loc_trailing:=None;loc_detached:=[]|}; {|loc_path:=[(4)%Z; (0)%Z; (2)%Z; (0)%Z];loc_span:=[(0)%Z; (14)%Z; (39)%Z];loc_leading:=None;loc_trailing:=None;loc_detached:=[]|}; {|loc_path:=[(4)%Z; (0)%Z; (2)%Z; (0)%Z; (1)%Z];loc_span:=[(0)%Z; (29)%Z; (30)%Z];loc_leading:=None;loc_trailing:=None;loc_detached:=[]|}; {|loc_path:=[(4)%Z; (0)%Z; (2)%Z; (0)%Z; (3)%Z];loc_span:=[(0)%Z; (33)%Z; (38)%Z];loc_leading:=None;loc_trailing:=None;loc_detached:=[]|}; {|loc_path:=[(4)%Z; (0)%Z; (2)%Z; (0)%Z; (4)%Z];loc_span:=[(0)%Z; (14)%Z; (22)%Z];loc_leading:=None;loc_trailing:=None;loc_detached:=[]|}; {|loc_path:=[(4)%Z; (0)%Z; (2)%Z; (0)%Z; (5)%Z];loc_span:=[(0)%Z; (23)%Z; (28)%Z];loc_leading:=None;loc_trailing:=None;loc_detached:=[]|}]);d_syntax:=None|}).
Proof. vm_compute. reflexivity. Qed.
Example e_invalid_message_number_1 : full [109;101;115;115;97;103;101;32;70;111;111;32;123;32;111;112;116;105;111;110;97;108;32;105;110;116;51;50;32;105;32;61;32;45;53;59;32;125] = Some (inr [InvalidMessageNumber (33,35)]).
Proof. vm_compute. reflexivity. Qed.
Example e_invalid_message_number_2 : full [109;101;115;115;97;103;101;32;70;111;111;32;123;32;111;112;116;105;111;110;97;108;32;105;110;116;51;50;32;105;32;61;32;48;59;32;125] = Some (inr [InvalidMessageNumber (33,34)]).
Proof. vm_compute. reflexivity. Qed.
Example e_invalid_message_number_3 : full [109;101;115;115;97;103;101;32;70;111;111;32;123;32;111;112;116;105;111;110;97;108;32;105;110;116;51;50;32;105;32;61;32;53;51;54;56;55;48;57;49;50;59;32;125] = Some (inr [InvalidMessageNumber (33,42)]).
Proof. vm_compute. reflexivity. Qed.
Example e_proto3_default_value_1 : full [10;32;32;32;32;32;32;32;32;32;32;32;32;115;121;110;116;97;120;32;61;32;39;112;114;111;116;111;51;39;59;10;10;32;32;32;32;32;32;32;32;32;32;32;32;109;101;115;115;97;103;101;32;77;101;115;115;97;103;101;32;123;10;32;32;32;32;32;32;32;32;32;32;32;32;32;32;32;32;111;112;116;105;111;110;97;108;32;105;110;116;51;50;32;102;111;111;32;61;32;49;32;91;100;101;102;97;117;108;116;32;61;32;45;48;93;59;10;32;32;32;32;32;32;32;32;32;32;32;32;125] = Some (inr [Proto3DefaultValue (103,115)]).
Proof. vm_compute. reflexivity. Qed.
Example e_map_field_with_label_1 : full [109;101;115;115;97;103;101;32;77;101;115;115;97;103;101;32;123;10;32;32;32;32;32;32;32;32;32;32;32;32;111;112;116;105;111;110;97;108;32;109;97;112;60;105;110;116;51;50;44;32;115;116;114;105;110;103;62;32;102;105;101;108;100;32;61;32;49;59;10;32;32;32;32;32;32;32;32;125] = Some (inr [MapFieldWithLabel (30,38)]).
Proof. vm_compute. reflexivity. Qed.
Example e_map_field_with_label_2 : full [10;32;32;32;32;32;32;32;32;32;32;32;32;115;121;110;116;97;120;32;61;32;39;112;114;111;116;111;51;39;59;10;10;32;32;32;32;32;32;32;32;32;32;32;32;109;101;115;115;97;103;101;32;77;101;115;115;97;103;101;32;123;10;32;32;32;32;32;32;32;32;32;32;32;32;32;32;32;32;114;101;113;117;105;114;101;100;32;109;97;112;60;105;110;116;51;50;44;32;115;116;114;105;110;103;62;32;102;105;101;108;100;32;61;32;49;59;10;32;32;32;32;32;32;32;32;32;32;32;32;125] = Some (inr [MapFieldWithLabel (79,87)]).
Proof. vm_compute. reflexivity. Qed.
Example f_message_reserved_range_extrema_1 : full [109;101;115;115;97;103;101;32;77;101;115;115;97;103;101;32;123;10;32;32;32;32;32;32;32;32;32;32;32;32;114;101;115;101;114;118;101;100;32;49;32;116;111;32;53;51;54;56;55;48;57;49;49;59;10;32;32;32;32;32;32;32;32;125] = Some (inl {|d_name:=(Some [116;101;115;116;46;112;114;111;116;111]);d_package:=None;d_dependency:=[];d_public:=[];d_weak:=[];d_message:=[(MsgDesc (Some [77;101;115;115;97;103;101]) [] [] [] [] [] [] None [{|r_start:=(Some (1)%Z);r_end:=(Some (536870912)%Z)|}] [])];d_enum:=[];d_service:=[];d_extension:=[];d_options:=None;d_source_info:=(Some [{|loc_path:=[];loc_span:=[(0)%Z; (0)%Z; (2)%Z; (9)%Z];loc_leading:=None;loc_trailing:=None;loc_detached:=[]|}; {|loc_path:=[(4)%Z; (0)%Z];loc_span:=[(0)%Z; (0)%Z; (2)%Z; (9)%Z];loc_leading:=None;loc_trailing:=None;loc_detached:=[]|}; {|loc_path:=[(4)%Z; (0)%Z; (1)%Z];loc_span:=[(0)%Z; (8)%Z; (15)%Z];loc_leading:=None;loc_trailing:=None;loc_detached:=[]|}; {|loc_path:=[(4)%Z; (0)%Z; (9)%Z];loc_span:=[(1)%Z; (12)%Z; (36)%Z];loc_leading:=None;loc_trailing:=None;loc_detached:=[]|}; {|loc_path:=[(4)%Z; (0)%Z; (9)%Z; (0)%Z];loc_span:=[(1)%Z; (21)%Z; (35)%Z];loc_leading:=None;loc_trailing:=None;loc_detached:=[]|}; {|loc_path:=[(4)%Z; (0)%Z; (9)%Z; (0)%Z; (1)%Z];loc_span:=[(1)%Z; (21)%Z; (22)%Z];loc_leading:=None;loc_trailing:=None;loc_detached:=[]|}; {|loc_path:=[(4)%Z; (0)%Z; (9)%Z; (0)%Z; (2)%Z];loc_span:=[(1)%Z; (26)%Z; (35)%Z];loc_leading:=None;loc_trailing:=None;loc_detached:=[]|}]);d_syntax:=None|}).
Proof. vm_compute. reflexivity. Qed.
Example e_message_reserved_range_extrema_1 : full [109;101;115;115;97;103;101;32;77;101;115;115;97;103;101;32;123;10;32;32;32;32;32;32;32;32;32;32;32;32;32;32;32;32;114;101;115;101;114;118;101;100;32;48;32;116;111;32;49;59;10;32;32;32;32;32;32;32;32;32;32;32;32;125] = Some (inr [InvalidMessageNumber (43,44)]).
Proof. vm_compute. reflexivity. Qed.
Example e_message_reserved_range_extrema_2 : full [109;101;115;115;97;103;101;32;77;101;115;115;97;103;101;32;123;10;32;32;32;32;32;32;32;32;32;32;32;32;32;32;32;32;114;101;115;101;114;118;101;100;32;49;32;116;111;32;53;51;54;56;55;48;57;49;50;59;10;32;32;32;32;32;32;32;32;32;32;32;32;125] = Some (inr [InvalidMessageNumber (48,57)]).
Proof. vm_compute. reflexivity. Qed.
Example e_extend_required_field_1 : full [10;32;32;32;32;32;32;32;32;32;32;32;32;109;101;115;115;97;103;101;32;77;101;115;115;97;103;101;32;123;10;32;32;32;32;32;32;32;32;32;32;32;32;32;32;32;32;101;120;116;101;110;115;105;111;110;115;32;49;59;10;32;32;32;32;32;32;32;32;32;32;32;32;125;10;10;32;32;32;32;32;32;32;32;32;32;32;32;101;120;116;101;110;100;32;77;101;115;115;97;103;101;32;123;10;32;32;32;32;32;32;32;32;32;32;32;32;32;32;32;32;114;101;113;117;105;114;101;100;32;105;110;116;51;50;32;102;111;111;32;61;32;49;59;10;32;32;32;32;32;32;32;32;32;32;32;32;125;10;32;32;32;32;32;32;32;32;32;32;32;32] = Some (inr [RequiredExtendField (121,129)]).
Proof. vm_compute. reflexivity. Qed.
Example e_extend_map_field_1 : full [10;32;32;32;32;32;32;32;32;32;32;32;32;109;101;115;115;97;103;101;32;77;101;115;115;97;103;101;32;123;10;32;32;32;32;32;32;32;32;32;32;32;32;32;32;32;32;101;120;116;101;110;115;105;111;110;115;32;49;59;10;32;32;32;32;32;32;32;32;32;32;32;32;125;10;10;32;32;32;32;32;32;32;32;32;32;32;32;101;120;116;101;110;100;32;77;101;115;115;97;103;101;32;123;10;32;32;32;32;32;32;32;32;32;32;32;32;32;32;32;32;109;97;112;60;105;110;116;51;50;44;32;115;116;114;105;110;103;62;32;102;111;111;32;61;32;49;59;10;32;32;32;32;32;32;32;32;32;32;32;32;125;10;32;32;32;32;32;32;32;32;32;32;32;32] = Some (inr [InvalidExtendFieldKind [109;97;112] (121,148)]).
Proof. vm_compute. reflexivity. Qed.
Example e_proto3_group_field_1 : full [10;32;32;32;32;32;32;32;32;32;32;32;32;115;121;110;116;97;120;32;61;32;39;112;114;111;116;111;51;39;59;10;10;32;32;32;32;32;32;32;32;32;32;32;32;109;101;115;115;97;103;101;32;77;101;115;115;97;103;101;32;123;10;32;32;32;32;32;32;32;32;32;32;32;32;32;32;32;32;111;112;116;105;111;110;97;108;32;103;114;111;117;112;32;70;111;111;32;61;32;49;32;123;125;59;10;32;32;32;32;32;32;32;32;32;32;32;32;125;10;32;32;32;32;32;32;32;32;32;32;32;32] = Some (inr [Proto3GroupField (79,104)]).
Proof. vm_compute. reflexivity. Qed.
Example e_proto3_required_field_1 : full [10;32;32;32;32;32;32;32;32;32;32;32;32;115;121;110;116;97;120;32;61;32;39;112;114;111;116;111;51;39;59;10;10;32;32;32;32;32;32;32;32;32;32;32;32;109;101;115;115;97;103;101;32;77;101;115;115;97;103;101;32;123;10;32;32;32;32;32;32;32;32;32;32;32;32;32;32;32;32;114;101;113;117;105;114;101;100;32;105;110;116;51;50;32;102;111;111;32;61;32;49;59;10;32;32;32;32;32;32;32;32;32;32;32;32;125;10;32;32;32;32;32;32;32;32;32;32;32;32] = Some (inr [Proto3RequiredField (79,87)]).
Proof. vm_compute. reflexivity. Qed.
Example e_proto2_field_missing_label_1 : full [10;32;32;32;32;32;32;32;32;32;32;32;32;115;121;110;116;97;120;32;61;32;39;112;114;111;116;111;50;39;59;10;10;32;32;32;32;32;32;32;32;32;32;32;32;109;101;115;115;97;103;101;32;77;101;115;115;97;103;101;32;123;10;32;32;32;32;32;32;32;32;32;32;32;32;32;32;32;32;105;110;116;51;50;32;102;111;111;32;61;32;49;59;10;32;32;32;32;32;32;32;32;32;32;32;32;125;10;32;32;32;32;32;32;32;32;32;32;32;32] = Some (inr [Proto2FieldMissingLabel (79,93)]).
Proof. vm_compute. reflexivity. Qed.
Example e_oneof_field_with_label_1 : full [10;32;32;32;32;32;32;32;32;32;32;32;32;115;121;110;116;97;120;32;61;32;39;112;114;111;116;111;51;39;59;10;10;32;32;32;32;32;32;32;32;32;32;32;32;109;101;115;115;97;103;101;32;77;101;115;115;97;103;101;32;123;10;32;32;32;32;32;32;32;32;32;32;32;32;32;32;32;32;111;110;101;111;102;32;102;111;111;32;123;10;32;32;32;32;32;32;32;32;32;32;32;32;32;32;32;32;32;32;32;32;111;112;116;105;111;110;97;108;32;105;110;116;51;50;32;98;97;114;32;61;32;49;59;10;32;32;32;32;32;32;32;32;32;32;32;32;32;32;32;32;125;10;32;32;32;32;32;32;32;32;32;32;32;32;125;10;32;32;32;32;32;32;32;32;32;32;32;32] = Some (inr [OneofFieldWithLabel (111,119)]).
Proof. vm_compute. reflexivity. Qed.
Example e_oneof_map_field_1 : full [10;32;32;32;32;32;32;32;32;32;32;32;32;115;121;110;116;97;120;32;61;32;39;112;114;111;116;111;51;39;59;10;10;32;32;32;32;32;32;32;32;32;32;32;32;109;101;115;115;97;103;101;32;77;101;115;115;97;103;101;32;123;10;32;32;32;32;32;32;32;32;32;32;32;32;32;32;32;32;111;110;101;111;102;32;102;111;111;32;123;10;32;32;32;32;32;32;32;32;32;32;32;32;32;32;32;32;32;32;32;32;109;97;112;60;105;110;116;51;50;44;32;98;121;116;101;115;62;32;98;97;114;32;61;32;49;59;10;32;32;32;32;32;32;32;32;32;32;32;32;32;32;32;32;125;10;32;32;32;32;32;32;32;32;32;32;32;32;125;10;32;32;32;32;32;32;32;32;32;32;32;32] = Some (inr [InvalidOneofFieldKind [109;97;112] (111,137)]).
Proof. vm_compute. reflexivity. Qed.
Example e_empty_oneof_1 : full [10;32;32;32;32;32;32;32;32;32;32;32;32;115;121;110;116;97;120;32;61;32;39;112;114;111;116;111;51;39;59;10;10;32;32;32;32;32;32;32;32;32;32;32;32;109;101;115;115;97;103;101;32;77;101;115;115;97;103;101;32;123;10;32;32;32;32;32;32;32;32;32;32;32;32;32;32;32;32;111;110;101;111;102;32;102;111;111;32;123;125;10;32;32;32;32;32;32;32;32;32;32;32;32;125;10;32;32;32;32;32;32;32;32;32;32;32;32] = Some (inr [EmptyOneof (79,91)]).
Proof. vm_compute. reflexivity. Qed.
Example f_enum_value_extrema_1 : full [10;32;32;32;32;32;32;32;32;115;121;110;116;97;120;32;61;32;34;112;114;111;116;111;51;34;59;10;10;32;32;32;32;32;32;32;32;101;110;117;109;32;69;120;116;114;101;109;101;32;123;10;32;32;32;32;32;32;32;32;32;32;32;32;90;69;82;79;32;61;32;48;59;10;32;32;32;32;32;32;32;32;32;32;32;32;77;73;78;32;61;32;45;50;49;52;55;52;56;51;54;52;56;59;10;32;32;32;32;32;32;32;32;32;32;32;32;77;65;88;32;61;32;50;49;52;55;52;56;51;54;52;55;59;10;32;32;32;32;32;32;32;32;125;10;32;32;32;32;32;32;32;32] = Some (inl {|d_name:=(Some [116;101;115;116;46;112;114;111;116;111]);d_package:=None;d_dependency:=[];d_public:=[];d_weak:=[];d_message:=[];d_enum:=[{|e_name:=(Some [69;120;116;114;101;109;101]);e_value:=[{|v_name:=(Some [90;69;82;79]);v_number:=(Some (0)%Z);v_options:=None|}; {|v_name:=(Some [77;73;78]);v_number:=(Some (-2147483648)%Z);v_options:=None|}; {|v_name:=(Some [77;65;88]);v_number:=(Some (2147483647)%Z);v_options:=None|}];e_options:=None;e_reserved_range:=[];e_reserved_name:=[]|}];d_service:=[];d_extension:=[];d_options:=None;d_source_info:=(Some [{|loc_path:=[];loc_span:=[(1)%Z; (8)%Z; (7)%Z; (9)%Z];loc_leading:=None;loc_trailing:=None;loc_detached:=[]|}; {|loc_path:=[(5)%Z; (0)%Z];loc_span:=[(3)%Z; (8)%Z; (7)%Z; (9)%Z];loc_leading:=None;loc_trailing:=None;loc_detached:=[]|}; {|loc_path:=[(5)%Z; (0)%Z; (1)%Z];loc_span:=[(3)%Z; (13)%Z; (20)%Z];loc_leading:=None;loc_trailing:=None;loc_detached:=[]|}; {|loc_path:=[(5)%Z; (0)%Z; (2)%Z; (0)%Z];loc_span:=[(4)%Z; (12)%Z; (21)%Z];loc_leading:=None;loc_trailing:=None;loc_detached:=[]|}; {|loc_path:=[(5)%Z; (0)%Z; (2)%Z; (0)%Z; (1)%Z];loc_span:=[(4)%Z; (12)%Z; (16)%Z];loc_leading:=None;loc_trailing:=None;loc_detached:=[]|}; {|loc_path:=[(5)%Z; (0)%Z; (2)%Z; (0)%Z; (2)%Z];loc_span:=[(4)%Z; (19)%Z; (20)%Z];loc_leading:=None;loc_trailing:=None;loc_detached:=[]|}; {|loc_path:=[(5)%Z; (0)%Z; (2)%Z; (1)%Z];loc_span:=[(5)%Z; (12)%Z; (30)%Z];loc_leading:=None;loc_trailing:=None;loc_detached:=[]|}; {|loc_path:=[(5)%Z; (0)%Z; (2)%Z; (1)%Z; (1)%Z];loc_span:=[(5)%Z; (12)%Z; (15)%Z];loc_leading:=None;loc_trailing:=None;loc_detached:=[]|}; {|loc_path:=[(5)%Z; (0)%Z; (2)%Z; (1)%Z; (2)%Z];loc_span:=[(5)%Z; (18)%Z; (29)%Z];loc_leading:=None;loc_trailing:=None;loc_detached:=[]|}; {|loc_path:=[(5)%Z; (0)%Z; (2)%Z; (2)%Z];loc_span:=[(6)%Z; (12)%Z; (29)%Z];loc_leading:=None;loc_trailing:=None;loc_detached:=[]|}; {|loc_path:=[(5)%Z; (0)%Z; (2)%Z; (2)%Z; (1)%Z];loc_span:=[(6)%Z; (12)%Z; (15)%Z];loc_leading:=None;loc_trailing:=None;loc_detached:=[]|}; {|loc_path:=[(5)%Z; (0)%Z; (2)%Z; (2)%Z; (2)%Z];loc_span:=[(6)%Z; (18)%Z; (28)%Z];loc_leading:=None;loc_trailing:=None;loc_detached:=[]|}; {|loc_path:=[(12)%Z];loc_span:=[(1)%Z; (8)%Z; (26)%Z];loc_leading:=None;loc_trailing:=None;loc_detached:=[]|}]);d_syntax:=(Some [112;114;111;116;111;51])|}).
Proof. vm_compute. reflexivity. Qed.
Example e_enum_value_extrema_1 : full [10;32;32;32;32;32;32;32;32;32;32;32;32;115;121;110;116;97;120;32;61;32;34;112;114;111;116;111;51;34;59;10;10;32;32;32;32;32;32;32;32;32;32;32;32;101;110;117;109;32;69;120;116;114;101;109;101;32;123;10;32;32;32;32;32;32;32;32;32;32;32;32;32;32;32;32;90;69;82;79;32;61;32;48;59;10;32;32;32;32;32;32;32;32;32;32;32;32;32;32;32;32;77;73;78;32;61;32;45;50;49;52;55;52;56;51;54;52;57;59;10;32;32;32;32;32;32;32;32;32;32;32;32;32;32;32;32;77;65;88;32;61;32;50;49;52;55;52;56;51;54;52;56;59;10;32;32;32;32;32;32;32;32;32;32;32;32;125;10;32;32;32;32;32;32;32;32;32;32;32;32] = Some (inr [InvalidEnumNumber (108,119); InvalidEnumNumber (143,153)]).
Proof. vm_compute. reflexivity. Qed.
Example f_enum_reserved_range_extrema_1 : full [10;32;32;32;32;32;32;32;32;115;121;110;116;97;120;32;61;32;34;112;114;111;116;111;51;34;59;10;10;32;32;32;32;32;32;32;32;101;110;117;109;32;69;120;116;114;101;109;101;32;123;10;32;32;32;32;32;32;32;32;32;32;32;32;90;69;82;79;32;61;32;48;59;10;32;32;32;32;32;32;32;32;32;32;32;32;114;101;115;101;114;118;101;100;32;45;50;49;52;55;52;56;51;54;52;56;32;116;111;32;45;49;44;32;49;32;116;111;32;50;49;52;55;52;56;51;54;52;55;59;10;32;32;32;32;32;32;32;32;125;10;32;32;32;32;32;32;32;32] = Some (inl {|d_name:=(Some [116;101;115;116;46;112;114;111;116;111]);d_package:=None;d_dependency:=[];d_public:=[];d_weak:=[];d_message:=[];d_enum:=[{|e_name:=(Some [69;120;116;114;101;109;101]);e_value:=[{|v_name:=(Some [90;69;82;79]);v_number:=(Some (0)%Z);v_options:=None|}];e_options:=None;e_reserved_range:=[{|r_start:=(Some (-2147483648)%Z);r_end:=(Some (-1)%Z)|}; {|r_start:=(Some (1)%Z);r_end:=(Some (2147483647)%Z)|}];e_reserved_name:=[]|}];d_service:=[];d_extension:=[];d_options:=None;d_source_info:=(Some [{|loc_path:=[];loc_span:=[(1)%Z; (8)%Z; (6)%Z; (9)%Z];loc_leading:=None;loc_trailing:=None;loc_detached:=[]|}; {|loc_path:=[(5)%Z; (0)%Z];loc_span:=[(3)%Z; (8)%Z; (6)%Z; (9)%Z];loc_leading:=None;loc_trailing:=None;loc_detached:=[]|}; {|loc_path:=[(5)%Z; (0)%Z; (1)%Z];loc_span:=[(3)%Z; (13)%Z; (20)%Z];loc_leading:=None;loc_trailing:=None;loc_detached:=[]|}; {|loc_path:=[(5)%Z; (0)%Z; (2)%Z; (0)%Z];loc_span:=[(4)%Z; (12)%Z; (21)%Z];loc_leading:=None;loc_trailing:=None;loc_detached:=[]|}; {|loc_path:=[(5)%Z; (0)%Z; (2)%Z; (0)%Z; (1)%Z];loc_span:=[(4)%Z; (12)%Z; (16)%Z];loc_leading:=None;loc_trailing:=None;loc_detached:=[]|}; {|loc_path:=[(5)%Z; (0)%Z; (2)%Z; (0)%Z; (2)%Z];loc_span:=[(4)%Z; (19)%Z; (20)%Z];loc_leading:=None;loc_trailing:=None;loc_detached:=[]|}; {|loc_path:=[(5)%Z; (0)%Z; (4)%Z];loc_span:=[(5)%Z; (12)%Z; (56)%Z];loc_leading:=None;loc_trailing:=None;loc_detached:=[]|}; {|loc_path:=[(5)%Z; (0)%Z; (4)%Z; (0)%Z];loc_span:=[(5)%Z; (21)%Z; (38)%Z];loc_leading:=None;loc_trailing:=None;loc_detached:=[]|}; {|loc_path:=[(5)%Z; (0)%Z; (4)%Z; (0)%Z; (1)%Z];loc_span:=[(5)%Z; (21)%Z; (32)%Z];loc_leading:=None;loc_trailing:=None;loc_detached:=[]|}; {|loc_path:=[(5)%Z; (0)%Z; (4)%Z; (0)%Z; (2)%Z];loc_span:=[(5)%Z; (36)%Z; (38)%Z];loc_leading:=None;loc_trailing:=None;loc_detached:=[]|}; {|loc_path:=[(5)%Z; (0)%Z; (4)%Z; (1)%Z];loc_span:=[(5)%Z; (40)%Z; (55)%Z];loc_leading:=None;loc_trailing:=None;loc_detached:=[]|}; {|loc_path:=[(5)%Z; (0)%Z; (4)%Z; (1)%Z; (1)%Z];loc_span:=[(5)%Z; (40)%Z; (41)%Z];loc_leading:=None;loc_trailing:=None;loc_detached:=[]|}; {|loc_path:=[(5)%Z; (0)%Z; (4)%Z; (1)%Z; (2)%Z];loc_span:=[(5)%Z; (45)%Z; (55)%Z];loc_leading:=None;loc_trailing:=None;loc_detached:=[]|}; {|loc_path:=[(12)%Z];loc_span:=[(1)%Z; (8)%Z; (26)%Z];loc_leading:=None;loc_trailing:=None;loc_detached:=[]|}]);d_syntax:=(Some [112;114;111;116;111;51])|}).
Proof. vm_compute. reflexivity. Qed.
Example e_enum_reserved_range_extrema_1 : full [10;32;32;32;32;32;32;32;32;32;32;32;32;115;121;110;116;97;120;32;61;32;34;112;114;111;116;111;51;34;59;10;10;32;32;32;32;32;32;32;32;32;32;32;32;101;110;117;109;32;69;120;116;114;101;109;101;32;123;10;32;32;32;32;32;32;32;32;32;32;32;32;32;32;32;32;90;69;82;79;32;61;32;48;59;10;10;32;32;32;32;32;32;32;32;32;32;32;32;32;32;32;32;114;101;115;101;114;118;101;100;32;45;50;49;52;55;52;56;51;54;52;57;32;116;111;32;45;49;44;32;49;32;116;111;32;50;49;52;55;52;56;51;54;52;56;59;10;32;32;32;32;32;32;32;32;32;32;32;32;125;10;32;32;32;32;32;32;32;32;32;32;32;32] = Some (inr [InvalidEnumNumber (112,123); InvalidEnumNumber (136,146)]).
Proof. vm_compute. reflexivity. Qed.
Example f_message_field_json_name_1 : full [109;101;115;115;97;103;101;32;77;101;115;115;97;103;101;32;123;10;32;32;32;32;32;32;32;32;111;112;116;105;111;110;97;108;32;105;110;116;51;50;32;102;105;101;108;100;32;61;32;49;32;91;106;115;111;110;95;110;97;109;101;32;61;32;39;36;70;73;69;76;68;39;93;59;10;32;32;32;32;125] = Some (inl {|d_name:=(Some [116;101;115;116;46;112;114;111;116;111]);d_package:=None;d_dependency:=[];d_public:=[];d_weak:=[];d_message:=[(MsgDesc (Some [77;101;115;115;97;103;101]) [{|f_name:=(Some [102;105;101;108;100]);f_number:=(Some (1)%Z);f_label:=(Some LabOptional);f_type:=(Some FTInt32);f_type_name:=None;f_extendee:=None;f_default:=None;f_oneof_index:=None;f_json_name:=(Some [36;70;73;69;76;68]);f_options:=None;f_proto3_optional:=None|}] [] [] [] [] [] None [] [])];d_enum:=[];d_service:=[];d_extension:=[];d_options:=None;d_source_info:=(Some [{|loc_path:=[];loc_span:=[(0)%Z; (0)%Z; (2)%Z; (5)%Z];loc_leading:=None;loc_trailing:=None;loc_detached:=[]|}; {|loc_path:=[(4)%Z; (0)%Z];loc_span:=[(0)%Z; (0)%Z; (2)%Z; (5)%Z];loc_leading:=None;loc_trailing:=None;loc_detached:=[]|}; {|loc_path:=[(4)%Z; (0)%Z; (1)%Z];loc_span:=[(0)%Z; (8)%Z; (15)%Z];loc_leading:=None;loc_trailing:=None;loc_detached:=[]|}; {|loc_path:=[(4)%Z; (0)%Z; (2)%Z; (0)%Z];loc_span:=[(1)%Z; (8)%Z; (56)%Z];loc_leading:=None;loc_trailing:=None;loc_detached:=[]|}; {|loc_path:=[(4)%Z; (0)%Z; (2)%Z; (0)%Z; (1)%Z];loc_span:=[(1)%Z; (23)%Z; (28)%Z];loc_leading:=None;loc_trailing:=None;loc_detached:=[]|}; {|loc_path:=[(4)%Z; (0)%Z; (2)%Z; (0)%Z; (3)%Z];loc_span:=[(1)%Z; (31)%Z; (32)%Z];loc_leading:=None;loc_trailing:=None;loc_detached:=[]|}; {|loc_path:=[(4)%Z; (0)%Z; (2)%Z; (0)%Z; (4)%Z];loc_span:=[(1)%Z; (8)%Z; (16)%Z];loc_leading:=None;loc_trailing:=None;loc_detached:=[]|}; {|loc_path:=[(4)%Z; (0)%Z; (2)%Z; (0)%Z; (5)%Z];loc_span:=[(1)%Z; (17)%Z; (22)%Z];loc_leading:=None;loc_trailing:=None;loc_detached:=[]|}; {|loc_path:=[(4)%Z; (0)%Z; (2)%Z; (0)%Z; (8)%Z];loc_span:=[(1)%Z; (33)%Z; (55)%Z];loc_leading:=None;loc_trailing:=None;loc_detached:=[]|}; {|loc_path:=[(4)%Z; (0)%Z; (2)%Z; (0)%Z; (10)%Z];loc_span:=[(1)%Z; (34)%Z; (54)%Z];loc_leading:=None;loc_trailing:=None;loc_detached:=[]|}; {|loc_path:=[(4)%Z; (0)%Z; (2)%Z; (0)%Z; (10)%Z];loc_span:=[(1)%Z; (46)%Z; (54)%Z];loc_leading:=None;loc_trailing:=None;loc_detached:=[]|}]);d_syntax:=None|}).
Proof. vm_compute. reflexivity. Qed.
Example e_message_field_json_name_1 : full [109;101;115;115;97;103;101;32;77;101;115;115;97;103;101;32;123;10;32;32;32;32;32;32;32;32;32;32;32;32;111;112;116;105;111;110;97;108;32;105;110;116;51;50;32;102;105;101;108;100;32;61;32;49;32;91;106;115;111;110;95;110;97;109;101;32;61;32;34;92;120;70;70;34;93;59;10;32;32;32;32;32;32;32;32;125] = Some (inr [InvalidUtf8String (68,74)]).
Proof. vm_compute. reflexivity. Qed.
Example f_field_default_value_1 : full [10;32;32;32;32;32;32;32;32;109;101;115;115;97;103;101;32;77;101;115;115;97;103;101;32;123;10;32;32;32;32;32;32;32;32;32;32;32;32;111;112;116;105;111;110;97;108;32;77;101;115;115;97;103;101;32;102;111;111;32;61;32;49;32;91;100;101;102;97;117;108;116;32;61;32;34;34;93;59;10;32;32;32;32;32;32;32;32;125] = Some (inl {|d_name:=(Some [116;101;115;116;46;112;114;111;116;111]);d_package:=None;d_dependency:=[];d_public:=[];d_weak:=[];d_message:=[(MsgDesc (Some [77;101;115;115;97;103;101]) [{|f_name:=(Some [102;111;111]);f_number:=(Some (1)%Z);f_label:=(Some LabOptional);f_type:=None;f_type_name:=(Some [77;101;115;115;97;103;101]);f_extendee:=None;f_default:=(Some [34;34]);f_oneof_index:=None;f_json_name:=None;f_options:=None;f_proto3_optional:=None|}] [] [] [] [] [] None [] [])];d_enum:=[];d_service:=[];d_extension:=[];d_options:=None;d_source_info:=(Some [{|loc_path:=[];loc_span:=[(1)%Z; (8)%Z; (3)%Z; (9)%Z];loc_leading:=None;loc_trailing:=None;loc_detached:=[]|}; {|loc_path:=[(4)%Z; (0)%Z];loc_span:=[(1)%Z; (8)%Z; (3)%Z; (9)%Z];loc_leading:=None;loc_trailing:=None;loc_detached:=[]|}; {|loc_path:=[(4)%Z; (0)%Z; (1)%Z];loc_span:=[(1)%Z; (16)%Z; (23)%Z];loc_leading:=None;loc_trailing:=None;loc_detached:=[]|}; {|loc_path:=[(4)%Z; (0)%Z; (2)%Z; (0)%Z];loc_span:=[(2)%Z; (12)%Z; (52)%Z];loc_leading:=None;loc_trailing:=None;loc_detached:=[]|}; {|loc_path:=[(4)%Z; (0)%Z; (2)%Z; (0)%Z; (1)%Z];loc_span:=[(2)%Z; (29)%Z; (32)%Z];loc_leading:=None;loc_trailing:=None;loc_detached:=[]|}; {|loc_path:=[(4)%Z; (0)%Z; (2)%Z; (0)%Z; (3)%Z];loc_span:=[(2)%Z; (35)%Z; (36)%Z];loc_leading:=None;loc_trailing:=None;loc_detached:=[]|}; {|loc_path:=[(4)%Z; (0)%Z; (2)%Z; (0)%Z; (4)%Z];loc_span:=[(2)%Z; (12)%Z; (20)%Z];loc_leading:=None;loc_trailing:=None;loc_detached:=[]|}; {|loc_path:=[(4)%Z; (0)%Z; (2)%Z; (0)%Z; (6)%Z];loc_span:=[(2)%Z; (21)%Z; (28)%Z];loc_leading:=None;loc_trailing:=None;loc_detached:=[]|}; {|loc_path:=[(4)%Z; (0)%Z; (2)%Z; (0)%Z; (7)%Z];loc_span:=[(2)%Z; (48)%Z; (50)%Z];loc_leading:=None;loc_trailing:=None;loc_detached:=[]|}; {|loc_path:=[(4)%Z; (0)%Z; (2)%Z; (0)%Z; (8)%Z];loc_span:=[(2)%Z; (37)%Z; (51)%Z];loc_leading:=None;loc_trailing:=None;loc_detached:=[]|}]);d_syntax:=None|}).
Proof. vm_compute. reflexivity. Qed.
Example f_field_default_value_2 : full [10;32;32;32;32;32;32;32;32;32;32;32;32;109;101;115;115;97;103;101;32;77;101;115;115;97;103;101;32;123;10;32;32;32;32;32;32;32;32;32;32;32;32;32;32;32;32;111;112;116;105;111;110;97;108;32;102;108;111;97;116;32;100;101;102;97;117;108;116;95;102;108;111;97;116;95;101;120;112;32;61;32;50;51;32;91;32;100;101;102;97;117;108;116;32;61;32;57;101;54;93;59;10;32;32;32;32;32;32;32;32;32;32;32;32;32;32;32;32;111;112;116;105;111;110;97;108;32;100;111;117;98;108;101;32;100;101;102;97;117;108;116;95;100;111;117;98;108;101;95;101;120;112;32;61;32;50;52;32;91;32;100;101;102;97;117;108;116;32;61;32;57;101;50;50;93;59;10;32;32;32;32;32;32;32;32;32;32;32;32;125;10;32;32;32;32;32;32;32;32] = Some (inl {|d_name:=(Some [116;101;115;116;46;112;114;111;116;111]);d_package:=None;d_dependency:=[];d_public:=[];d_weak:=[];d_message:=[(MsgDesc (Some [77;101;115;115;97;103;101]) [{|f_name:=(Some [100;101;102;97;117;108;116;95;102;108;111;97;116;95;101;120;112]);f_number:=(Some (23)%Z);f_label:=(Some LabOptional);f_type:=(Some FTFloat);f_type_name:=None;f_extendee:=None;f_default:=(Some [57;48;48;48;48;48;48]);f_oneof_index:=None;f_json_name:=None;f_options:=None;f_proto3_optional:=None|}; {|f_name:=(Some [100;101;102;97;117;108;116;95;100;111;117;98;108;101;95;101;120;112]);f_number:=(Some (24)%Z);f_label:=(Some LabOptional);f_type:=(Some FTDouble);f_type_name:=None;f_extendee:=None;f_default:=(Some [57;48;48;48;48;48;48;48;48;48;48;48;48;48;48;48;48;48;48;48;48;48;48]);f_oneof_index:=None;f_json_name:=None;f_options:=None;f_proto3_optional:=None|}] [] [] [] [] [] None [] [])];d_enum:=[];d_service:=[];d_extension:=[];d_options:=None;d_source_info:=(Some [{|loc_path:=[];loc_span:=[(1)%Z; (12)%Z; (4)%Z; (13)%Z];loc_leading:=None;loc_trailing:=None;loc_detached:=[]|}; {|loc_path:=[(4)%Z; (0)%Z];loc_span:=[(1)%Z; (12)%Z; (4)%Z; (13)%Z];loc_leading:=None;loc_trailing:=None;loc_detached:=[]|}; {|loc_path:=[(4)%Z; (0)%Z; (1)%Z];loc_span:=[(1)%Z; (20)%Z; (27)%Z];loc_leading:=None;loc_trailing:=None;loc_detached:=[]|}; {|loc_path:=[(4)%Z; (0)%Z; (2)%Z; (0)%Z];loc_span:=[(2)%Z; (16)%Z; (71)%Z];loc_leading:=None;loc_trailing:=None;loc_detached:=[]|}; {|loc_path:=[(4)%Z; (0)%Z; (2)%Z; (0)%Z; (1)%Z];loc_span:=[(2)%Z; (31)%Z; (48)%Z];loc_leading:=None;loc_trailing:=None;loc_detached:=[]|}; {|loc_path:=[(4)%Z; (0)%Z; (2)%Z; (0)%Z; (3)%Z];loc_span:=[(2)%Z; (51)%Z; (53)%Z];loc_leading:=None;loc_trailing:=None;loc_detached:=[]|}; {|loc_path:=[(4)%Z; (0)%Z; (2)%Z; (0)%Z; (4)%Z];loc_span:=[(2)%Z; (16)%Z; (24)%Z];loc_leading:=None;loc_trailing:=None;loc_detached:=[]|}; {|loc_path:=[(4)%Z; (0)%Z; (2)%Z; (0)%Z; (5)%Z];loc_span:=[(2)%Z; (25)%Z; (30)%Z];loc_leading:=None;loc_trailing:=None;loc_detached:=[]|}; {|loc_path:=[(4)%Z; (0)%Z; (2)%Z; (0)%Z; (7)%Z];loc_span:=[(2)%Z; (66)%Z; (69)%Z];loc_leading:=None;loc_trailing:=None;loc_detached:=[]|}; {|loc_path:=[(4)%Z; (0)%Z; (2)%Z; (0)%Z; (8)%Z];loc_span:=[(2)%Z; (54)%Z; (70)%Z];loc_leading:=None;loc_trailing:=None;loc_detached:=[]|}; {|loc_path:=[(4)%Z; (0)%Z; (2)%Z; (1)%Z];loc_span:=[(3)%Z; (16)%Z; (74)%Z];loc_leading:=None;loc_trailing:=None;loc_detached:=[]|}; {|loc_path:=[(4)%Z; (0)%Z; (2)%Z; (1)%Z; (1)%Z];loc_span:=[(3)%Z; (32)%Z; (50)%Z];loc_leading:=None;loc_trailing:=None;loc_detached:=[]|}; {|loc_path:=[(4)%Z; (0)%Z; (2)%Z; (1)%Z; (3)%Z];loc_span:=[(3)%Z; (53)%Z; (55)%Z];loc_leading:=None;loc_trailing:=None;loc_detached:=[]|}; {|loc_path:=[(4)%Z; (0)%Z; (2)%Z; (1)%Z; (4)%Z];loc_span:=[(3)%Z; (16)%Z; (24)%Z];loc_leading:=None;loc_trailing:=None;loc_detached:=[]|}; {|loc_path:=[(4)%Z; (0)%Z; (2)%Z; (1)%Z; (5)%Z];loc_span:=[(3)%Z; (25)%Z; (31)%Z];loc_leading:=None;loc_trailing:=None;loc_detached:=[]|}; {|loc_path:=[(4)%Z; (0)%Z; (2)%Z; (1)%Z; (7)%Z];loc_span:=[(3)%Z; (68)%Z; (72)%Z];loc_leading:=None;loc_trailing:=None;loc_detached:=[]|}; {|loc_path:=[(4)%Z; (0)%Z; (2)%Z; (1)%Z; (8)%Z];loc_span:=[(3)%Z; (56)%Z; (73)%Z];loc_leading:=None;loc_trailing:=None;loc_detached:=[]|}]);d_syntax:=None|}).
Proof. vm_compute. reflexivity. Qed.
Example e_field_default_value_1 : full [10;32;32;32;32;32;32;32;32;32;32;32;32;109;101;115;115;97;103;101;32;77;101;115;115;97;103;101;32;123;10;32;32;32;32;32;32;32;32;32;32;32;32;32;32;32;32;109;97;112;60;117;105;110;116;51;50;44;32;115;102;105;120;101;100;54;52;62;32;102;111;111;32;61;32;49;32;91;100;101;102;97;117;108;116;32;61;32;34;34;93;59;10;32;32;32;32;32;32;32;32;32;32;32;32;125] = Some (inr [InvalidDefault [109;97;112] (78,90)]).
Proof. vm_compute. reflexivity. Qed.
Example e_field_default_value_2 : full [10;32;32;32;32;32;32;32;32;32;32;32;32;109;101;115;115;97;103;101;32;77;101;115;115;97;103;101;32;123;10;32;32;32;32;32;32;32;32;32;32;32;32;32;32;32;32;111;112;116;105;111;110;97;108;32;103;114;111;117;112;32;70;111;111;32;61;32;49;32;91;100;101;102;97;117;108;116;32;61;32;34;34;93;32;123;125;59;10;32;32;32;32;32;32;32;32;32;32;32;32;125] = Some (inr [InvalidDefault [103;114;111;117;112] (71,83)]).
Proof. vm_compute. reflexivity. Qed.
Example e_field_default_value_3 : full [10;32;32;32;32;32;32;32;32;32;32;32;32;109;101;115;115;97;103;101;32;77;101;115;115;97;103;101;32;123;10;32;32;32;32;32;32;32;32;32;32;32;32;32;32;32;32;114;101;112;101;97;116;101;100;32;105;110;116;51;50;32;102;111;111;32;61;32;49;32;91;100;101;102;97;117;108;116;32;61;32;49;93;59;10;32;32;32;32;32;32;32;32;32;32;32;32;125] = Some (inr [InvalidDefault [114;101;112;101;97;116;101;100] (71,82)]).
Proof. vm_compute. reflexivity. Qed.
Example f_field_default_invalid_type_1 : full [10;32;32;32;32;32;32;32;32;109;101;115;115;97;103;101;32;77;101;115;115;97;103;101;32;123;10;32;32;32;32;32;32;32;32;32;32;32;32;111;112;116;105;111;110;97;108;32;70;111;111;32;102;111;111;32;61;32;49;32;91;100;101;102;97;117;108;116;32;61;32;49;93;59;10;32;32;32;32;32;32;32;32;125;10;10;32;32;32;32;32;32;32;32;101;110;117;109;32;70;111;111;32;123;10;32;32;32;32;32;32;32;32;32;32;32;32;90;69;82;79;32;61;32;48;59;10;32;32;32;32;32;32;32;32;125] = Some (inl {|d_name:=(Some [116;101;115;116;46;112;114;111;116;111]);d_package:=None;d_dependency:=[];d_public:=[];d_weak:=[];d_message:=[(MsgDesc (Some [77;101;115;115;97;103;101]) [{|f_name:=(Some [102;111;111]);f_number:=(Some (1)%Z);f_label:=(Some LabOptional);f_type:=None;f_type_name:=(Some [70;111;111]);f_extendee:=None;f_default:=(Some [49]);f_oneof_index:=None;f_json_name:=None;f_options:=None;f_proto3_optional:=None|}] [] [] [] [] [] None [] [])];d_enum:=[{|e_name:=(Some [70;111;111]);e_value:=[{|v_name:=(Some [90;69;82;79]);v_number:=(Some (0)%Z);v_options:=None|}];e_options:=None;e_reserved_range:=[];e_reserved_name:=[]|}];d_service:=[];d_extension:=[];d_options:=None;d_source_info:=(Some [{|loc_path:=[];loc_span:=[(1)%Z; (8)%Z; (7)%Z; (9)%Z];loc_leading:=None;loc_trailing:=None;loc_detached:=[]|}; {|loc_path:=[(4)%Z; (0)%Z];loc_span:=[(1)%Z; (8)%Z; (3)%Z; (9)%Z];loc_leading:=None;loc_trailing:=None;loc_detached:=[]|}; {|loc_path:=[(4)%Z; (0)%Z; (1)%Z];loc_span:=[(1)%Z; (16)%Z; (23)%Z];loc_leading:=None;loc_trailing:=None;loc_detached:=[]|}; {|loc_path:=[(4)%Z; (0)%Z; (2)%Z; (0)%Z];loc_span:=[(2)%Z; (12)%Z; (47)%Z];loc_leading:=None;loc_trailing:=None;loc_detached:=[]|}; {|loc_path:=[(4)%Z; (0)%Z; (2)%Z; (0)%Z; (1)%Z];loc_span:=[(2)%Z; (25)%Z; (28)%Z];loc_leading:=None;loc_trailing:=None;loc_detached:=[]|}; {|loc_path:=[(4)%Z; (0)%Z; (2)%Z; (0)%Z; (3)%Z];loc_span:=[(2)%Z; (31)%Z; (32)%Z];loc_leading:=None;loc_trailing:=None;loc_detached:=[]|}; {|loc_path:=[(4)%Z; (0)%Z; (2)%Z; (0)%Z; (4)%Z];loc_span:=[(2)%Z; (12)%Z; (20)%Z];loc_leading:=None;loc_trailing:=None;loc_detached:=[]|}; {|loc_path:=[(4)%Z; (0)%Z; (2)%Z; (0)%Z; (6)%Z];loc_span:=[(2)%Z; (21)%Z; (24)%Z];loc_leading:=None;loc_trailing:=None;loc_detached:=[]|}; {|loc_path:=[(4)%Z; (0)%Z; (2)%Z; (0)%Z; (7)%Z];loc_span:=[(2)%Z; (44)%Z; (45)%Z];loc_leading:=None;loc_trailing:=None;loc_detached:=[]|}; {|loc_path:=[(4)%Z; (0)%Z; (2)%Z; (0)%Z; (8)%Z];loc_span:=[(2)%Z; (33)%Z; (46)%Z];loc_leading:=None;loc_trailing:=None;loc_detached:=[]|}; {|loc_path:=[(5)%Z; (0)%Z];loc_span:=[(5)%Z; (8)%Z; (7)%Z; (9)%Z];loc_leading:=None;loc_trailing:=None;loc_detached:=[]|}; {|loc_path:=[(5)%Z; (0)%Z; (1)%Z];loc_span:=[(5)%Z; (13)%Z; (16)%Z];loc_leading:=None;loc_trailing:=None;loc_detached:=[]|}; {|loc_path:=[(5)%Z; (0)%Z; (2)%Z; (0)%Z];loc_span:=[(6)%Z; (12)%Z; (21)%Z];loc_leading:=None;loc_trailing:=None;loc_detached:=[]|}; {|loc_path:=[(5)%Z; (0)%Z; (2)%Z; (0)%Z; (1)%Z];loc_span:=[(6)%Z; (12)%Z; (16)%Z];loc_leading:=None;loc_trailing:=None;loc_detached:=[]|}; {|loc_path:=[(5)%Z; (0)%Z; (2)%Z; (0)%Z; (2)%Z];loc_span:=[(6)%Z; (19)%Z; (20)%Z];loc_leading:=None;loc_trailing:=None;loc_detached:=[]|}]);d_syntax:=None|}).
Proof. vm_compute. reflexivity. Qed.
Example f_field_default_invalid_type_2 : full [10;32;32;32;32;32;32;32;32;109;101;115;115;97;103;101;32;77;101;115;115;97;103;101;32;123;10;32;32;32;32;32;32;32;32;32;32;32;32;111;112;116;105;111;110;97;108;32;70;111;111;32;102;111;111;32;61;32;49;32;91;100;101;102;97;117;108;116;32;61;32;34;90;69;82;79;34;93;59;10;32;32;32;32;32;32;32;32;125;10;10;32;32;32;32;32;32;32;32;101;110;117;109;32;70;111;111;32;123;10;32;32;32;32;32;32;32;32;32;32;32;32;90;69;82;79;32;61;32;48;59;10;32;32;32;32;32;32;32;32;125] = Some (inl {|d_name:=(Some [116;101;115;116;46;112;114;111;116;111]);d_package:=None;d_dependency:=[];d_public:=[];d_weak:=[];d_message:=[(MsgDesc (Some [77;101;115;115;97;103;101]) [{|f_name:=(Some [102;111;111]);f_number:=(Some (1)%Z);f_label:=(Some LabOptional);f_type:=None;f_type_name:=(Some [70;111;111]);f_extendee:=None;f_default:=(Some [34;90;69;82;79;34]);f_oneof_index:=None;f_json_name:=None;f_options:=None;f_proto3_optional:=None|}] [] [] [] [] [] None [] [])];d_enum:=[{|e_name:=(Some [70;111;111]);e_value:=[{|v_name:=(Some [90;69;82;79]);v_number:=(Some (0)%Z);v_options:=None|}];e_options:=None;e_reserved_range:=[];e_reserved_name:=[]|}];d_service:=[];d_extension:=[];d_options:=None;d_source_info:=(Some [{|loc_path:=[];loc_span:=[(1)%Z; (8)%Z; (7)%Z; (9)%Z];loc_leading:=None;loc_trailing:=None;loc_detached:=[]|}; {|loc_path:=[(4)%Z; (0)%Z];loc_span:=[(1)%Z; (8)%Z; (3)%Z; (9)%Z];loc_leading:=None;loc_trailing:=None;loc_detached:=[]|}; {|loc_path:=[(4)%Z; (0)%Z; (1)%Z];loc_span:=[(1)%Z; (16)%Z; (23)%Z];loc_leading:=None;loc_trailing:=None;loc_detached:=[]|}; {|loc_path:=[(4)%Z; (0)%Z; (2)%Z; (0)%Z];loc_span:=[(2)%Z; (12)%Z; (52)%Z];loc_leading:=None;loc_trailing:=None;loc_detached:=[]|}; {|loc_path:=[(4)%Z; (0)%Z; (2)%Z; (0)%Z; (1)%Z];loc_span:=[(2)%Z; (25)%Z; (28)%Z];loc_leading:=None;loc_trailing:=None;loc_detached:=[]|}; {|loc_path:=[(4)%Z; (0)%Z; (2)%Z; (0)%Z; (3)%Z];loc_span:=[(2)%Z; (31)%Z; (32)%Z];loc_leading:=None;loc_trailing:=None;loc_detached:=[]|}; {|loc_path:=[(4)%Z; (0)%Z; (2)%Z; (0)%Z; (4)%Z];loc_span:=[(2)%Z; (12)%Z; (20)%Z];loc_leading:=None;loc_trailing:=None;loc_detached:=[]|}; {|loc_path:=[(4)%Z; (0)%Z; (2)%Z; (0)%Z; (6)%Z];loc_span:=[(2)%Z; (21)%Z; (24)%Z];loc_leading:=None;loc_trailing:=None;loc_detached:=[]|}; {|loc_path:=[(4)%Z; (0)%Z; (2)%Z; (0)%Z; (7)%Z];loc_span:=[(2)%Z; (44)%Z; (50)%Z];loc_leading:=None;loc_trailing:=None;loc_detached:=[]|}; {|loc_path:=[(4)%Z; (0)%Z; (2)%Z; (0)%Z; (8)%Z];loc_span:=[(2)%Z; (33)%Z; (51)%Z];loc_leading:=None;loc_trailing:=None;loc_detached:=[]|}; {|loc_path:=[(5)%Z; (0)%Z];loc_span:=[(5)%Z; (8)%Z; (7)%Z; (9)%Z];loc_leading:=None;loc_trailing:=None;loc_detached:=[]|}; {|loc_path:=[(5)%Z; (0)%Z; (1)%Z];loc_span:=[(5)%Z; (13)%Z; (16)%Z];loc_leading:=None;loc_trailing:=None;loc_detached:=[]|}; {|loc_path:=[(5)%Z; (0)%Z; (2)%Z; (0)%Z];loc_span:=[(6)%Z; (12)%Z; (21)%Z];loc_leading:=None;loc_trailing:=None;loc_detached:=[]|}; {|loc_path:=[(5)%Z; (0)%Z; (2)%Z; (0)%Z; (1)%Z];loc_span:=[(6)%Z; (12)%Z; (16)%Z];loc_leading:=None;loc_trailing:=None;loc_detached:=[]|}; {|loc_path:=[(5)%Z; (0)%Z; (2)%Z; (0)%Z; (2)%Z];loc_span:=[(6)%Z; (19)%Z; (20)%Z];loc_leading:=None;loc_trailing:=None;loc_detached:=[]|}]);d_syntax:=None|}).
Proof. vm_compute. reflexivity. Qed.
Example f_field_default_invalid_type_3 : full [10;32;32;32;32;32;32;32;32;109;101;115;115;97;103;101;32;77;101;115;115;97;103;101;32;123;10;32;32;32;32;32;32;32;32;32;32;32;32;111;112;116;105;111;110;97;108;32;70;111;111;32;102;111;111;32;61;32;49;32;91;100;101;102;97;117;108;116;32;61;32;70;65;76;83;69;93;59;10;32;32;32;32;32;32;32;32;125;10;10;32;32;32;32;32;32;32;32;101;110;117;109;32;70;111;111;32;123;10;32;32;32;32;32;32;32;32;32;32;32;32;90;69;82;79;32;61;32;48;59;10;32;32;32;32;32;32;32;32;125] = Some (inl {|d_name:=(Some [116;101;115;116;46;112;114;111;116;111]);d_package:=None;d_dependency:=[];d_public:=[];d_weak:=[];d_message:=[(MsgDesc (Some [77;101;115;115;97;103;101]) [{|f_name:=(Some [102;111;111]);f_number:=(Some (1)%Z);f_label:=(Some LabOptional);f_type:=None;f_type_name:=(Some [70;111;111]);f_extendee:=None;f_default:=(Some [70;65;76;83;69]);f_oneof_index:=None;f_json_name:=None;f_options:=None;f_proto3_optional:=None|}] [] [] [] [] [] None [] [])];d_enum:=[{|e_name:=(Some [70;111;111]);e_value:=[{|v_name:=(Some [90;69;82;79]);v_number:=(Some (0)%Z);v_options:=None|}];e_options:=None;e_reserved_range:=[];e_reserved_name:=[]|}];d_service:=[];d_extension:=[];d_options:=None;d_source_info:=(Some [{|loc_path:=[];loc_span:=[(1)%Z; (8)%Z; (7)%Z; (9)%Z];loc_leading:=None;loc_trailing:=None;loc_detached:=[]|}; {|loc_path:=[(4)%Z; (0)%Z];loc_span:=[(1)%Z; (8)%Z; (3)%Z; (9)%Z];loc_leading:=None;loc_trailing:=None;loc_detached:=[]|}; {|loc_path:=[(4)%Z; (0)%Z; (1)%Z];loc_span:=[(1)%Z; (16)%Z; (23)%Z];loc_leading:=None;loc_trailing:=None;loc_detached:=[]|}; {|loc_path:=[(4)%Z; (0)%Z; (2)%Z; (0)%Z];loc_span:=[(2)%Z; (12)%Z; (51)%Z];loc_leading:=None;loc_trailing:=None;loc_detached:=[]|}; {|loc_path:=[(4)%Z; (0)%Z; (2)%Z; (0)%Z; (1)%Z];loc_span:=[(2)%Z; (25)%Z; (28)%Z];loc_leading:=None;loc_trailing:=None;loc_detached:=[]|}; {|loc_path:=[(4)%Z; (0)%Z; (2)%Z; (0)%Z; (3)%Z];loc_span:=[(2)%Z; (31)%Z; (32)%Z];loc_leading:=None;loc_trailing:=None;loc_detached:=[]|}; {|loc_path:=[(4)%Z; (0)%Z; (2)%Z; (0)%Z; (4)%Z];loc_span:=[(2)%Z; (12)%Z; (20)%Z];loc_leading:=None;loc_trailing:=None;loc_detached:=[]|}; {|loc_path:=[(4)%Z; (0)%Z; (2)%Z; (0)%Z; (6)%Z];loc_span:=[(2)%Z; (21)%Z; (24)%Z];loc_leading:=None;loc_trailing:=None;loc_detached:=[]|}; {|loc_path:=[(4)%Z; (0)%Z; (2)%Z; (0)%Z; (7)%Z];loc_span:=[(2)%Z; (44)%Z; (49)%Z];loc_leading:=None;loc_trailing:=None;loc_detached:=[]|}; {|loc_path:=[(4)%Z; (0)%Z; (2)%Z; (0)%Z; (8)%Z];loc_span:=[(2)%Z; (33)%Z; (50)%Z];loc_leading:=None;loc_trailing:=None;loc_detached:=[]|}; {|loc_path:=[(5)%Z; (0)%Z];loc_span:=[(5)%Z; (8)%Z; (7)%Z; (9)%Z];loc_leading:=None;loc_trailing:=None;loc_detached:=[]|}; {|loc_path:=[(5)%Z; (0)%Z; (1)%Z];loc_span:=[(5)%Z; (13)%Z; (16)%Z];loc_leading:=None;loc_trailing:=None;loc_detached:=[]|}; {|loc_path:=[(5)%Z; (0)%Z; (2)%Z; (0)%Z];loc_span:=[(6)%Z; (12)%Z; (21)%Z];loc_leading:=None;loc_trailing:=None;loc_detached:=[]|}; {|loc_path:=[(5)%Z; (0)%Z; (2)%Z; (0)%Z; (1)%Z];loc_span:=[(6)%Z; (12)%Z; (16)%Z];loc_leading:=None;loc_trailing:=None;loc_detached:=[]|}; {|loc_path:=[(5)%Z; (0)%Z; (2)%Z; (0)%Z; (2)%Z];loc_span:=[(6)%Z; (19)%Z; (20)%Z];loc_leading:=None;loc_trailing:=None;loc_detached:=[]|}]);d_syntax:=None|}).
Proof. vm_compute. reflexivity. Qed.
Example f_field_default_invalid_type_4 : full [10;32;32;32;32;32;32;32;32;109;101;115;115;97;103;101;32;77;101;115;115;97;103;101;32;123;10;32;32;32;32;32;32;32;32;32;32;32;32;111;112;116;105;111;110;97;108;32;100;111;117;98;108;101;32;102;111;111;32;61;32;49;32;91;100;101;102;97;117;108;116;32;61;32;110;97;110;93;59;10;32;32;32;32;32;32;32;32;32;32;32;32;111;112;116;105;111;110;97;108;32;102;108;111;97;116;32;102;111;111;32;61;32;49;32;91;100;101;102;97;117;108;116;32;61;32;45;105;110;102;93;59;10;32;32;32;32;32;32;32;32;125] = Some (inl {|d_name:=(Some [116;101;115;116;46;112;114;111;116;111]);d_package:=None;d_dependency:=[];d_public:=[];d_weak:=[];d_message:=[(MsgDesc (Some [77;101;115;115;97;103;101]) [{|f_name:=(Some [102;111;111]);f_number:=(Some (1)%Z);f_label:=(Some LabOptional);f_type:=(Some FTDouble);f_type_name:=None;f_extendee:=None;f_default:=(Some [110;97;110]);f_oneof_index:=None;f_json_name:=None;f_options:=None;f_proto3_optional:=None|}; {|f_name:=(Some [102;111;111]);f_number:=(Some (1)%Z);f_label:=(Some LabOptional);f_type:=(Some FTFloat);f_type_name:=None;f_extendee:=None;f_default:=(Some [45;105;110;102]);f_oneof_index:=None;f_json_name:=None;f_options:=None;f_proto3_optional:=None|}] [] [] [] [] [] None [] [])];d_enum:=[];d_service:=[];d_extension:=[];d_options:=None;d_source_info:=(Some [{|loc_path:=[];loc_span:=[(1)%Z; (8)%Z; (4)%Z; (9)%Z];loc_leading:=None;loc_trailing:=None;loc_detached:=[]|}; {|loc_path:=[(4)%Z; (0)%Z];loc_span:=[(1)%Z; (8)%Z; (4)%Z; (9)%Z];loc_leading:=None;loc_trailing:=None;loc_detached:=[]|}; {|loc_path:=[(4)%Z; (0)%Z; (1)%Z];loc_span:=[(1)%Z; (16)%Z; (23)%Z];loc_leading:=None;loc_trailing:=None;loc_detached:=[]|}; {|loc_path:=[(4)%Z; (0)%Z; (2)%Z; (0)%Z];loc_span:=[(2)%Z; (12)%Z; (52)%Z];loc_leading:=None;loc_trailing:=None;loc_detached:=[]|}; {|loc_path:=[(4)%Z; (0)%Z; (2)%Z; (0)%Z; (1)%Z];loc_span:=[(2)%Z; (28)%Z; (31)%Z];loc_leading:=None;loc_trailing:=None;loc_detached:=[]|}; {|loc_path:=[(4)%Z; (0)%Z; (2)%Z; (0)%Z; (3)%Z];loc_span:=[(2)%Z; (34)%Z; (35)%Z];loc_leading:=None;loc_trailing:=None;loc_detached:=[]|}; {|loc_path:=[(4)%Z; (0)%Z; (2)%Z; (0)%Z; (4)%Z];loc_span:=[(2)%Z; (12)%Z; (20)%Z];loc_leading:=None;loc_trailing:=None;loc_detached:=[]|}; {|loc_path:=[(4)%Z; (0)%Z; (2)%Z; (0)%Z; (5)%Z];loc_span:=[(2)%Z; (21)%Z; (27)%Z];loc_leading:=None;loc_trailing:=None;loc_detached:=[]|}; {|loc_path:=[(4)%Z; (0)%Z; (2)%Z; (0)%Z; (7)%Z];loc_span:=[(2)%Z; (47)%Z; (50)%Z];loc_leading:=None;loc_trailing:=None;loc_detached:=[]|}; {|loc_path:=[(4)%Z; (0)%Z; (2)%Z; (0)%Z; (8)%Z];loc_span:=[(2)%Z; (36)%Z; (51)%Z];loc_leading:=None;loc_trailing:=None;loc_detached:=[]|}; {|loc_path:=[(4)%Z; (0)%Z; (2)%Z; (1)%Z];loc_span:=[(3)%Z; (12)%Z; (52)%Z];loc_leading:=None;loc_trailing:=None;loc_detached:=[]|}; {|loc_path:=[(4)%Z; (0)%Z; (2)%Z; (1)%Z; (1)%Z];loc_span:=[(3)%Z; (27)%Z; (30)%Z];loc_leading:=None;loc_trailing:=None;loc_detached:=[]|}; {|loc_path:=[(4)%Z; (0)%Z; (2)%Z; (1)%Z; (3)%Z];loc_span:=[(3)%Z; (33)%Z; (34)%Z];loc_leading:=None;loc_trailing:=None;loc_detached:=[]|}; {|loc_path:=[(4)%Z; (0)%Z; (2)%Z; (1)%Z; (4)%Z];loc_span:=[(3)%Z; (12)%Z; (20)%Z];loc_leading:=None;loc_trailing:=None;loc_detached:=[]|}; {|loc_path:=[(4)%Z; (0)%Z; (2)%Z; (1)%Z; (5)%Z];loc_span:=[(3)%Z; (21)%Z; (26)%Z];loc_leading:=None;loc_trailing:=None;loc_detached:=[]|}; {|loc_path:=[(4)%Z; (0)%Z; (2)%Z; (1)%Z; (7)%Z];loc_span:=[(3)%Z; (46)%Z; (50)%Z];loc_leading:=None;loc_trailing:=None;loc_detached:=[]|}; {|loc_path:=[(4)%Z; (0)%Z; (2)%Z; (1)%Z; (8)%Z];loc_span:=[(3)%Z; (35)%Z; (51)%Z];loc_leading:=None;loc_trailing:=None;loc_detached:=[]|}]);d_syntax:=None|}).
Proof. vm_compute. reflexivity. Qed.
Example e_field_default_invalid_type_1 : full [10;32;32;32;32;32;32;32;32;32;32;32;32;109;101;115;115;97;103;101;32;77;101;115;115;97;103;101;32;123;10;32;32;32;32;32;32;32;32;32;32;32;32;32;32;32;32;111;112;116;105;111;110;97;108;32;105;110;116;51;50;32;102;111;111;32;61;32;49;32;91;100;101;102;97;117;108;116;32;61;32;34;102;111;111;34;93;59;10;32;32;32;32;32;32;32;32;32;32;32;32;125] = Some (inr [ValueInvalidType [97;110;32;105;110;116;101;103;101;114] [102;111;111] (81,86)]).
Proof. vm_compute. reflexivity. Qed.
Example e_field_default_invalid_type_2 : full [10;32;32;32;32;32;32;32;32;32;32;32;32;109;101;115;115;97;103;101;32;77;101;115;115;97;103;101;32;123;10;32;32;32;32;32;32;32;32;32;32;32;32;32;32;32;32;111;112;116;105;111;110;97;108;32;117;105;110;116;51;50;32;102;111;111;32;61;32;49;32;91;100;101;102;97;117;108;116;32;61;32;45;49;48;48;93;59;10;32;32;32;32;32;32;32;32;32;32;32;32;125] = Some (inr [IntegerValueOutOfRange [97;110;32;117;110;115;105;103;110;101;100;32;51;50;45;98;105;116;32;105;110;116;101;103;101;114] [45;49;48;48] [48] [52;50;57;52;57;54;55;50;57;53] (82,86)]).
Proof. vm_compute. reflexivity. Qed.
Example e_field_default_invalid_type_3 : full [10;32;32;32;32;32;32;32;32;32;32;32;32;109;101;115;115;97;103;101;32;77;101;115;115;97;103;101;32;123;10;32;32;32;32;32;32;32;32;32;32;32;32;32;32;32;32;111;112;116;105;111;110;97;108;32;105;110;116;51;50;32;102;111;111;32;61;32;49;32;91;100;101;102;97;117;108;116;32;61;32;50;49;52;55;52;56;51;54;52;56;93;59;10;32;32;32;32;32;32;32;32;32;32;32;32;125] = Some (inr [IntegerValueOutOfRange [97;32;115;105;103;110;101;100;32;51;50;45;98;105;116;32;105;110;116;101;103;101;114] [50;49;52;55;52;56;51;54;52;56] [45;50;49;52;55;52;56;51;54;52;56] [50;49;52;55;52;56;51;54;52;55] (81,91)]).
Proof. vm_compute. reflexivity. Qed.
Example e_field_default_invalid_type_4 : full [10;32;32;32;32;32;32;32;32;32;32;32;32;109;101;115;115;97;103;101;32;77;101;115;115;97;103;101;32;123;10;32;32;32;32;32;32;32;32;32;32;32;32;32;32;32;32;111;112;116;105;111;110;97;108;32;98;111;111;108;32;102;111;111;32;61;32;49;32;91;100;101;102;97;117;108;116;32;61;32;70;65;76;83;69;93;59;10;32;32;32;32;32;32;32;32;32;32;32;32;125] = Some (inr [ValueInvalidType [101;105;116;104;101;114;32;39;116;114;117;101;39;32;111;114;32;39;102;97;108;115;101;39] [70;65;76;83;69] (80,85)]).
Proof. vm_compute. reflexivity. Qed.
Example e_field_default_invalid_type_5 : full [10;32;32;32;32;32;32;32;32;32;32;32;32;109;101;115;115;97;103;101;32;77;101;115;115;97;103;101;32;123;10;32;32;32;32;32;32;32;32;32;32;32;32;32;32;32;32;111;112;116;105;111;110;97;108;32;98;111;111;108;32;102;111;111;32;61;32;49;32;91;100;101;102;97;117;108;116;32;61;32;45;102;97;108;115;101;93;59;10;32;32;32;32;32;32;32;32;32;32;32;32;125;10;10;32;32;32;32;32;32;32;32;32;32;32;32;101;110;117;109;32;70;111;111;32;123;10;32;32;32;32;32;32;32;32;32;32;32;32;32;32;32;32;90;69;82;79;32;61;32;48;59;10;32;32;32;32;32;32;32;32;32;32;32;32;125] = Some (inr [ValueInvalidType [101;105;116;104;101;114;32;39;116;114;117;101;39;32;111;114;32;39;102;97;108;115;101;39] [45;102;97;108;115;101] (80,86)]).
Proof. vm_compute. reflexivity. Qed.
Example e_field_default_invalid_type_6 : full [10;32;32;32;32;32;32;32;32;32;32;32;32;109;101;115;115;97;103;101;32;77;101;115;115;97;103;101;32;123;10;32;32;32;32;32;32;32;32;32;32;32;32;32;32;32;32;111;112;116;105;111;110;97;108;32;115;116;114;105;110;103;32;102;111;111;32;61;32;49;32;91;100;101;102;97;117;108;116;32;61;32;39;92;120;70;70;39;93;59;10;32;32;32;32;32;32;32;32;32;32;32;32;125] = Some (inr [InvalidUtf8String (82,88)]).
Proof. vm_compute. reflexivity. Qed.
Example e_field_default_invalid_type_7 : full [10;32;32;32;32;32;32;32;32;32;32;32;32;109;101;115;115;97;103;101;32;77;101;115;115;97;103;101;32;123;10;32;32;32;32;32;32;32;32;32;32;32;32;32;32;32;32;111;112;116;105;111;110;97;108;32;102;105;120;101;100;54;52;32;102;111;111;32;61;32;49;32;91;100;101;102;97;117;108;116;32;61;32;45;53;93;59;10;32;32;32;32;32;32;32;32;32;32;32;32;125] = Some (inr [IntegerValueOutOfRange [97;110;32;117;110;115;105;103;110;101;100;32;54;52;45;98;105;116;32;105;110;116;101;103;101;114] [45;53] [48] [49;56;52;52;54;55;52;52;48;55;51;55;48;57;53;53;49;54;49;53] (83,85)]).
Proof. vm_compute. reflexivity. Qed.
Example e_field_default_invalid_type_8 : full [10;32;32;32;32;32;32;32;32;32;32;32;32;109;101;115;115;97;103;101;32;77;101;115;115;97;103;101;32;123;10;32;32;32;32;32;32;32;32;32;32;32;32;32;32;32;32;111;112;116;105;111;110;97;108;32;105;110;116;51;50;32;102;111;111;32;61;32;49;32;91;100;101;102;97;117;108;116;32;61;32;53;46;48;93;59;10;32;32;32;32;32;32;32;32;32;32;32;32;125] = Some (inr [ValueInvalidType [97;110;32;105;110;116;101;103;101;114] [53;46;48] (81,84)]).
Proof. vm_compute. reflexivity. Qed.
Example e_field_default_invalid_type_9 : full [10;32;32;32;32;32;32;32;32;32;32;32;32;109;101;115;115;97;103;101;32;77;101;115;115;97;103;101;32;123;10;32;32;32;32;32;32;32;32;32;32;32;32;32;32;32;32;111;112;116;105;111;110;97;108;32;100;111;117;98;108;101;32;102;111;111;32;61;32;49;32;91;100;101;102;97;117;108;116;32;61;32;105;100;101;110;116;93;59;10;32;32;32;32;32;32;32;32;32;32;32;32;125] = Some (inr [ValueInvalidType [97;32;102;108;111;97;116;105;110;103;45;112;111;105;110;116;32;110;117;109;98;101;114] [105;100;101;110;116] (82,87)]).
Proof. vm_compute. reflexivity. Qed.
Example e_field_default_invalid_type_10 : full [10;32;32;32;32;32;32;32;32;32;32;32;32;109;101;115;115;97;103;101;32;77;101;115;115;97;103;101;32;123;10;32;32;32;32;32;32;32;32;32;32;32;32;32;32;32;32;111;112;116;105;111;110;97;108;32;100;111;117;98;108;101;32;102;111;111;32;61;32;49;32;91;100;101;102;97;117;108;116;32;61;32;123;97;58;48;125;93;59;10;32;32;32;32;32;32;32;32;32;32;32;32;125] = Some (inr [ValueInvalidType [97;32;102;108;111;97;116;105;110;103;45;112;111;105;110;116;32;110;117;109;98;101;114] [97;32;58;32;48] (82,87)]).
Proof. vm_compute. reflexivity. Qed.
Example e_field_default_invalid_type_11 : full [10;32;32;32;32;32;32;32;32;32;32;32;32;109;101;115;115;97;103;101;32;77;101;115;115;97;103;101;32;123;10;32;32;32;32;32;32;32;32;32;32;32;32;32;32;32;32;111;112;116;105;111;110;97;108;32;100;111;117;98;108;101;32;102;111;111;32;61;32;49;32;91;100;101;102;97;117;108;116;32;61;32;34;97;98;99;34;93;59;10;32;32;32;32;32;32;32;32;32;32;32;32;125] = Some (inr [ValueInvalidType [97;32;102;108;111;97;116;105;110;103;45;112;111;105;110;116;32;110;117;109;98;101;114] [97;98;99] (82,87)]).
Proof. vm_compute. reflexivity. Qed.
Example e_field_default_invalid_type_12 : full [10;32;32;32;32;32;32;32;32;32;32;32;32;109;101;115;115;97;103;101;32;77;101;115;115;97;103;101;32;123;10;32;32;32;32;32;32;32;32;32;32;32;32;32;32;32;32;111;112;116;105;111;110;97;108;32;115;105;110;116;54;52;32;102;111;111;32;61;32;49;32;91;100;101;102;97;117;108;116;32;61;32;49;51;56;51;53;48;53;56;48;53;53;50;56;50;49;54;51;55;49;49;93;59;10;32;32;32;32;32;32;32;32;32;32;32;32;125] = Some (inr [IntegerValueOutOfRange [97;32;115;105;103;110;101;100;32;54;52;45;98;105;116;32;105;110;116;101;103;101;114] [49;51;56;51;53;48;53;56;48;53;53;50;56;50;49;54;51;55;49;49] [45;57;50;50;51;51;55;50;48;51;54;56;53;52;55;55;53;56;48;56] [57;50;50;51;51;55;50;48;51;54;56;53;52;55;55;53;56;48;55] (82,102)]).
Proof. vm_compute. reflexivity. Qed.
Example e_field_default_invalid_type_13 : full [10;32;32;32;32;32;32;32;32;32;32;32;32;109;101;115;115;97;103;101;32;77;101;115;115;97;103;101;32;123;10;32;32;32;32;32;32;32;32;32;32;32;32;32;32;32;32;111;112;116;105;111;110;97;108;32;115;116;114;105;110;103;32;102;111;111;32;61;32;49;32;91;100;101;102;97;117;108;116;32;61;32;49;50;51;93;59;10;32;32;32;32;32;32;32;32;32;32;32;32;125] = Some (inr [ValueInvalidType [97;32;115;116;114;105;110;103] [49;50;51] (82,85)]).
Proof. vm_compute. reflexivity. Qed.
Example e_field_default_invalid_type_14 : full [10;32;32;32;32;32;32;32;32;32;32;32;32;109;101;115;115;97;103;101;32;77;101;115;115;97;103;101;32;123;10;32;32;32;32;32;32;32;32;32;32;32;32;32;32;32;32;111;112;116;105;111;110;97;108;32;98;121;116;101;115;32;102;111;111;32;61;32;49;32;91;100;101;102;97;117;108;116;32;61;32;49;50;51;93;59;10;32;32;32;32;32;32;32;32;32;32;32;32;125] = Some (inr [ValueInvalidType [97;32;115;116;114;105;110;103] [49;50;51] (81,84)]).
Proof. vm_compute. reflexivity. Qed.
Example f_syntax_1 : full [] = Some (inl {|d_name:=(Some [116;101;115;116;46;112;114;111;116;111]);d_package:=None;d_dependency:=[];d_public:=[];d_weak:=[];d_message:=[];d_enum:=[];d_service:=[];d_extension:=[];d_options:=None;d_source_info:=(Some [{|loc_path:=[];loc_span:=[(0)%Z; (0)%Z; (0)%Z];loc_leading:=None;loc_trailing:=None;loc_detached:=[]|}]);d_syntax:=None|}).
Proof. vm_compute. reflexivity. Qed.
Example f_syntax_2 : full [115;121;110;116;97;120;32;61;32;39;112;114;111;116;111;50;39;59] = Some (inl {|d_name:=(Some [116;101;115;116;46;112;114;111;116;111]);d_package:=None;d_dependency:=[];d_public:=[];d_weak:=[];d_message:=[];d_enum:=[];d_service:=[];d_extension:=[];d_options:=None;d_source_info:=(Some [{|loc_path:=[];loc_span:=[(0)%Z; (0)%Z; (18)%Z];loc_leading:=None;loc_trailing:=None;loc_detached:=[]|}; {|loc_path:=[(12)%Z];loc_span:=[(0)%Z; (0)%Z; (18)%Z];loc_leading:=None;loc_trailing:=None;loc_detached:=[]|}]);d_syntax:=None|}).
Proof. vm_compute. reflexivity. Qed.
Example f_syntax_3 : full [115;121;110;116;97;120;32;61;32;39;112;114;111;116;111;51;39;59] = Some (inl {|d_name:=(Some [116;101;115;116;46;112;114;111;116;111]);d_package:=None;d_dependency:=[];d_public:=[];d_weak:=[];d_message:=[];d_enum:=[];d_service:=[];d_extension:=[];d_options:=None;d_source_info:=(Some [{|loc_path:=[];loc_span:=[(0)%Z; (0)%Z; (18)%Z];loc_leading:=None;loc_trailing:=None;loc_detached:=[]|}; {|loc_path:=[(12)%Z];loc_span:=[(0)%Z; (0)%Z; (18)%Z];loc_leading:=None;loc_trailing:=None;loc_detached:=[]|}]);d_syntax:=(Some [112;114;111;116;111;51])|}).
Proof. vm_compute. reflexivity. Qed.
Example f_imports_1 : full [105;109;112;111;114;116;32;39;102;111;111;46;112;114;111;116;111;39;59] = Some (inl {|d_name:=(Some [116;101;115;116;46;112;114;111;116;111]);d_package:=None;d_dependency:=[[102;111;111;46;112;114;111;116;111]];d_public:=[];d_weak:=[];d_message:=[];d_enum:=[];d_service:=[];d_extension:=[];d_options:=None;d_source_info:=(Some [{|loc_path:=[];loc_span:=[(0)%Z; (0)%Z; (19)%Z];loc_leading:=None;loc_trailing:=None;loc_detached:=[]|}; {|loc_path:=[(3)%Z; (0)%Z];loc_span:=[(0)%Z; (0)%Z; (19)%Z];loc_leading:=None;loc_trailing:=None;loc_detached:=[]|}]);d_syntax:=None|}).
Proof. vm_compute. reflexivity. Qed.
Example f_imports_2 : full [105;109;112;111;114;116;32;119;101;97;107;32;39;102;111;111;46;112;114;111;116;111;39;59] = Some (inl {|d_name:=(Some [116;101;115;116;46;112;114;111;116;111]);d_package:=None;d_dependency:=[[102;111;111;46;112;114;111;116;111]];d_public:=[];d_weak:=[(0)%Z];d_message:=[];d_enum:=[];d_service:=[];d_extension:=[];d_options:=None;d_source_info:=(Some [{|loc_path:=[];loc_span:=[(0)%Z; (0)%Z; (24)%Z];loc_leading:=None;loc_trailing:=None;loc_detached:=[]|}; {|loc_path:=[(3)%Z; (0)%Z];loc_span:=[(0)%Z; (0)%Z; (24)%Z];loc_leading:=None;loc_trailing:=None;loc_detached:=[]|}; {|loc_path:=[(11)%Z; (0)%Z];loc_span:=[(0)%Z; (7)%Z; (11)%Z];loc_leading:=None;loc_trailing:=None;loc_detached:=[]|}]);d_syntax:=None|}).
Proof. vm_compute. reflexivity. Qed.
Example f_imports_3 : full [105;109;112;111;114;116;32;112;117;98;108;105;99;32;39;102;111;111;46;112;114;111;116;111;39;59] = Some (inl {|d_name:=(Some [116;101;115;116;46;112;114;111;116;111]);d_package:=None;d_dependency:=[[102;111;111;46;112;114;111;116;111]];d_public:=[(0)%Z];d_weak:=[];d_message:=[];d_enum:=[];d_service:=[];d_extension:=[];d_options:=None;d_source_info:=(Some [{|loc_path:=[];loc_span:=[(0)%Z; (0)%Z; (26)%Z];loc_leading:=None;loc_trailing:=None;loc_detached:=[]|}; {|loc_path:=[(3)%Z; (0)%Z];loc_span:=[(0)%Z; (0)%Z; (26)%Z];loc_leading:=None;loc_trailing:=None;loc_detached:=[]|}; {|loc_path:=[(10)%Z; (0)%Z];loc_span:=[(0)%Z; (7)%Z; (13)%Z];loc_leading:=None;loc_trailing:=None;loc_detached:=[]|}]);d_syntax:=None|}).
Proof. vm_compute. reflexivity. Qed.
Example f_reserved_range_1 : full [109;101;115;115;97;103;101;32;70;111;111;32;123;10;32;32;32;32;32;32;32;32;32;32;32;32;114;101;115;101;114;118;101;100;32;49;32;116;111;32;109;97;120;59;10;10;32;32;32;32;32;32;32;32;32;32;32;32;111;112;116;105;111;110;32;109;101;115;115;97;103;101;95;115;101;116;95;119;105;114;101;95;102;111;114;109;97;116;32;61;32;102;97;108;115;101;59;10;32;32;32;32;32;32;32;32;125] = Some (inl {|d_name:=(Some [116;101;115;116;46;112;114;111;116;111]);d_package:=None;d_dependency:=[];d_public:=[];d_weak:=[];d_message:=[(MsgDesc (Some [70;111;111]) [] [] [] [] [] [] (Some {|mo_map_entry:=None;mo_uninterpreted:=[{|uo_name:=[([109;101;115;115;97;103;101;95;115;101;116;95;119;105;114;101;95;102;111;114;109;97;116],false)];uo_identifier:=(Some [102;97;108;115;101]);uo_positive:=None;uo_negative:=None;uo_double:=None;uo_string:=None;uo_aggregate:=None|}]|}) [{|r_start:=(Some (1)%Z);r_end:=(Some (536870912)%Z)|}] [])];d_enum:=[];d_service:=[];d_extension:=[];d_options:=None;d_source_info:=(Some [{|loc_path:=[];loc_span:=[(0)%Z; (0)%Z; (4)%Z; (9)%Z];loc_leading:=None;loc_trailing:=None;loc_detached:=[]|}; {|loc_path:=[(4)%Z; (0)%Z];loc_span:=[(0)%Z; (0)%Z; (4)%Z; (9)%Z];loc_leading:=None;loc_trailing:=None;loc_detached:=[]|}; {|loc_path:=[(4)%Z; (0)%Z; (1)%Z];loc_span:=[(0)%Z; (8)%Z; (11)%Z];loc_leading:=None;loc_trailing:=None;loc_detached:=[]|}; {|loc_path:=[(4)%Z; (0)%Z; (7)%Z];loc_span:=[(3)%Z; (12)%Z; (51)%Z];loc_leading:=None;loc_trailing:=None;loc_detached:=[]|}; {|loc_path:=[(4)%Z; (0)%Z; (7)%Z; (999)%Z; (0)%Z];loc_span:=[(3)%Z; (12)%Z; (51)%Z];loc_leading:=None;loc_trailing:=None;loc_detached:=[]|}; {|loc_path:=[(4)%Z; (0)%Z; (9)%Z];loc_span:=[(1)%Z; (12)%Z; (30)%Z];loc_leading:=None;loc_trailing:=None;loc_detached:=[]|}; {|loc_path:=[(4)%Z; (0)%Z; (9)%Z; (0)%Z];loc_span:=[(1)%Z; (21)%Z; (29)%Z];loc_leading:=None;loc_trailing:=None;loc_detached:=[]|}; {|loc_path:=[(4)%Z; (0)%Z; (9)%Z; (0)%Z; (1)%Z];loc_span:=[(1)%Z; (21)%Z; (22)%Z];loc_leading:=None;loc_trailing:=None;loc_detached:=[]|}; {|loc_path:=[(4)%Z; (0)%Z; (9)%Z; (0)%Z; (2)%Z];loc_span:=[(1)%Z; (26)%Z; (29)%Z];loc_leading:=None;loc_trailing:=None;loc_detached:=[]|}]);d_syntax:=None|}).
Proof. vm_compute. reflexivity. Qed.
Example f_reserved_range_2 : full [109;101;115;115;97;103;101;32;70;111;111;32;123;10;32;32;32;32;32;32;32;32;32;32;32;32;114;101;115;101;114;118;101;100;32;49;32;116;111;32;109;97;120;59;10;10;32;32;32;32;32;32;32;32;32;32;32;32;111;112;116;105;111;110;32;109;101;115;115;97;103;101;95;115;101;116;95;119;105;114;101;95;102;111;114;109;97;116;32;61;32;116;114;117;101;59;10;32;32;32;32;32;32;32;32;125] = Some (inl {|d_name:=(Some [116;101;115;116;46;112;114;111;116;111]);d_package:=None;d_dependency:=[];d_public:=[];d_weak:=[];d_message:=[(MsgDesc (Some [70;111;111]) [] [] [] [] [] [] (Some {|mo_map_entry:=None;mo_uninterpreted:=[{|uo_name:=[([109;101;115;115;97;103;101;95;115;101;116;95;119;105;114;101;95;102;111;114;109;97;116],false)];uo_identifier:=(Some [116;114;117;101]);uo_positive:=None;uo_negative:=None;uo_double:=None;uo_string:=None;uo_aggregate:=None|}]|}) [{|r_start:=(Some (1)%Z);r_end:=(Some (2147483647)%Z)|}] [])];d_enum:=[];d_service:=[];d_extension:=[];d_options:=None;d_source_info:=(Some [{|loc_path:=[];loc_span:=[(0)%Z; (0)%Z; (4)%Z; (9)%Z];loc_leading:=None;loc_trailing:=None;loc_detached:=[]|}; {|loc_path:=[(4)%Z; (0)%Z];loc_span:=[(0)%Z; (0)%Z; (4)%Z; (9)%Z];loc_leading:=None;loc_trailing:=None;loc_detached:=[]|}; {|loc_path:=[(4)%Z; (0)%Z; (1)%Z];loc_span:=[(0)%Z; (8)%Z; (11)%Z];loc_leading:=None;loc_trailing:=None;loc_detached:=[]|}; {|loc_path:=[(4)%Z; (0)%Z; (7)%Z];loc_span:=[(3)%Z; (12)%Z; (50)%Z];loc_leading:=None;loc_trailing:=None;loc_detached:=[]|}; {|loc_path:=[(4)%Z; (0)%Z; (7)%Z; (999)%Z; (0)%Z];loc_span:=[(3)%Z; (12)%Z; (50)%Z];loc_leading:=None;loc_trailing:=None;loc_detached:=[]|}; {|loc_path:=[(4)%Z; (0)%Z; (9)%Z];loc_span:=[(1)%Z; (12)%Z; (30)%Z];loc_leading:=None;loc_trailing:=None;loc_detached:=[]|}; {|loc_path:=[(4)%Z; (0)%Z; (9)%Z; (0)%Z];loc_span:=[(1)%Z; (21)%Z; (29)%Z];loc_leading:=None;loc_trailing:=None;loc_detached:=[]|}; {|loc_path:=[(4)%Z; (0)%Z; (9)%Z; (0)%Z; (1)%Z];loc_span:=[(1)%Z; (21)%Z; (22)%Z];loc_leading:=None;loc_trailing:=None;loc_detached:=[]|}; {|loc_path:=[(4)%Z; (0)%Z; (9)%Z; (0)%Z; (2)%Z];loc_span:=[(1)%Z; (26)%Z; (29)%Z];loc_leading:=None;loc_trailing:=None;loc_detached:=[]|}]);d_syntax:=None|}).
Proof. vm_compute. reflexivity. Qed.
Example f_options_1 : full [111;112;116;105;111;110;32;40;101;120;116;46;102;111;111;41;46;98;97;114;32;61;32;116;114;117;101;59] = Some (inl {|d_name:=(Some [116;101;115;116;46;112;114;111;116;111]);d_package:=None;d_dependency:=[];d_public:=[];d_weak:=[];d_message:=[];d_enum:=[];d_service:=[];d_extension:=[];d_options:=(Some [{|uo_name:=[([101;120;116;46;102;111;111],true); ([98;97;114],false)];uo_identifier:=(Some [116;114;117;101]);uo_positive:=None;uo_negative:=None;uo_double:=None;uo_string:=None;uo_aggregate:=None|}]);d_source_info:=(Some [{|loc_path:=[];loc_span:=[(0)%Z; (0)%Z; (28)%Z];loc_leading:=None;loc_trailing:=None;loc_detached:=[]|}; {|loc_path:=[(8)%Z];loc_span:=[(0)%Z; (0)%Z; (28)%Z];loc_leading:=None;loc_trailing:=None;loc_detached:=[]|}; {|loc_path:=[(8)%Z; (999)%Z; (0)%Z];loc_span:=[(0)%Z; (0)%Z; (28)%Z];loc_leading:=None;loc_trailing:=None;loc_detached:=[]|}]);d_syntax:=None|}).
Proof. vm_compute. reflexivity. Qed.
Example f_options_2 : full [111;112;116;105;111;110;32;101;120;116;46;40;102;111;111;46;98;97;114;41;32;61;32;116;114;117;101;59] = Some (inl {|d_name:=(Some [116;101;115;116;46;112;114;111;116;111]);d_package:=None;d_dependency:=[];d_public:=[];d_weak:=[];d_message:=[];d_enum:=[];d_service:=[];d_extension:=[];d_options:=(Some [{|uo_name:=[([101;120;116],false); ([102;111;111;46;98;97;114],true)];uo_identifier:=(Some [116;114;117;101]);uo_positive:=None;uo_negative:=None;uo_double:=None;uo_string:=None;uo_aggregate:=None|}]);d_source_info:=(Some [{|loc_path:=[];loc_span:=[(0)%Z; (0)%Z; (28)%Z];loc_leading:=None;loc_trailing:=None;loc_detached:=[]|}; {|loc_path:=[(8)%Z];loc_span:=[(0)%Z; (0)%Z; (28)%Z];loc_leading:=None;loc_trailing:=None;loc_detached:=[]|}; {|loc_path:=[(8)%Z; (999)%Z; (0)%Z];loc_span:=[(0)%Z; (0)%Z; (28)%Z];loc_leading:=None;loc_trailing:=None;loc_detached:=[]|}]);d_syntax:=None|}).
Proof. vm_compute. reflexivity. Qed.
Example f_options_3 : full [111;112;116;105;111;110;32;111;112;116;32;61;32;105;100;101;110;116;59] = Some (inl {|d_name:=(Some [116;101;115;116;46;112;114;111;116;111]);d_package:=None;d_dependency:=[];d_public:=[];d_weak:=[];d_message:=[];d_enum:=[];d_service:=[];d_extension:=[];d_options:=(Some [{|uo_name:=[([111;112;116],false)];uo_identifier:=(Some [105;100;101;110;116]);uo_positive:=None;uo_negative:=None;uo_double:=None;uo_string:=None;uo_aggregate:=None|}]);d_source_info:=(Some [{|loc_path:=[];loc_span:=[(0)%Z; (0)%Z; (19)%Z];loc_leading:=None;loc_trailing:=None;loc_detached:=[]|}; {|loc_path:=[(8)%Z];loc_span:=[(0)%Z; (0)%Z; (19)%Z];loc_leading:=None;loc_trailing:=None;loc_detached:=[]|}; {|loc_path:=[(8)%Z; (999)%Z; (0)%Z];loc_span:=[(0)%Z; (0)%Z; (19)%Z];loc_leading:=None;loc_trailing:=None;loc_detached:=[]|}]);d_syntax:=None|}).
Proof. vm_compute. reflexivity. Qed.
Example f_options_4 : full [111;112;116;105;111;110;32;111;112;116;32;61;32;53;59] = Some (inl {|d_name:=(Some [116;101;115;116;46;112;114;111;116;111]);d_package:=None;d_dependency:=[];d_public:=[];d_weak:=[];d_message:=[];d_enum:=[];d_service:=[];d_extension:=[];d_options:=(Some [{|uo_name:=[([111;112;116],false)];uo_identifier:=None;uo_positive:=(Some 5);uo_negative:=None;uo_double:=None;uo_string:=None;uo_aggregate:=None|}]);d_source_info:=(Some [{|loc_path:=[];loc_span:=[(0)%Z; (0)%Z; (15)%Z];loc_leading:=None;loc_trailing:=None;loc_detached:=[]|}; {|loc_path:=[(8)%Z];loc_span:=[(0)%Z; (0)%Z; (15)%Z];loc_leading:=None;loc_trailing:=None;loc_detached:=[]|}; {|loc_path:=[(8)%Z; (999)%Z; (0)%Z];loc_span:=[(0)%Z; (0)%Z; (15)%Z];loc_leading:=None;loc_trailing:=None;loc_detached:=[]|}]);d_syntax:=None|}).
Proof. vm_compute. reflexivity. Qed.
Example f_options_5 : full [111;112;116;105;111;110;32;111;112;116;32;61;32;45;53;59] = Some (inl {|d_name:=(Some [116;101;115;116;46;112;114;111;116;111]);d_package:=None;d_dependency:=[];d_public:=[];d_weak:=[];d_message:=[];d_enum:=[];d_service:=[];d_extension:=[];d_options:=(Some [{|uo_name:=[([111;112;116],false)];uo_identifier:=None;uo_positive:=None;uo_negative:=(Some (-5)%Z);uo_double:=None;uo_string:=None;uo_aggregate:=None|}]);d_source_info:=(Some [{|loc_path:=[];loc_span:=[(0)%Z; (0)%Z; (16)%Z];loc_leading:=None;loc_trailing:=None;loc_detached:=[]|}; {|loc_path:=[(8)%Z];loc_span:=[(0)%Z; (0)%Z; (16)%Z];loc_leading:=None;loc_trailing:=None;loc_detached:=[]|}; {|loc_path:=[(8)%Z; (999)%Z; (0)%Z];loc_span:=[(0)%Z; (0)%Z; (16)%Z];loc_leading:=None;loc_trailing:=None;loc_detached:=[]|}]);d_syntax:=None|}).
Proof. vm_compute. reflexivity. Qed.
Example f_options_6 : full [111;112;116;105;111;110;32;111;112;116;32;61;32;49;46;49;59] = Some (inl {|d_name:=(Some [116;101;115;116;46;112;114;111;116;111]);d_package:=None;d_dependency:=[];d_public:=[];d_weak:=[];d_message:=[];d_enum:=[];d_service:=[];d_extension:=[];d_options:=(Some [{|uo_name:=[([111;112;116],false)];uo_identifier:=None;uo_positive:=None;uo_negative:=None;uo_double:=(Some (false,[49;46;49]));uo_string:=None;uo_aggregate:=None|}]);d_source_info:=(Some [{|loc_path:=[];loc_span:=[(0)%Z; (0)%Z; (17)%Z];loc_leading:=None;loc_trailing:=None;loc_detached:=[]|}; {|loc_path:=[(8)%Z];loc_span:=[(0)%Z; (0)%Z; (17)%Z];loc_leading:=None;loc_trailing:=None;loc_detached:=[]|}; {|loc_path:=[(8)%Z; (999)%Z; (0)%Z];loc_span:=[(0)%Z; (0)%Z; (17)%Z];loc_leading:=None;loc_trailing:=None;loc_detached:=[]|}]);d_syntax:=None|}).
Proof. vm_compute. reflexivity. Qed.
Example f_options_7 : full [111;112;116;105;111;110;32;111;112;116;32;61;32;39;102;111;111;39;59] = Some (inl {|d_name:=(Some [116;101;115;116;46;112;114;111;116;111]);d_package:=None;d_dependency:=[];d_public:=[];d_weak:=[];d_message:=[];d_enum:=[];d_service:=[];d_extension:=[];d_options:=(Some [{|uo_name:=[([111;112;116],false)];uo_identifier:=None;uo_positive:=None;uo_negative:=None;uo_double:=None;uo_string:=(Some [102;111;111]);uo_aggregate:=None|}]);d_source_info:=(Some [{|loc_path:=[];loc_span:=[(0)%Z; (0)%Z; (19)%Z];loc_leading:=None;loc_trailing:=None;loc_detached:=[]|}; {|loc_path:=[(8)%Z];loc_span:=[(0)%Z; (0)%Z; (19)%Z];loc_leading:=None;loc_trailing:=None;loc_detached:=[]|}; {|loc_path:=[(8)%Z; (999)%Z; (0)%Z];loc_span:=[(0)%Z; (0)%Z; (19)%Z];loc_leading:=None;loc_trailing:=None;loc_detached:=[]|}]);d_syntax:=None|}).
Proof. vm_compute. reflexivity. Qed.
Example f_options_8 : full [111;112;116;105;111;110;32;111;112;116;32;61;32;123;32;102;111;111;58;32;49;32;125;59] = Some (inl {|d_name:=(Some [116;101;115;116;46;112;114;111;116;111]);d_package:=None;d_dependency:=[];d_public:=[];d_weak:=[];d_message:=[];d_enum:=[];d_service:=[];d_extension:=[];d_options:=(Some [{|uo_name:=[([111;112;116],false)];uo_identifier:=None;uo_positive:=None;uo_negative:=None;uo_double:=None;uo_string:=None;uo_aggregate:=(Some [102;111;111;32;58;32;49])|}]);d_source_info:=(Some [{|loc_path:=[];loc_span:=[(0)%Z; (0)%Z; (24)%Z];loc_leading:=None;loc_trailing:=None;loc_detached:=[]|}; {|loc_path:=[(8)%Z];loc_span:=[(0)%Z; (0)%Z; (24)%Z];loc_leading:=None;loc_trailing:=None;loc_detached:=[]|}; {|loc_path:=[(8)%Z; (999)%Z; (0)%Z];loc_span:=[(0)%Z; (0)%Z; (24)%Z];loc_leading:=None;loc_trailing:=None;loc_detached:=[]|}]);d_syntax:=None|}).
Proof. vm_compute. reflexivity. Qed.
Example e_options_1 : full [111;112;116;105;111;110;32;111;112;116;32;61;32;45;105;100;101;110;116;59] = Some (inr [NegativeIdentOutsideDefault (13,19)]).
Proof. vm_compute. reflexivity. Qed.
Example e_options_2 : full [111;112;116;105;111;110;32;111;112;116;32;61;32;45;49;51;56;51;53;48;53;56;48;53;53;50;56;50;49;54;51;55;49;49;59] = Some (inr [IntegerValueOutOfRange [97;32;54;52;45;98;105;116;32;105;110;116;101;103;101;114] [45;49;51;56;51;53;48;53;56;48;53;53;50;56;50;49;54;51;55;49;49] [45;57;50;50;51;51;55;50;48;51;54;56;53;52;55;55;53;56;48;56] [49;56;52;52;54;55;52;52;48;55;51;55;48;57;53;53;49;54;49;53] (13,34)]).
Proof. vm_compute. reflexivity. Qed.
