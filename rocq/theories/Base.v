(** Bytes, spans and small library functions shared by the model.

    Rust [&str]/[String]/[Vec<u8>] values are lists of bytes, a byte being an
    [N]. Nothing in the model relies on bytes being < 256 unless it says so. *)
From Coq Require Export Ascii String.
From Coq Require Export Bool NArith ZArith Lia List.
Export ListNotations.
Open Scope N_scope.

Definition byte := N.
Definition bytes := list N.

(** A literal written in the Rust source, e.g. [b "syntax"]. *)
Definition b (s : String.string) : bytes :=
  map Ascii.N_of_ascii (String.list_ascii_of_string s).
Arguments b s%string.

(** logos::Span = core::ops::Range<usize>. *)
Definition span := (N * N)%type.
Definition s_start (s : span) : N := fst s.
Definition s_end (s : span) : N := snd s.

(** protox-parse/src/lib.rs:100-102 [join_span]. *)
Definition join_span (a z : span) : span := (s_start a, s_end z).

Definition len {A} (l : list A) : N := N.of_nat (length l).

Fixpoint bytes_eqb (x y : bytes) : bool :=
  match x, y with
  | [], [] => true
  | a :: x', c :: y' => (a =? c) && bytes_eqb x' y'
  | _, _ => false
  end.

Lemma bytes_eqb_eq x y : bytes_eqb x y = true <-> x = y.
Proof.
  revert y; induction x as [|a x IH]; destruct y as [|c y]; simpl; split; intro H;
    try reflexivity; try discriminate.
  - apply andb_true_iff in H. destruct H as [H1 H2].
    apply N.eqb_eq in H1. apply IH in H2. congruence.
  - injection H as -> ->. rewrite N.eqb_refl. simpl. now apply IH.
Qed.

Lemma bytes_eqb_refl x : bytes_eqb x x = true.
Proof. now apply bytes_eqb_eq. Qed.

Lemma bytes_eqb_neq x y : bytes_eqb x y = false <-> x <> y.
Proof.
  rewrite <- not_true_iff_false, bytes_eqb_eq. tauto.
Qed.

Lemma bytes_eq_dec (x y : bytes) : {x = y} + {x <> y}.
Proof. apply (list_eq_dec N.eq_dec). Defined.

(** str::starts_with *)
Fixpoint starts_with (p l : bytes) : bool :=
  match p, l with
  | [], _ => true
  | c :: p', d :: l' => (c =? d) && starts_with p' l'
  | _ :: _, [] => false
  end.

(** Longest prefix whose elements satisfy [p], and the rest. *)
Fixpoint take_while (p : N -> bool) (l : bytes) : bytes :=
  match l with
  | [] => []
  | c :: r => if p c then c :: take_while p r else []
  end.
Fixpoint drop_while (p : N -> bool) (l : bytes) : bytes :=
  match l with
  | [] => []
  | c :: r => if p c then drop_while p r else l
  end.

Lemma take_drop_while p l : take_while p l ++ drop_while p l = l.
Proof. induction l as [|c r IH]; simpl; [reflexivity|]. destruct (p c); simpl; congruence. Qed.

Lemma take_while_all p l : forallb p (take_while p l) = true.
Proof. induction l as [|c r IH]; simpl; [reflexivity|]. destruct (p c) eqn:E; simpl; [rewrite E|]; auto. Qed.

Lemma drop_while_head p l c r : drop_while p l = c :: r -> p c = false.
Proof.
  induction l as [|d l IH]; simpl; [discriminate|].
  destruct (p d) eqn:E; [exact IH|]. intros H; injection H as -> ->; exact E.
Qed.

Lemma drop_while_length p l : (length (drop_while p l) <= length l)%nat.
Proof. induction l as [|c r IH]; simpl; [lia|]. destruct (p c); simpl; lia. Qed.

(** ** Character classes (Rust's [u8]/[char] ASCII predicates) *)
Definition in_range (lo hi c : N) : bool := (lo <=? c) && (c <=? hi).
Definition is_digit (c : N) : bool := in_range 48 57 c.
Definition is_octal (c : N) : bool := in_range 48 55 c.
Definition is_upper (c : N) : bool := in_range 65 90 c.
Definition is_lower (c : N) : bool := in_range 97 122 c.
Definition is_alpha (c : N) : bool := is_upper c || is_lower c.
Definition is_alnum (c : N) : bool := is_alpha c || is_digit c.
Definition is_hex (c : N) : bool := is_digit c || in_range 65 70 c || in_range 97 102 c.

(** Value of a digit character in radix up to 16 ([char::to_digit]). *)
Definition digit_val (c : N) : option N :=
  if is_digit c then Some (c - 48)
  else if in_range 65 70 c then Some (c - 55)
  else if in_range 97 102 c then Some (c - 87)
  else None.

(** ** Printing of unsigned integers in base 10 (Rust [Display for u64/i32]). *)
Fixpoint dec_digits (fuel : nat) (n : N) (acc : bytes) : bytes :=
  match fuel with
  | O => acc
  | S f => let acc' := (48 + n mod 10) :: acc in
           if n <? 10 then acc' else dec_digits f (n / 10) acc'
  end.
Definition dec (n : N) : bytes := dec_digits (S (N.size_nat n)) n [].
Definition decZ (z : Z) : bytes :=
  match z with
  | Z0 => dec 0
  | Zpos p => dec (Npos p)
  | Zneg p => 45 :: dec (Npos p)
  end.

(** ** Octal byte [{:03o}] *)
Definition oct3 (n : N) : bytes := [48 + n / 64 mod 8; 48 + n / 8 mod 8; 48 + n mod 8].

(** ** Results with explicit panic and out-of-fuel outcomes. *)
Inductive out (A : Type) : Type :=
| Done (a : A)
| Panic      (* the Rust code would panic *)
| NoFuel.    (* the model ran out of fuel: proved unreachable *)
Arguments Done {A} a.
Arguments Panic {A}.
Arguments NoFuel {A}.

Definition obind {A B} (x : out A) (f : A -> out B) : out B :=
  match x with Done a => f a | Panic => Panic | NoFuel => NoFuel end.

Fixpoint intersperse (sep : bytes) (l : list bytes) : bytes :=
  match l with
  | [] => []
  | [x] => x
  | x :: r => x ++ sep ++ intersperse sep r
  end.

Definition slash : N := 47.
(** ["x/y/z"] from [["x"; "y"; "z"]]. *)
Fixpoint join_slash (ns : list bytes) : bytes :=
  match ns with
  | [] => []
  | [s] => s
  | s :: r => s ++ [slash] ++ join_slash r
  end.

(** ** Lengths *)
Lemma len_nil {A} : len (@nil A) = 0.
Proof. reflexivity. Qed.
Lemma len_cons {A} (x : A) l : len (x :: l) = 1 + len l.
Proof. unfold len. cbn [length]. lia. Qed.
Lemma len_app {A} (x y : list A) : len (x ++ y) = len x + len y.
Proof. unfold len. rewrite app_length. lia. Qed.
