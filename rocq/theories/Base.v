(* Bytes, C strings, ctype.h in the "C" locale, fixed-width unsigned
   arithmetic and a few list utilities shared by all model files. *)
From Coq Require Export String Ascii List NArith ZArith Bool.
Export ListNotations.
Open Scope list_scope.

(* A C string is modelled by the list of its bytes, without the final NUL. *)
Definition bytes := list ascii.

(* Literal C strings. *)
Definition lit (s : string) : bytes := list_ascii_of_string s.

(* unsigned char value of a byte *)
Definition code (c : ascii) : N := N_of_ascii c.

Definition chr (n : N) : ascii := ascii_of_N n.

(* Value of a byte held in a (signed, as on x86) plain char. *)
Definition schar (c : ascii) : Z :=
  let z := Z.of_N (code c) in if (z <? 128)%Z then z else (z - 256)%Z.

Definition NL : ascii := chr 10.
Definition CR : ascii := chr 13.
Definition TABCH : ascii := chr 9.
Definition SP : ascii := chr 32.
Definition DQ : ascii := chr 34.
Definition NUL : ascii := chr 0.

(* Shadow the polymorphic comparison on characters. *)
Definition ceq (x y : ascii) : bool := Ascii.eqb x y.

(* ctype.h, C locale; bytes >= 128 are in no class (glibc). *)
Definition is_digit (c : ascii) : bool := (48 <=? code c)%N && (code c <=? 57)%N.
Definition is_upper (c : ascii) : bool := (65 <=? code c)%N && (code c <=? 90)%N.
Definition is_lower (c : ascii) : bool := (97 <=? code c)%N && (code c <=? 122)%N.
Definition is_alpha (c : ascii) : bool := is_upper c || is_lower c.
Definition is_alnum (c : ascii) : bool := is_alpha c || is_digit c.
Definition to_upper (c : ascii) : ascii := if is_lower c then chr (code c - 32) else c.
Definition to_lower (c : ascii) : ascii := if is_upper c then chr (code c + 32) else c.

Definition digit_val (c : ascii) : N := (code c - 48)%N.

(* unsigned (32 bit), unsigned short (16 bit), unsigned char (8 bit) *)
Definition u32 (n : N) : N := (n mod 4294967296)%N.
Definition u16 (n : N) : N := (n mod 65536)%N.
Definition u8 (n : N) : N := (n mod 256)%N.

(* Lexicographic comparison of C strings through a key on bytes. A proper
   prefix is smaller because its NUL is smaller than any byte. *)
Fixpoint cmp_by (f : ascii -> N) (x y : bytes) : comparison :=
  match x, y with
  | [], [] => Eq
  | [], _ :: _ => Lt
  | _ :: _, [] => Gt
  | c :: x', d :: y' =>
      match N.compare (f c) (f d) with
      | Eq => cmp_by f x' y'
      | r => r
      end
  end.

(* strcmp (string.h): order of unsigned char values *)
Definition strcmp (x y : bytes) : comparison := cmp_by code x y.

(* STRICMP = strcasecmp (Shared/os.h:22): bytes compared after tolower *)
Definition stricmp (x y : bytes) : comparison := cmp_by (fun c => code (to_lower c)) x y.

Definition strieq (x y : bytes) : bool :=
  match stricmp x y with Eq => true | _ => false end.

(* STRNICMP(kw, s, strlen(kw)) == 0 (Shared/os.h:23): kw is a
   case-insensitive prefix of s. *)
Fixpoint striprefix (kw s : bytes) : bool :=
  match kw, s with
  | [], _ => true
  | _ :: _, [] => false
  | c :: kw', d :: s' => (code (to_lower c) =? code (to_lower d))%N && striprefix kw' s'
  end.

Fixpoint bytes_eqb (x y : bytes) : bool :=
  match x, y with
  | [], [] => true
  | c :: x', d :: y' => ceq c d && bytes_eqb x' y'
  | _, _ => false
  end.

(* The C string held in a buffer: the bytes before the first NUL. *)
Fixpoint cstr (l : bytes) : bytes :=
  match l with
  | [] => []
  | c :: r => if ceq c NUL then [] else c :: cstr r
  end.

Fixpoint span {A} (f : A -> bool) (l : list A) : list A * list A :=
  match l with
  | [] => ([], [])
  | x :: r => if f x then let (p, q) := span f r in (x :: p, q) else ([], l)
  end.

Fixpoint drop_while {A} (f : A -> bool) (l : list A) : list A :=
  match l with
  | [] => []
  | x :: r => if f x then drop_while f r else l
  end.

Fixpoint list_upd {A} (l : list A) (i : nat) (x : A) : list A :=
  match l, i with
  | [], _ => []
  | _ :: r, O => x :: r
  | y :: r, S j => y :: list_upd r j x
  end.

Fixpoint remove_nth {A} (l : list A) (i : nat) : list A :=
  match l, i with
  | [], _ => []
  | _ :: r, O => r
  | y :: r, S j => y :: remove_nth r j
  end.

(* Index of the first element satisfying f. *)
Fixpoint find_index {A} (f : A -> bool) (l : list A) : option nat :=
  match l with
  | [] => None
  | x :: r => if f x then Some O else option_map S (find_index f r)
  end.

(* printf("%u"): decimal digits without leading zeros. *)
Definition digit_char (d : N) : ascii := chr (48 + d).

Fixpoint dec_loop (fuel : nat) (n : N) (acc : bytes) : bytes :=
  match fuel with
  | O => acc
  | S f =>
      let acc' := digit_char (n mod 10) :: acc in
      if (n / 10 =? 0)%N then acc' else dec_loop f (n / 10) acc'
  end.

Definition dec_of_N (n : N) : bytes := dec_loop (S (N.size_nat n)) n [].

Definition dec_of_Z (z : Z) : bytes :=
  match z with
  | Zneg p => chr 45 :: dec_of_N (Npos p)
  | _ => dec_of_N (Z.to_N z)
  end.

(* while (isdigit( *s)) num = num * 10 + *s - '0'  with unsigned wrap:
   Basic/source.c:112-115 and Monitor/interactive.c:441-446. *)
Fixpoint read_u32_loop (acc : N) (s : bytes) : N * bytes :=
  match s with
  | c :: r => if is_digit c then read_u32_loop (u32 (10 * acc + digit_val c)) r else (acc, s)
  | [] => (acc, s)
  end.

Definition read_u32 (s : bytes) : N * bytes := read_u32_loop 0 s.

(* fgets(buf, size, fp) on a byte stream: at most size-1 bytes, stopping
   after a newline; None at end of file. Read errors are not modelled. *)
Fixpoint fgets_loop (n : nat) (s : bytes) : bytes * bytes :=
  match n, s with
  | O, _ => ([], s)
  | _, [] => ([], [])
  | S n', c :: r =>
      if ceq c NL then ([c], r)
      else let (l, r') := fgets_loop n' r in (c :: l, r')
  end.

Definition fgets (size : nat) (s : bytes) : option (bytes * bytes) :=
  match s with
  | [] => None
  | _ => Some (fgets_loop (size - 1) s)
  end.

Fixpoint last_opt {A} (l : list A) : option A :=
  match l with
  | [] => None
  | [x] => Some x
  | _ :: r => last_opt r
  end.
