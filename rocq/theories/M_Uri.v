(** Model of common/util/src/Uri.cpp: the text form "ipn:<node>.<service>" of an endpoint id.
    A text is the list of its character codes. Not modelled: the iterator overload of ParseIpnSspString (lines
    77-103), which nothing calls. Outputs of a failed parse (the node number may already have been overwritten) are
    not modelled. *)
From Coq Require Import NArith List Bool.
From Verif Require Import Base.
Import ListNotations.
Open Scope N_scope.

(** What printf's PRIu64 and boost::format's %d give for an unsigned integer in the classic locale: decimal digits,
    no sign, no padding. Library behaviour, used at Uri.cpp:25-27, 31-33 and 40. [fuel] bounds the digit count. *)
Fixpoint dec_loop (fuel : nat) (v : N) : list N :=
  match fuel with
  | O => []
  | S f => if v <? 10 then [48 + v] else dec_loop f (v / 10) ++ [48 + v mod 10]
  end.
Definition dec (v : N) : list N := dec_loop 20 v.

(** Uri.cpp:24-29 GetIpnUriString. *)
Definition uri_string (node service : N) : list N := [105; 112; 110; 58] ++ dec node ++ [46] ++ dec service.
(** Uri.cpp:30-35 GetIpnUriStringAnyServiceNumber. *)
Definition uri_any_service (node : N) : list N := [105; 112; 110; 58] ++ dec node ++ [46; 42].

(** snprintf into a buffer of [length buf] bytes (C library): the text cut to what fits, then a zero byte; nothing
    when the buffer has size 0. The rest of the buffer is unchanged. *)
Definition snprintf (text buf : list N) : list N :=
  match buf with
  | [] => []
  | _ => let k := Nat.min (length text) (length buf - 1) in firstn k text ++ [0] ++ skipn (S k) buf
  end.
(** Uri.cpp:37-45 WriteIpnUriCstring: (returned size, buffer afterwards). snprintf's negative return (an output
    error) cannot happen for this format. *)
Definition uri_write (node service : N) (buf : list N) : N * list N :=
  let text := uri_string node service in
  let returned := N.of_nat (length text) in
  ((if N.of_nat (length buf) <=? returned then 0 else returned + 1), snprintf text buf).

(** Uri.cpp:153-218 bitScanIndexMinValStrLengths. *)
Definition min_len_of_msb : list N :=
  [1; 1; 1; 1; 2; 2; 2; 3; 3; 3; 4; 4; 4; 4; 5; 5; 5; 6; 6; 6; 7; 7; 7; 7; 8; 8; 8; 9; 9; 9; 10; 10; 10; 10;
   11; 11; 11; 12; 12; 12; 13; 13; 13; 13; 14; 14; 14; 15; 15; 15; 16; 16; 16; 16; 17; 17; 17; 18; 18; 18;
   19; 19; 19; 19].
(** Uri.cpp:219-240 tenToThe. *)
Definition ten_to_the : list N :=
  [1; 10; 100; 1000; 10000; 100000; 1000000; 10000000; 100000000; 1000000000; 10000000000; 100000000000;
   1000000000000; 10000000000000; 100000000000000; 1000000000000000; 10000000000000000; 100000000000000000;
   1000000000000000000; 10000000000000000000].
(** Uri.cpp:242-250 GetStringLengthOfUint; None = a table read out of bounds. find_msb is the index of the highest
    set bit. *)
Definition uint_len (val : N) : option N :=
  let msb := N.log2 (val + N.b2n (val =? 0)) in
  match nth_error min_len_of_msb (N.to_nat msb) with
  | None => None
  | Some low =>
    match nth_error ten_to_the (N.to_nat low) with
    | None => None
    | Some t => Some (low + N.b2n (t <=? val))
    end
  end.
(** Uri.cpp:46-48 GetIpnUriCstringLengthRequiredIncludingNullTerminator. *)
Definition uri_cstring_len (node service : N) : option N :=
  match uint_len node, uint_len service with
  | Some a, Some b => Some (6 + a + b)
  | _, _ => None
  end.

(** boost::lexical_cast<uint64_t>(chars, count) in the classic locale (Boost library behaviour, used at Uri.cpp:126
    and 141); None = bad_lexical_cast. One leading '+' or '-' is accepted, then at least one digit and nothing else;
    the magnitude must fit 64 bits; a '-' negates it modulo 2^64. *)
Fixpoint lex_digits (acc : N) (s : list N) : option N :=
  match s with
  | [] => Some acc
  | c :: r =>
    if (48 <=? c) && (c <=? 57) then
      let acc' := 10 * acc + (c - 48) in if acc' <? W64 then lex_digits acc' r else None
    else None
  end.
Definition lex_unsigned (s : list N) : option N := match s with [] => None | _ => lex_digits 0 s end.
Definition lex_u64 (s : list N) : option N :=
  match s with
  | 45 :: r => match lex_unsigned r with Some v => Some (sub64 0 v) | None => None end
  | 43 :: r => lex_unsigned r
  | _ => lex_unsigned s
  end.

(** Uri.cpp:106-116, the scan for the dot: Some None = no dot, Some (Some i) = exactly one at [i], None = a second
    one was seen. *)
Fixpoint find_dot (i : nat) (seen : option nat) (s : list N) : option (option nat) :=
  match s with
  | [] => Some seen
  | c :: r =>
    if c =? 46 then match seen with None => find_dot (S i) (Some i) r | Some _ => None end
    else find_dot (S i) seen r
  end.
(** What a successful parse reports as the service: a number, or the wildcard flag with the service left alone. *)
Inductive service := Svc (n : N) | AnySvc.
(** Uri.cpp:105-151 ParseIpnSspString. [wild] = a wildcard flag pointer was passed. Result None = false. *)
Definition parse_ssp (wild : bool) (data : list N) : option (N * service) :=
  match find_dot 0 None data with
  | Some (Some i) =>
    let s1 := firstn i data in
    let s2 := skipn (S i) data in
    if negb (Nat.eqb (length s1) 0) && negb (Nat.eqb (length s2) 0) then
      match lex_u64 s1 with
      | None => None
      | Some node =>
        if wild && Nat.eqb (length s2) 1 && (hd 0 s2 =? 42) then Some (node, AnySvc)
        else match lex_u64 s2 with None => None | Some sv => Some (node, Svc sv) end
      end
    else None
  | _ => None
  end.

(** Uri.cpp:51 and 70, the test of the first characters: long enough and starting with "ipn:". *)
Definition ipn_prefix (s : list N) : bool :=
  (7 <=? N.of_nat (length s)) && (nth 0 s 0 =? 105) && (nth 1 s 0 =? 112) && (nth 2 s 0 =? 110) && (nth 3 s 0 =? 58).
(** Uri.cpp:50-56 ParseIpnUriString. *)
Definition parse_uri_string (wild : bool) (uri : list N) : option (N * service) :=
  if ipn_prefix uri then parse_ssp wild (skipn 4 uri) else None.
(** Uri.cpp:58-69: the characters before the first zero byte, None when the buffer ends first. *)
Fixpoint cstring (data : list N) : option (list N) :=
  match data with
  | [] => None
  | c :: r => if c =? 0 then Some [] else match cstring r with Some s => Some (c :: s) | None => None end
  end.
(** Uri.cpp:57-75 ParseIpnUriCstring: (bytes decoded including the zero byte, node, service). *)
Definition parse_uri_cstring (wild : bool) (data : list N) : option (N * (N * service)) :=
  match cstring data with
  | None => None
  | Some s =>
    if ipn_prefix s then
      match parse_ssp wild (skipn 4 s) with
      | Some x => Some (N.of_nat (length s) + 1, x)
      | None => None
      end
    else None
  end.
