(** Model of common/ltp/src/LtpSessionRecreationPreventer.cpp and LtpRandomNumberGenerator.cpp. *)
From Coq Require Import NArith List Bool.
From Verif Require Import Base.
Import ListNotations.
Open Scope N_scope.

(** LtpSessionRecreationPreventer.h:65-74, the members: the unordered_set as its elements in some order, the vector,
    the flag and the index. *)
Record preventer := mkPrev { pv_num : N; pv_set : list N; pv_vec : list N; pv_full : bool; pv_next : N }.
(** Cpp:18-26 constructor. *)
Definition pv_new (n : N) : preventer := mkPrev n [] (repeat 0 (N.to_nat n)) false 0.
Definition set_has (s : list N) (x : N) : bool := existsb (N.eqb x) s.
(** unordered_set::erase(key): the set and whether one element was erased. *)
Definition set_erase (s : list N) (x : N) : list N * bool := (filter (fun y => negb (x =? y)) s, set_has s x).
(** vector operator[] write; out of range is undefined (None). *)
Fixpoint vec_write (l : list N) (i : nat) (x : N) : option (list N) :=
  match l, i with
  | [], _ => None
  | _ :: r, O => Some (x :: r)
  | y :: r, S k => match vec_write r k x with Some r' => Some (y :: r') | None => None end
  end.
(** Cpp:30-48 AddSession. Outer None = undefined behaviour. *)
Definition pv_add (p : preventer) (x : N) : option (preventer * bool) :=
  if set_has (pv_set p) x then Some (p, false)
  else
    let s := x :: pv_set p in
    let i := N.to_nat (pv_next p) in
    let evict := if pv_full p then match nth_error (pv_vec p) i with None => None | Some old => Some (set_erase s old) end
                 else Some (s, true) in
    match evict with
    | None => None
    | Some (s', false) => Some (mkPrev (pv_num p) s' (pv_vec p) (pv_full p) (pv_next p), false)
    | Some (s', true) =>
      match vec_write (pv_vec p) i x with
      | None => None
      | Some v => let n := add64 (pv_next p) 1 in
                  if pv_num p <=? n then Some (mkPrev (pv_num p) s' v true 0, true) else Some (mkPrev (pv_num p) s' v (pv_full p) n, true)
      end
    end.
(** Cpp:49-51 ContainsSession. *)
Definition pv_contains (p : preventer) (x : N) : bool := set_has (pv_set p) x.

(** LtpRandomNumberGenerator. [r] is what Rng::operator() (Cpp:56-72) returns: any 64-bit number. The state is
    m_birthdayParadoxPreventer_incrementalPart_U32 (initially 1, Cpp:97-102) and m_engineIndex. *)
Definition inc_new : N := 1.
(** Cpp:111-127 GetRandomSession64: the number and the next incremental part. *)
Definition session64 (idx inc r : N) : N * N :=
  let n := N.land (N.shiftl r 24 mod W64) 0xfffffffff000000 in
  let n := N.lor n (N.shiftl idx 61 mod W64) in
  let n := N.lor n inc in
  let i := N.land ((inc + 1) mod W32) 0xffffff in
  (n, if i =? 0 then 1 else i).
(** Cpp:133-137 GetPingSession64. *)
Definition ping64 (idx : N) : N := N.lor 0x1fffffffffffffff (N.shiftl idx 61 mod W64).
(** Cpp:143-149 GetRandomSerialNumber64. *)
Definition serial64 (r : N) : N := N.lor (N.land (N.shiftl r 16 mod W64) 0x7fffffffffff0000) 1.
(** Cpp:157-173 GetRandomSession32. *)
Definition session32 (idx inc r : N) : N * N :=
  let n := N.land (N.shiftl r 21 mod W64) 0xfe00000 in
  let n := N.lor n (N.shiftl idx 29 mod W64) in
  let n := N.lor n inc in
  let i := N.land ((inc + 1) mod W32) 0x1fffff in
  (n mod W32, if i =? 0 then 1 else i).
(** Cpp:179-183 GetPingSession32. *)
Definition ping32 (idx : N) : N := N.lor 0x1fffffff (N.shiftl idx 29 mod W64) mod W32.
(** Cpp:189-195 GetRandomSerialNumber32. *)
Definition serial32 (r : N) : N := N.lor (N.land (N.shiftl r 16 mod W64) 0x7fff0000) 1 mod W32.
(** Cpp:209-214 GetEngineIndexFromRandomSessionNumber. *)
Definition engine_index (n : N) : N :=
  let i64 := N.shiftr n 61 mod 256 in
  let is32 := if i64 =? 0 then 1 else 0 in
  ((N.shiftr n 29 mod 256) * is32 + i64) mod 256.
(** Cpp:215-224 IsPingSession. *)
Definition is_ping (n : N) (is32 : bool) : bool :=
  if is32 then N.land 0x00ffffff n =? 0x00ffffff else N.land 0xffffffffffffff n =? 0xffffffffffffff.
(** Successive calls on one generator. *)
Fixpoint sessions (gen : N -> N -> N -> N * N) (idx inc : N) (rs : list N) : list N :=
  match rs with
  | [] => []
  | r :: rest => let '(n, inc') := gen idx inc r in n :: sessions gen idx inc' rest
  end.
