(** Model of common/util/src/TokenRateLimiter.cpp. Times are boost::posix_time ticks (int64, microseconds); the special
    values (not_a_date_time, infinities) that SetRate and AddTime ignore are not modelled. *)
From Coq Require Import ZArith List Bool.
Import ListNotations.
Open Scope Z_scope.

(** int64_t arithmetic: a result outside the range is undefined behaviour. *)
Definition I64 : Z := 9223372036854775808.
Definition s64 (x : Z) : option Z := if (- I64 <=? x) && (x <? I64) then Some x else None.
(** uint64_t to int64_t conversion (two's complement). *)
Definition u64_to_s64 (x : Z) : Z := let y := x mod (2 * I64) in if y <? I64 then y else y - 2 * I64.

(** TokenRateLimiter.h members. *)
Record rl := mkRl { rl_rate : Z; rl_interval : Z; rl_limit : Z; rl_remain : Z }.
(** TokenRateLimiter.cpp:25-34 SetRate. *)
Definition rl_set (tokens interval window : Z) : option rl :=
  match s64 (tokens * window) with None => None | Some l => Some (mkRl tokens interval l l) end.
(** TokenRateLimiter.cpp:36-45 AddTime. *)
Definition rl_add (st : rl) (d : Z) : option rl :=
  match s64 (rl_rate st * d) with
  | None => None
  | Some delta =>
    match s64 (rl_remain st + delta) with
    | None => None
    | Some r => Some (mkRl (rl_rate st) (rl_interval st) (rl_limit st) (if rl_limit st <? r then rl_limit st else r))
    end
  end.
(** TokenRateLimiter.cpp:47-49 GetRemainingTokens: C++ division truncates; by zero is undefined. *)
Definition rl_tokens (st : rl) : option Z := if rl_interval st =? 0 then None else Some (Z.quot (rl_remain st) (rl_interval st)).
(** TokenRateLimiter.cpp:51-53 HasFullBucketOfTokens. *)
Definition rl_full (st : rl) : bool := rl_remain st =? rl_limit st.
(** TokenRateLimiter.cpp:64-66 CanTakeTokens. *)
Definition rl_can (st : rl) : bool := 0 <=? rl_remain st.
(** TokenRateLimiter.cpp:55-62 TakeTokens: the product is computed in uint64_t and converted. *)
Definition rl_take (st : rl) (n : Z) : option (rl * bool) :=
  if rl_remain st <? 0 then Some (st, false)
  else match s64 (rl_remain st - u64_to_s64 (n * rl_interval st)) with
       | None => None
       | Some r => Some (mkRl (rl_rate st) (rl_interval st) (rl_limit st) r, true)
       end.
