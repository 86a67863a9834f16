(** Model of the initialization vectors of BPSec confidentiality (common/bpsec/src/InitializationVectors.cpp,
    common/bpsec/include/InitializationVectors.h) and of their use by a security source (BpSecPolicyManager.cpp:938-956,
    BpSecBundleProcessor.cpp:903-1107). *)
From Coq Require Import NArith List Bool.
From Verif Require Import Base.
Import ListNotations.
Open Scope N_scope.

(** memcpy of an unsigned integer of n bytes (InitializationVectors.cpp:46, 48, 63), on a little-endian machine. *)
Fixpoint to_le (n : nat) (v : N) : list N := match n with O => [] | S m => v mod 256 :: to_le m (v / 256) end.

(** InitializationVectors.h:29-49: InitializationVector12Byte and InitializationVector16Byte, m_timePart and m_counterPart; then the vectors of one thread
    (51-68), and a process: the static variable of Create (InitializationVectors.cpp:78) and the threads' vectors. *)
Record vector := mkV { time_part : N; counter_part : N }.
Record context := mkCtx { v12 : vector; v16 : vector }.
Record process := mkProc { last_time : N; contexts : list context }.

(** InitializationVectors.h:60. *)
Definition MIN_DIFF : N := 100000.

(** InitializationVectors.cpp:44-49 (width 4) and 62-64 (width 8; the two members are adjacent). *)
Definition serialize (width : nat) (v : vector) : list N := to_le 8 (time_part v) ++ to_le width (counter_part v).
(** 50-53 and 65-68: the counter has 32 or 64 bits. *)
Definition increment (m : N) (v : vector) : vector :=
  let c := (counter_part v + 1) mod m in mkV (add64 (time_part v) (if c =? 0 then 1 else 0)) c.

(** 71-74. *)
Definition new_context (t : N) : context := mkCtx (mkV t 0) (mkV t 0).

(** 75-101: the loop of Create. The list is the sequence of clock readings (GetMicrosecondsSinceEpochRfc5050, TimestampUtil.cpp:82-92), one
    per round of the loop, as many as there have been: None if the thread is still waiting after the last. The mutex makes the loop atomic;
    the sleeps have no effect but the time that passes. *)
Fixpoint create_loop (last : N) (readings : list N) : option N :=
  match readings with
  | [] => None
  | t :: r => if last <? t then (if MIN_DIFF <=? sub64 t last then Some t else create_loop last r) else create_loop last r
  end.

(** 103-114: the bytes that SerializeAndIncrement leaves in m_initializationVector. *)
Definition serialize_and_increment (use12 : bool) (c : context) : list N * context :=
  if use12 then (serialize 4 (v12 c), mkCtx (increment W32 (v12 c)) (v16 c))
  else (serialize 8 (v16 c), mkCtx (v12 c) (increment W64 (v16 c))).

Fixpoint upd {A} (n : nat) (x : A) (l : list A) : list A :=
  match l, n with [], _ => [] | _ :: r, O => x :: r | y :: r, S m => y :: upd m x r end.

(** What happens in a process: a thread asks for its vectors (BpSecPolicyManager.cpp:95-97; the contexts are at
    module/ingress/src/receive.cpp:1228, BpSourcePattern.cpp:277 and BpSinkPattern.cpp:37), or the thread that has context number i is the
    security source of a bundle, under a policy with the given key and the given size of the vector. The targets are the blocks that
    TryEncryptBundle gets to encrypting: all, or fewer if one of them is not there or cannot be encrypted (BpSecBundleProcessor.cpp:1004-1063). *)
Inductive op := Ask (readings : list N) | Secure (i : nat) (use12 : bool) (key : list N) (targets : list N).
(** What comes of it: a context with this time part, nothing yet, or the calls of AesGcmEncrypt for one bundle, with the vector that is
    sent in the bundle. *)
Inductive event := Created (t : N) | Waiting | Encrypted (i : nat) (iv : list N) (calls : list (list N * list N * N)).

(** BpSecBundleProcessor.cpp:1004-1063: every target is encrypted with the same key and the same vector (1054-1060); the vector is the one of
    the block that is added (940-941). *)
Definition encrypt_calls (key iv : list N) (targets : list N) : list (list N * list N * N) := map (fun t => (key, iv, t)) targets.

(** One step. None: there is no such context. *)
Definition step (s : process) (o : op) : option (process * event) :=
  match o with
  | Ask readings => match create_loop (last_time s) readings with
      | Some t => Some (mkProc t (contexts s ++ [new_context t]), Created t)
      | None => Some (s, Waiting)
      end
  | Secure i use12 key targets => match nth_error (contexts s) i with
      | Some c => let (iv, c1) := serialize_and_increment use12 c in
          Some (mkProc (last_time s) (upd i c1 (contexts s)), Encrypted i iv (encrypt_calls key iv targets))
      | None => None
      end
  end.

(** A process starts with staticLastTimeMicroseconds = 0 (78) and no contexts. *)
Definition started : process := mkProc 0 [].
Fixpoint run (s : process) (ops : list op) : option (list event) :=
  match ops with
  | [] => Some []
  | o :: r => match step s o with Some (s1, e) => option_map (cons e) (run s1 r) | None => None end
  end.
