(** Model of common/slip_over_uart/src/slip.c, include/slip.h and the receive path of UartInterface.cpp. *)
From Coq Require Import NArith List Bool.
From Verif Require Import Base.
Import ListNotations.
Open Scope N_scope.

(** slip.h:22-25. *)
Definition SLIP_END : N := 0xC0.
Definition SLIP_ESC : N := 0xDB.
Definition SLIP_ESC_END : N := 0xDC.
Definition SLIP_ESC_ESC : N := 0xDD.
(** slip.c:74-90 SlipEncodeChar: the bytes placed in the output. *)
Definition slip_encode_char (c : N) : list N :=
  if c =? SLIP_END then [SLIP_ESC; SLIP_ESC_END] else if c =? SLIP_ESC then [SLIP_ESC; SLIP_ESC_ESC] else [c].
(** slip.c:42-68 SlipEncode: the loop body repeats SlipEncodeChar inline. The bytes written from the start of the output buffer, and the returned
    unsigned int. Bounds of the output buffer are the caller's; see the theorem on its length. *)
Definition slip_encode (input : list N) : list N * N :=
  let out := SLIP_END :: flat_map slip_encode_char input ++ [SLIP_END] in (out, N.of_nat (length out) mod W32).
(** slip.h:37-39, 50-73 SlipDecodeChar_Inline: state is m_previouslyReceivedChar; the result is 0, 1 with *outChar, or 2. *)
Inductive slip_ret := SlipMore | SlipChar (c : N) | SlipEnd.
Definition slip_decode_char (prev c : N) : N * slip_ret :=
  if c =? SLIP_ESC then (c, SlipMore)
  else if c =? SLIP_END then (prev, SlipEnd)
  else let w := if prev =? SLIP_ESC then if c =? SLIP_ESC_END then SLIP_END else if c =? SLIP_ESC_ESC then SLIP_ESC else c else c in (c, SlipChar w).
(** slip.c:92-94. *)
Definition slip_init : N := 0.

(** UartInterface.h members used by the receive path: m_slipDecodeState, *m_currentRxBundlePtr (None = NULL), m_rxBundleOverran; [ur_resets]
    counts ResetRxStates calls so that buffer availability can be an arbitrary function of it. *)
Record uart := mkUart { ur_prev : N; ur_cur : option (list N); ur_over : bool; ur_resets : N }.
(** UartInterface.cpp:241-258 ResetRxStates; [avail k]: at the [k]-th call the circular buffer has room. *)
Definition uart_reset (avail : N -> bool) (u : uart) : uart :=
  mkUart slip_init (if avail (ur_resets u) then Some [] else None) false (ur_resets u + 1).
(** UartInterface.cpp:268-309, one iteration; the second component is the bundle committed to the circular buffer, if any. *)
Definition uart_byte (avail : N -> bool) (maxsize : N) (u : uart) (c : N) : uart * list (list N) :=
  let '(prev, ret) := slip_decode_char (ur_prev u) c in
  match ret with
  | SlipMore => (mkUart prev (ur_cur u) (ur_over u) (ur_resets u), [])
  | SlipChar o =>
    match ur_cur u with
    | None => (mkUart prev None (ur_over u) (ur_resets u), [])
    | Some b => if N.of_nat (length b) <? maxsize then (mkUart prev (Some (b ++ [o])) (ur_over u) (ur_resets u), [])
                else (mkUart prev (Some b) true (ur_resets u), [])
    end
  | SlipEnd =>
    let done := match ur_cur u with Some (x :: b) => if ur_over u then [] else [x :: b] | _ => [] end in
    (uart_reset avail (mkUart prev (ur_cur u) (ur_over u) (ur_resets u)), done)
  end.
(** UartInterface.cpp:260-312 SerialReceiveSomeHandler on one chunk. *)
Fixpoint uart_chunk (avail : N -> bool) (maxsize : N) (u : uart) (bytes : list N) : uart * list (list N) :=
  match bytes with
  | [] => (u, [])
  | c :: r => let '(u1, o1) := uart_byte avail maxsize u c in let '(u2, o2) := uart_chunk avail maxsize u1 r in (u2, o1 ++ o2)
  end.
(** Successive chunks. *)
Fixpoint uart_chunks (avail : N -> bool) (maxsize : N) (u : uart) (chunks : list (list N)) : uart * list (list N) :=
  match chunks with
  | [] => (u, [])
  | c :: r => let '(u1, o1) := uart_chunk avail maxsize u c in let '(u2, o2) := uart_chunks avail maxsize u1 r in (u2, o1 ++ o2)
  end.
