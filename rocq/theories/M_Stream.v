(** The loop shared by the receive state machines (Tcpcl.cpp:73-418, TcpclV4.cpp, Ltp.cpp): take one byte of the chunk, run the state machine
    on it; the state machine may take further bytes of the same chunk. *)
From Coq Require Import NArith List.
Import ListNotations.

(** [step s b rest] = (new state, callbacks made, number of further bytes taken from [rest]); None = an exception or undefined behaviour.
    The fuel is the chunk length, every iteration takes at least one byte. *)
Fixpoint feed_loop {S O : Type} (step : S -> N -> list N -> option (S * list O * nat)) (fuel : nat) (s : S) (bytes : list N) : option (S * list O) :=
  match bytes with
  | [] => Some (s, [])
  | b :: r =>
    match fuel with
    | O => None
    | Datatypes.S f =>
      match step s b r with
      | None => None
      | Some (s', o, k) => match feed_loop step f s' (skipn k r) with None => None | Some (s'', o') => Some (s'', o ++ o') end
      end
    end
  end.
Definition feed {S O : Type} (step : S -> N -> list N -> option (S * list O * nat)) (s : S) (bytes : list N) : option (S * list O) :=
  feed_loop step (length bytes) s bytes.
(** One call per chunk. *)
Fixpoint feed_chunks {S O : Type} (step : S -> N -> list N -> option (S * list O * nat)) (s : S) (chunks : list (list N)) : option (S * list O) :=
  match chunks with
  | [] => Some (s, [])
  | c :: r => match feed step s c with None => None | Some (s', o) => match feed_chunks step s' r with None => None | Some (s'', o') => Some (s'', o ++ o') end end
  end.
