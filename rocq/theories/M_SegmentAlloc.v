(** Model of module/storage/src/MemoryManagerTreeArray.cpp (the disk segment allocator): a 6-level tree of
    64-bit words; bit = 1 means "free" (leaf) or "some free below" (inner). Level 0 is the leaf row
    (depthIndex 5 in the C++), level 5 the root row (depthIndex 0). *)
From Coq Require Import NArith List Bool.
From Verif Require Import Base.
Import ListNotations.
Open Scope N_scope.

(** BundleStorageConfig.h:33-48: MAX_TREE_ARRAY_DEPTH 6; segment_id_t is 32 or 64 bits wide ([idw] is 2^width). *)
Definition MAXSEGMENTS := 4294967292. (* UINT32_MAX - 3 *)
Definition top_level : nat := 5.

(** MemoryManagerTreeArray.h:117-121 members. m_bitMasks[5-k][i] is [mm_words k i]; the row sizes are fixed by
    AllocateRows (see [row_len]). The mutex is not modelled: each ThreadSafe call is one atomic step. *)
Record mm := mkMm { mm_max : N; mm_count : N; mm_words : nat -> N -> N }.

(** The repeated "longIndex >>= 6". *)
Fixpoint up (k : nat) (id : N) : N :=
  match k with O => id | S k' => N.shiftr (up k' id) 6 end.

(** MemoryManagerTreeArray.cpp:161-170 AllocateRows: number of words in the row of level k. *)
Definition row_len (max : N) (k : nat) : N := up (S k) max + 1.

(** MemoryManagerTreeArray.cpp:37-46, 161-170 constructor: all bits high, nothing allocated. *)
Definition mm_init (max : N) : mm := mkMm max 0 (fun _ _ => U64MAX).

Definition set_word (st : mm) (k : nat) (i w : N) : mm :=
  mkMm (mm_max st) (mm_count st)
       (fun k' i' => if Nat.eqb k' k && (i' =? i) then w else mm_words st k' i').

(** boost find_lsb for a non-zero word. *)
Fixpoint lsb_pos (p : positive) : N :=
  match p with xO q => 1 + lsb_pos q | _ => 0 end.
Definition lsb (w : N) : option N := match w with N0 => None | Npos p => Some (lsb_pos p) end.

(** MemoryManagerTreeArray.cpp:73-95 GetAndSetFirstFreeSegmentId at level k with the running segmentId [seg].
    None = out-of-range row access or find_lsb(0), both undefined. The three #ifdef variants of clearing the bit
    are the same function. *)
Fixpoint get_and_set (idw : N) (k : nat) (st : mm) (seg : N) : option (mm * N * bool) :=
  if row_len (mm_max st) k <=? seg then None
  else match lsb (mm_words st k seg) with
       | None => None
       | Some b =>
         let seg1 := (N.lor (N.shiftl seg 6) b) mod idw in
         let below := match k with
                      | O => Some (st, seg1, true)
                      | S k' => get_and_set idw k' st seg1
                      end in
         match below with
         | None => None
         | Some (st1, seg2, full) =>
           let st2 := if full && (seg2 <? mm_max st)
                      then set_word st1 k seg (N.ldiff (mm_words st1 k seg) (N.shiftl 1 b))
                      else st1 in
           Some (st2, seg2, mm_words st2 k seg =? 0)
         end
       end.

Inductive seg_res := Seg (id : N) | Full.

(** MemoryManagerTreeArray.cpp:97-104 GetAndSetFirstFreeSegmentId_NotThreadSafe. *)
Definition get_first_free (idw : N) (st : mm) : option (mm * seg_res) :=
  if mm_words st top_level 0 =? 0 then Some (st, Full)
  else match get_and_set idw top_level st 0 with
       | None => None
       | Some (st', seg, _) =>
         if mm_max st <=? seg then Some (st', Full)
         else Some (mkMm (mm_max st') (add64 (mm_count st') 1) (mm_words st'), Seg seg)
       end.

(** MemoryManagerTreeArray.cpp:106-118 IsSegmentFree. *)
Definition is_segment_free (st : mm) (id : N) : option bool :=
  if mm_max st <=? id then Some false
  else if row_len (mm_max st) 0 <=? N.shiftr id 6 then None
  else Some (negb (N.land (mm_words st 0 (N.shiftr id 6)) (N.shiftl 1 (N.land id 63)) =? 0)).

(** MemoryManagerTreeArray.cpp:140-152 the upward loop of FreeSegmentId. [n] rounds, starting at level k. *)
Fixpoint free_up (n k : nat) (li : N) (st : mm) : option mm :=
  match n with
  | O => Some st
  | S n' =>
    let b := N.land li 63 in
    let li' := N.shiftr li 6 in
    if row_len (mm_max st) k <=? li' then None
    else free_up n' (S k) li' (set_word st k li' (N.lor (mm_words st k li') (N.shiftl 1 b)))
  end.

(** MemoryManagerTreeArray.cpp:120-154 FreeSegmentId_NotThreadSafe. *)
Definition free_segment (st : mm) (id : N) : option (mm * bool) :=
  if mm_max st <=? id then Some (st, false)
  else
    let li := N.shiftr id 6 in
    if row_len (mm_max st) 0 <=? li then None
    else
      let mask := N.shiftl 1 (N.land id 63) in
      let w := mm_words st 0 li in
      let success := N.land w mask =? 0 in
      let st1 := set_word st 0 li (N.lor w mask) in
      if negb success then Some (st1, false)
      else match free_up top_level 1 li st1 with
           | None => None
           | Some st2 => Some (mkMm (mm_max st2) (sub64 (mm_count st2) 1) (mm_words st2), true)
           end.

(** MemoryManagerTreeArray.cpp:209-226 the upward loop of AllocateSegmentId. *)
Fixpoint alloc_up (n k : nat) (li : N) (child_full : bool) (st : mm) : option mm :=
  match n with
  | O => Some st
  | S n' =>
    if child_full then
      let b := N.land li 63 in
      let li' := N.shiftr li 6 in
      if row_len (mm_max st) k <=? li' then None
      else
        let w := N.ldiff (mm_words st k li') (N.shiftl 1 b) in
        alloc_up n' (S k) li' (w =? 0) (set_word st k li' w)
    else Some st
  end.

(** MemoryManagerTreeArray.cpp:184-229 AllocateSegmentId_NotThreadSafe. *)
Definition alloc_segment (st : mm) (id : N) : option (mm * bool) :=
  if mm_max st <=? id then Some (st, false)
  else
    let li := N.shiftr id 6 in
    if row_len (mm_max st) 0 <=? li then None
    else
      let mask := N.shiftl 1 (N.land id 63) in
      let w := mm_words st 0 li in
      let success := negb (N.land w mask =? 0) in
      let w' := N.ldiff w mask in
      let st1 := set_word st 0 li w' in
      if negb success then Some (st1, false)
      else match alloc_up top_level 1 li (w' =? 0) st1 with
           | None => None
           | Some st2 => Some (mkMm (mm_max st2) (add64 (mm_count st2) 1) (mm_words st2), true)
           end.

(** MemoryManagerTreeArray.cpp:239-241, 250-260: free a list of ids; the result is the conjunction. *)
Fixpoint free_list (st : mm) (ids : list N) : option (mm * bool) :=
  match ids with
  | [] => Some (st, true)
  | id :: r =>
    match free_segment st id with
    | None => None
    | Some (st1, ok) =>
      match free_list st1 r with None => None | Some (st2, ok2) => Some (st2, ok && ok2) end
    end
  end.

(** MemoryManagerTreeArray.cpp:231-248 AllocateSegments_ThreadSafe: [n] more ids to take, [got] those taken so
    far in order. Result: None inside = returned false (vector resized to 0). *)
Fixpoint alloc_n (idw : N) (st : mm) (n : nat) (got : list N) : option (mm * option (list N)) :=
  match n with
  | O => Some (st, Some got)
  | S n' =>
    match get_first_free idw st with
    | None => None
    | Some (st1, Seg id) => alloc_n idw st1 n' (got ++ [id])
    | Some (st1, Full) =>
      match free_list st1 got with None => None | Some (st2, _) => Some (st2, None) end
    end
  end.
Definition alloc_segments (idw : N) (st : mm) (n : nat) : option (mm * option (list N)) := alloc_n idw st n [].
