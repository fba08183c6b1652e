(** Model of src/List.c, function by function.  No proofs here.

    Simplifications that hold for the whole file:
    - the [ZyanList*] parameter is a record that is passed in and returned, so the "list is NULL" checks of the C code
      have no counterpart;
    - results that C stores through an out-pointer are returned;
    - a pointer in memory takes 8 cells, each of which knows the pointer and its position in it; the alignment of
      nodes is not modelled. *)
From Verif Require Import Base Status Mem VectorModel.

(** A byte of memory: data, or the [k]-th byte of a pointer. *)
Inductive cell :=
| CByte (x : N)
| CPtr (p : option ptr) (k : N).
Notation M := (M cell).
Notation element := (list cell).

Definition ptr_eqb (p q : option ptr) : bool :=
  match p, q with
  | None, None => true
  | Some p, Some q => (pb p =? pb q) && (po p =? po q)
  | _, _ => false
  end.
Definition cell_eqb (a b : cell) : bool :=
  match a, b with
  | CByte x, CByte y => x =? y
  | CPtr p k, CPtr q j => ptr_eqb p q && (k =? j)
  | _, _ => false
  end.
Fixpoint cells_eqb (a b : list cell) : bool :=
  match a, b with
  | [], [] => true
  | x :: a, y :: b => cell_eqb x y && cells_eqb a b
  | _, _ => false
  end.
(** The bytes of a pointer, and the pointer some bytes represent. *)
Definition enc (p : option ptr) : list cell := map (CPtr p) [0; 1; 2; 3; 4; 5; 6; 7].
Definition dec (x : list cell) : option (option ptr) :=
  match x with
  | CPtr p _ :: _ => if cells_eqb x (enc p) then Some p else None
  | _ => None
  end.
Definition load_ptr (a : option ptr) : M (option ptr) :=
  let* x := mread a 8 in match dec x with Some p => ret p | None => fail BadPointer end.
Definition store_ptr (a p : option ptr) : M unit := mwrite a (enc p).

(** struct ZyanListNode_, include/Zycore/List.h:54-64: "prev" at offset 0, "next" at offset 8, size 16. *)
Definition NODE_SIZE : N := 16.
Definition get_prev (node : option ptr) : M (option ptr) := load_ptr node.
Definition get_next (node : option ptr) : M (option ptr) := load_ptr (padd node 8).
Definition set_prev (node p : option ptr) : M unit := store_ptr node p.
Definition set_next (node p : option ptr) : M unit := store_ptr (padd node 8) p.
(** ZYCORE_LIST_GET_NODE_DATA, src/List.c:41-42. *)
Definition node_data (node : option ptr) : option ptr := padd node NODE_SIZE.

(** struct ZyanList_, include/Zycore/List.h:72-125.  [l_alloc] tells whether the allocator field is non-NULL (the
    allocator itself is the oracle of the world). *)
Record zlist := mklist {
  l_alloc  : bool;
  l_size   : N;
  l_esz    : N;
  l_dtor   : option (element -> element);
  l_head   : option ptr;
  l_tail   : option ptr;
  l_buffer : option ptr;
  l_cap    : N;
  l_unused : option ptr
}.
Definition put_size (l : zlist) (n : N) : zlist :=
  mklist (l_alloc l) n (l_esz l) (l_dtor l) (l_head l) (l_tail l) (l_buffer l) (l_cap l) (l_unused l).
Definition put_head (l : zlist) (p : option ptr) : zlist :=
  mklist (l_alloc l) (l_size l) (l_esz l) (l_dtor l) p (l_tail l) (l_buffer l) (l_cap l) (l_unused l).
Definition put_tail (l : zlist) (p : option ptr) : zlist :=
  mklist (l_alloc l) (l_size l) (l_esz l) (l_dtor l) (l_head l) p (l_buffer l) (l_cap l) (l_unused l).
Definition put_unused (l : zlist) (p : option ptr) : zlist :=
  mklist (l_alloc l) (l_size l) (l_esz l) (l_dtor l) (l_head l) (l_tail l) (l_buffer l) (l_cap l) p.
(** "sizeof(ZyanListNode) + list->element_size". *)
Definition lnode_size (l : zlist) : N := wadd NODE_SIZE (l_esz l).

(** ** Helper functions *)
(** ZyanListAllocateNode, src/List.c:60-90. *)
Definition lalloc_node (l : zlist) : M (status * zlist * option ptr) :=
  if l_alloc l then
    let* (st, p) := alloc (lnode_size l) 1 in
    ret (st, l, p)
  else if nonnull (l_unused l) then
    let* next := get_next (l_unused l) in
    ret (ST_SUCCESS, put_unused l next, l_unused l)
  else
    let size := wmul (l_size l) (lnode_size l) in
    if l_cap l <? wadd size (lnode_size l) then ret (ST_INSUFFICIENT_BUFFER_SIZE, l, None)
    else ret (ST_SUCCESS, l, padd (l_buffer l) size).
(** ZyanListDeallocateNode, src/List.c:100-118. *)
Definition ldealloc_node (l : zlist) (node : option ptr) : M (status * zlist) :=
  if l_alloc l then
    let* st := dealloc node (lnode_size l) 1 in
    ret (st, l)
  else
    set_next node (l_unused l) ;;;
    ret (ST_SUCCESS, put_unused l node).
(** "if (list->destructor) list->destructor(ZYCORE_LIST_GET_NODE_DATA(node))". *)
Definition destroy_node (l : zlist) (node : option ptr) : M unit :=
  match l_dtor l with
  | None => ret tt
  | Some f => call_dtor f (node_data node) (l_esz l)
  end.

(** ** Constructor and destructor *)
(** ZyanListInitEx, src/List.c:140-159.  [allocator = false] stands for a NULL allocator; on INVALID_ARGUMENT the list
    is left untouched, hence no list is returned. *)
Definition linit_ex (esz : N) (dtor : option (element -> element)) (allocator : bool) : M (status * option zlist) :=
  if (esz =? 0) || negb allocator then ret (ST_INVALID_ARGUMENT, None)
  else ret (ST_SUCCESS, Some (mklist true 0 esz dtor None None None 0 None)).
(** ZyanListInit, src/List.c:132-136. *)
Definition linit (esz : N) (dtor : option (element -> element)) : M (status * option zlist) := linit_ex esz dtor true.
(** ZyanListInitCustomBuffer, src/List.c:161-180. *)
Definition linit_custom (esz : N) (dtor : option (element -> element)) (buffer : option ptr) (capacity : N)
    : M (status * option zlist) :=
  if (esz =? 0) || negb (nonnull buffer) || (capacity =? 0) then ret (ST_INVALID_ARGUMENT, None)
  else ret (ST_SUCCESS, Some (mklist false 0 esz dtor None None buffer capacity None)).

(** The loops "while (node)" of Destroy and of ResizeEx(0), src/List.c:193-209 and 576-592, with fuel. *)
Fixpoint destroy_loop (l : zlist) (node : option ptr) (fuel : nat) : M status :=
  match node with
  | None => ret ST_SUCCESS
  | Some _ =>
      match fuel with
      | O => fail OutOfFuel
      | S fuel =>
          destroy_node l node ;;;
          let* next := get_next node in
          let* st := if l_alloc l then dealloc node (lnode_size l) 1 else ret ST_SUCCESS in
          if negb (st_success st) then ret st else
          destroy_loop l next fuel
      end
  end.
(** The loop with its initialisation, src/List.c:191-209 and 574-592. *)
Definition destroy_all (l : zlist) : M status :=
  destroy_loop l (if l_alloc l || nonnull (l_dtor l) then l_head l else None) (N.to_nat (l_size l)).
(** ZyanListDestroy, src/List.c:182-212.  The list keeps its (now dangling) head and tail. *)
Definition ldestroy (l : zlist) : M (status * zlist) :=
  assert (negb (l_esz l =? 0)) ;;;
  let* st := destroy_all l in
  ret (st, l).

(** ** Item access *)
(** ZyanListGetHeadNode, src/List.c:224-234; ZyanListGetTailNode, 236-246. *)
Definition lget_head (l : zlist) : status * option ptr := (ST_SUCCESS, l_head l).
Definition lget_tail (l : zlist) : status * option ptr := (ST_SUCCESS, l_tail l).
(** ZyanListGetPrevNode, src/List.c:248-258; ZyanListGetNextNode, 260-270: status and new value of [*node]. *)
Definition lget_prev_node (node : option ptr) : M (status * option ptr) :=
  if negb (nonnull node) then ret (ST_INVALID_ARGUMENT, node) else
  let* p := get_prev node in ret (ST_SUCCESS, p).
Definition lget_next_node (node : option ptr) : M (status * option ptr) :=
  if negb (nonnull node) then ret (ST_INVALID_ARGUMENT, node) else
  let* p := get_next node in ret (ST_SUCCESS, p).
(** ZyanListGetNodeData, src/List.c:272-280; ZyanListGetNodeDataMutable, 294-302. *)
Definition lget_node_data (node : option ptr) : option ptr := if nonnull node then node_data node else None.
(** ZyanListGetNodeDataEx, src/List.c:282-292; ZyanListGetNodeDataMutableEx, 304-314. *)
Definition lget_node_data_ex (node : option ptr) : status * option ptr :=
  if nonnull node then (ST_SUCCESS, node_data node) else (ST_INVALID_ARGUMENT, None).
(** ZyanListSetNodeData, src/List.c:316-332. *)
Definition lset_node_data (l : zlist) (node value : option ptr) : M status :=
  if negb (nonnull node) || negb (nonnull value) then ret ST_INVALID_ARGUMENT else
  destroy_node l node ;;;
  assert (negb (l_esz l =? 0)) ;;;
  memcpy (node_data node) value (l_esz l) ;;;
  ret ST_SUCCESS.

(** ** Insertion *)
(** The end of PushBack, EmplaceBack and of the growing loop, src/List.c:351-361, 411-421 and 615-626. *)
Definition link_back (l : zlist) (node : option ptr) : M zlist :=
  if negb (nonnull (l_head l))
  then ret (put_size (put_tail (put_head l node) node) (wadd (l_size l) 1))
  else set_next (l_tail l) node ;;; ret (put_size (put_tail l node) (wadd (l_size l) 1)).
(** The end of PushFront and EmplaceFront, src/List.c:379-389 and 443-453. *)
Definition link_front (l : zlist) (node : option ptr) : M zlist :=
  if negb (nonnull (l_head l))
  then ret (put_size (put_tail (put_head l node) node) (wadd (l_size l) 1))
  else set_prev (l_head l) node ;;; ret (put_size (put_head l node) (wadd (l_size l) 1)).
(** ZyanListPushBack, src/List.c:338-364. *)
Definition lpush_back (l : zlist) (item : option ptr) : M (status * zlist) :=
  if negb (nonnull item) then ret (ST_INVALID_ARGUMENT, l) else
  let* (st, l, node) := lalloc_node l in
  if negb (st_success st) then ret (st, l) else
  set_prev node (l_tail l) ;;;
  set_next node None ;;;
  memcpy (node_data node) item (l_esz l) ;;;
  let* l := link_back l node in
  ret (ST_SUCCESS, l).
(** ZyanListPushFront, src/List.c:366-392. *)
Definition lpush_front (l : zlist) (item : option ptr) : M (status * zlist) :=
  if negb (nonnull item) then ret (ST_INVALID_ARGUMENT, l) else
  let* (st, l, node) := lalloc_node l in
  if negb (st_success st) then ret (st, l) else
  set_prev node None ;;;
  set_next node (l_head l) ;;;
  memcpy (node_data node) item (l_esz l) ;;;
  let* l := link_front l node in
  ret (ST_SUCCESS, l).
(** Call of a constructor callback; its status is ignored by the callers.  It may change the element. *)
Definition call_ctor (f : option (element -> element)) (p : option ptr) (esz : N) : M unit :=
  match f with
  | None => ret tt
  | Some f => let* x := mread p esz in mwrite p (f x)
  end.
(** ZyanListEmplaceBack, src/List.c:394-424: status, list and the new value of [*item]. *)
Definition lemplace_back (l : zlist) (ctor : option (element -> element)) : M (status * zlist * option ptr) :=
  let* (st, l, node) := lalloc_node l in
  if negb (st_success st) then ret (st, l, None) else
  set_prev node (l_tail l) ;;;
  set_next node None ;;;
  call_ctor ctor (node_data node) (l_esz l) ;;;
  let* l := link_back l node in
  ret (ST_SUCCESS, l, node_data node).
(** ZyanListEmplaceFront, src/List.c:426-456. *)
Definition lemplace_front (l : zlist) (ctor : option (element -> element)) : M (status * zlist * option ptr) :=
  let* (st, l, node) := lalloc_node l in
  if negb (st_success st) then ret (st, l, None) else
  set_prev node None ;;;
  set_next node (l_head l) ;;;
  call_ctor ctor (node_data node) (l_esz l) ;;;
  let* l := link_front l node in
  ret (ST_SUCCESS, l, node_data node).

(** ** Deletion *)
(** ZyanListPopBack, src/List.c:462-492. *)
Definition lpop_back (l : zlist) : M (status * zlist) :=
  if negb (nonnull (l_tail l)) then ret (ST_INVALID_OPERATION, l) else
  let node := l_tail l in
  destroy_node l node ;;;
  let* prev := get_prev node in
  let l := put_tail l prev in
  (if nonnull (l_tail l) then set_next (l_tail l) None else ret tt) ;;;
  let l := if ptr_eqb (l_head l) node then put_head l (l_tail l) else l in
  ldealloc_node (put_size l (wsub (l_size l) 1)) node.
(** ZyanListPopFront, src/List.c:494-524. *)
Definition lpop_front (l : zlist) : M (status * zlist) :=
  if negb (nonnull (l_head l)) then ret (ST_INVALID_OPERATION, l) else
  let node := l_head l in
  destroy_node l node ;;;
  let* next := get_next node in
  let l := put_head l next in
  (if nonnull (l_head l) then set_prev (l_head l) None else ret tt) ;;;
  let l := if ptr_eqb (l_tail l) node then put_tail l (l_head l) else l in
  ldealloc_node (put_size l (wsub (l_size l) 1)) node.
(** ZyanListRemove, src/List.c:526-531; ZyanListRemoveRange, 533-539. *)
Definition lremove (l : zlist) (node : option ptr) : M (status * zlist) := ret (ST_SUCCESS, l).
Definition lremove_range (l : zlist) (first last : option ptr) : M (status * zlist) := ret (ST_SUCCESS, l).

(** ** Memory management *)
(** The growing loop, src/List.c:606-627, [n] iterations. *)
Fixpoint grow_loop (l : zlist) (init : option ptr) (n : nat) : M (status * zlist) :=
  match n with
  | O => ret (ST_SUCCESS, l)
  | S n =>
      let* (st, l, node) := lalloc_node l in
      if negb (st_success st) then ret (st, l) else
      set_prev node (l_tail l) ;;;
      set_next node None ;;;
      (if nonnull init then memcpy (node_data node) init (l_esz l) else ret tt) ;;;
      let* l := link_back l node in
      grow_loop l init n
  end.
(** The shrinking loop, src/List.c:630-647, [n] iterations. *)
Fixpoint shrink_loop (l : zlist) (n : nat) : M (status * zlist) :=
  match n with
  | O => ret (ST_SUCCESS, l)
  | S n =>
      let node := l_tail l in
      destroy_node l node ;;;
      let* prev := get_prev node in
      let l := put_tail l prev in
      (if nonnull (l_tail l) then set_next (l_tail l) None else ret tt) ;;;
      let* (st, l) := ldealloc_node l node in
      if negb (st_success st) then ret (st, l) else
      shrink_loop l n
  end.
(** ZyanListResizeEx, src/List.c:561-653. *)
Definition lresize_ex (l : zlist) (size : N) (init : option ptr) : M (status * zlist) :=
  if size =? l_size l then ret (ST_SUCCESS, l) else
  if size =? 0 then
    let* st := destroy_all l in
    if negb (st_success st) then ret (st, l) else
    ret (ST_SUCCESS, put_unused (put_tail (put_head (put_size l 0) None) None) None)
  else if l_size l <? size then grow_loop l init (N.to_nat (size - l_size l))
  else
    let* (st, l) := shrink_loop l (N.to_nat (l_size l - size)) in
    if negb (st_success st) then ret (st, l) else
    ret (ST_SUCCESS, put_size l size).
(** ZyanListResize, src/List.c:556-559; ZyanListClear, 541-544. *)
Definition lresize (l : zlist) (size : N) : M (status * zlist) := lresize_ex l size None.
Definition lclear (l : zlist) : M (status * zlist) := lresize_ex l 0 None.
(** ZyanListGetSize, src/List.c:659-669. *)
Definition lget_size (l : zlist) : status * N := (ST_SUCCESS, l_size l).
