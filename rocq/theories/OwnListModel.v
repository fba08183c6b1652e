(** The list calls that run the destructor, for destructors that are programs (as [OwnModel.v] for vectors).

    In [ListModel.v] a destructor changes the bytes of its element and nothing else.  Here it is any program [d] that gets the
    address of the element; the field [l_dtor] of the list is not used.  Calls that run no destructor are those of
    [ListModel.v]. *)
From Verif Require Import Base Status Mem VectorModel ListModel.

Section OwnList.
  Variable d : option ptr -> M unit.

  (** The loops "while (node)" of Destroy and of ResizeEx(0), src/List.c:191-209 and 574-592, with fuel; they start at the
      head as there is a destructor. *)
  Fixpoint oldestroy_loop (l : zlist) (node : option ptr) (fuel : nat) : M status :=
    match node with
    | None => ret ST_SUCCESS
    | Some _ =>
        match fuel with
        | O => fail OutOfFuel
        | S fuel =>
            d (node_data node) ;;;
            let* next := get_next node in
            let* st := if l_alloc l then dealloc node (lnode_size l) 1 else ret ST_SUCCESS in
            if negb (st_success st) then ret st else
            oldestroy_loop l next fuel
        end
    end.
  Definition oldestroy_all (l : zlist) : M status := oldestroy_loop l (l_head l) (N.to_nat (l_size l)).
  (** ZyanListDestroy, src/List.c:182-212. *)
  Definition oldestroy (l : zlist) : M (status * zlist) :=
    assert (negb (l_esz l =? 0)) ;;;
    let* st := oldestroy_all l in
    ret (st, l).

  (** ZyanListSetNodeData, src/List.c:316-332. *)
  Definition olset_node_data (l : zlist) (node value : option ptr) : M status :=
    if negb (nonnull node) || negb (nonnull value) then ret ST_INVALID_ARGUMENT else
    d (node_data node) ;;;
    assert (negb (l_esz l =? 0)) ;;;
    memcpy (node_data node) value (l_esz l) ;;;
    ret ST_SUCCESS.

  (** ZyanListPopBack, src/List.c:462-492. *)
  Definition olpop_back (l : zlist) : M (status * zlist) :=
    if negb (nonnull (l_tail l)) then ret (ST_INVALID_OPERATION, l) else
    let node := l_tail l in
    d (node_data node) ;;;
    let* prev := get_prev node in
    let l := put_tail l prev in
    (if nonnull (l_tail l) then set_next (l_tail l) None else ret tt) ;;;
    let l := if ptr_eqb (l_head l) node then put_head l (l_tail l) else l in
    ldealloc_node (put_size l (wsub (l_size l) 1)) node.
  (** ZyanListPopFront, src/List.c:494-524. *)
  Definition olpop_front (l : zlist) : M (status * zlist) :=
    if negb (nonnull (l_head l)) then ret (ST_INVALID_OPERATION, l) else
    let node := l_head l in
    d (node_data node) ;;;
    let* next := get_next node in
    let l := put_head l next in
    (if nonnull (l_head l) then set_prev (l_head l) None else ret tt) ;;;
    let l := if ptr_eqb (l_tail l) node then put_tail l (l_head l) else l in
    ldealloc_node (put_size l (wsub (l_size l) 1)) node.

  (** The shrinking loop, src/List.c:630-647, [n] iterations. *)
  Fixpoint olshrink_loop (l : zlist) (n : nat) : M (status * zlist) :=
    match n with
    | O => ret (ST_SUCCESS, l)
    | S n =>
        let node := l_tail l in
        d (node_data node) ;;;
        let* prev := get_prev node in
        let l := put_tail l prev in
        (if nonnull (l_tail l) then set_next (l_tail l) None else ret tt) ;;;
        let* (st, l) := ldealloc_node l node in
        if negb (st_success st) then ret (st, l) else
        olshrink_loop l n
    end.
  (** ZyanListResizeEx, src/List.c:561-653, without an initialiser, that is ZyanListResize, src/List.c:556-559. *)
  Definition olresize (l : zlist) (size : N) : M (status * zlist) :=
    if size =? l_size l then ret (ST_SUCCESS, l) else
    if size =? 0 then
      let* st := oldestroy_all l in
      if negb (st_success st) then ret (st, l) else
      ret (ST_SUCCESS, put_unused (put_tail (put_head (put_size l 0) None) None) None)
    else if l_size l <? size then grow_loop l None (N.to_nat (size - l_size l))
    else
      let* (st, l) := olshrink_loop l (N.to_nat (l_size l - size)) in
      if negb (st_success st) then ret (st, l) else
      ret (ST_SUCCESS, put_size l size).
  (** ZyanListClear, src/List.c:541-544. *)
  Definition olclear (l : zlist) : M (status * zlist) := olresize l 0.
End OwnList.
