(** Calls and the calls that undo them, over plain lists.  Nothing here mentions memory or the code. *)
From Verif Require Import Base Status VectorSpec StringSpec BitsetSpec ListSpec.

(** A session: [ops] were made one after the other, starting from the contents [x] and arriving at [z]; [undos] are the
    calls a client noted that take them back, the last one first. *)
Inductive session {O X : Type} (undo : X -> O -> O -> X -> Prop) : X -> list O -> list O -> X -> Prop :=
| session_nil x : session undo x [] [] x
| session_cons x o u y ops undos z :
    undo x o u y -> session undo y ops undos z -> session undo x (o :: ops) (undos ++ [u]) z.

(** [vundo xs o u ys]: on a vector with the elements [xs], the call [o] leaves [ys], and [u] takes that back. *)
Inductive vundo {C : Type} : list (list C) -> vop C -> vop C -> list (list C) -> Prop :=
| vundo_push xs x : vundo xs (OPushBack x) OPopBack (xs ++ [x])
| vundo_pop xs x : vundo (xs ++ [x]) OPopBack (OPushBack x) xs
| vundo_insert xs x ys : vundo (xs ++ ys) (OInsert (nlen xs) x) (ODelete (nlen xs)) (xs ++ [x] ++ ys)
| vundo_delete xs x ys : vundo (xs ++ [x] ++ ys) (ODelete (nlen xs)) (OInsert (nlen xs) x) (xs ++ ys)
| vundo_insert_range xs ms ys : ms <> [] ->
    vundo (xs ++ ys) (OInsertRange (nlen xs) ms) (ODeleteRange (nlen xs) (nlen ms)) (xs ++ ms ++ ys)
| vundo_delete_range xs ms ys : ms <> [] ->
    vundo (xs ++ ms ++ ys) (ODeleteRange (nlen xs) (nlen ms)) (OInsertRange (nlen xs) ms) (xs ++ ys)
| vundo_set xs x y ys : vundo (xs ++ [x] ++ ys) (OSet (nlen xs) y) (OSet (nlen xs) x) (xs ++ [y] ++ ys)
| vundo_clear xs : xs <> [] -> vundo xs OClear (OInsertRange 0 xs) []
| vundo_shorter xs ys : ys <> [] -> vundo (xs ++ ys) (OResize (nlen xs)) (OInsertRange (nlen xs) ys) xs
| vundo_longer xs x n : 0 < n -> vundo xs (OResizeEx (nlen xs + n) x) (OResize (nlen xs)) (xs ++ nrepeat x n)
| vundo_reserve xs n : vundo xs (OReserve n) OShrinkToFit xs.

(** The same for strings. *)
Inductive sundo : list N -> sop -> sop -> list N -> Prop :=
| sundo_append cs x : x <> [] -> sundo cs (SAppend x) (STruncate (nlen cs)) (cs ++ x)
| sundo_truncate cs x : x <> [] -> sundo (cs ++ x) (STruncate (nlen cs)) (SAppend x) cs
| sundo_insert cs x ds : x <> [] -> sundo (cs ++ ds) (SInsert (nlen cs) x) (SDelete (nlen cs) (nlen x)) (cs ++ x ++ ds)
| sundo_delete cs x ds : x <> [] -> sundo (cs ++ x ++ ds) (SDelete (nlen cs) (nlen x)) (SInsert (nlen cs) x) (cs ++ ds)
| sundo_set cs c d ds : sundo (cs ++ [c] ++ ds) (SSetChar (nlen cs) d) (SSetChar (nlen cs) c) (cs ++ [d] ++ ds)
| sundo_clear cs : sundo cs SClear (SAppend cs) []
| sundo_shorter cs x : sundo (cs ++ x) (SResize (nlen cs)) (SAppend x) cs
| sundo_reserve cs n : sundo cs (SReserve n) SShrinkToFit cs.

(** The same for bitsets. *)
Inductive bundo : list bool -> bitop -> bitop -> list bool -> Prop :=
| bundo_push bs b : bundo bs (BPush b) BPop (bs ++ [b])
| bundo_pop bs b : bundo (bs ++ [b]) BPop (BPush b) bs
| bundo_toggle bs b cs : bundo (bs ++ [b] ++ cs) (BToggle (nlen bs)) (BToggle (nlen bs)) (bs ++ [negb b] ++ cs)
| bundo_set bs b cs : bundo (bs ++ [b] ++ cs) (BSet (nlen bs)) (BAssign (nlen bs) b) (bs ++ [true] ++ cs)
| bundo_reset bs b cs : bundo (bs ++ [b] ++ cs) (BReset (nlen bs)) (BAssign (nlen bs) b) (bs ++ [false] ++ cs)
| bundo_assign bs b c cs : bundo (bs ++ [b] ++ cs) (BAssign (nlen bs) c) (BAssign (nlen bs) b) (bs ++ [c] ++ cs)
| bundo_flip bs : bundo bs BFlip BFlip (map negb bs)
| bundo_reserve bs n : bundo bs (BReserve n) BShrinkToFit bs.

(** The same for lists. *)
Inductive lundo {C : Type} : list (list C) -> lop C -> lop C -> list (list C) -> Prop :=
| lundo_push_back xs x : lundo xs (LPushBack x) LPopBack (xs ++ [x])
| lundo_push_front xs x : lundo xs (LPushFront x) LPopFront (x :: xs)
| lundo_pop_back xs x : lundo (xs ++ [x]) LPopBack (LPushBack x) xs
| lundo_pop_front xs x : lundo (x :: xs) LPopFront (LPushFront x) xs
| lundo_set xs x y ys : lundo (xs ++ [x] ++ ys) (LSet (nlen xs) y) (LSet (nlen xs) x) (xs ++ [y] ++ ys)
| lundo_longer xs x n : 0 < n -> lundo xs (LResize (nlen xs + n) (Some x)) (LResize (nlen xs) None) (xs ++ nrepeat x n).
