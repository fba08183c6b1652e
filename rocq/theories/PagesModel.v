(** The pages of a process, and what the memory calls of src/API/Memory.c do to them when the system carries
    them out: mprotect and munmap on POSIX, VirtualProtect and VirtualFree on Windows. *)
From Verif Require Import Base Status ApiModel WinModel.

Record rights := mkrights { can_read : bool; can_write : bool; can_execute : bool }.
Record pages := mkpages {
  page : N;                          (* page size *)
  rights_of : N -> option rights;    (* by page number; [None]: not mapped *)
  reservation : N -> option N        (* Windows: size in bytes of the reservation that starts at an address *)
}.
(** Pages the range [address, address + size) touches. *)
Definition in_range (m : pages) (a n q : N) : bool :=
  negb (n =? 0) && (a / page m <=? q) && (q <=? (a + n - 1) / page m).

(** POSIX: the meaning of the protection bits. *)
Definition posix_rights (v : N) : rights := mkrights (N.testbit v 0) (N.testbit v 1) (N.testbit v 2).
Definition posix_effect (s : system) (m : pages) (c : syscall) : pages :=
  if negb (answer s c =? 0)%Z then m else
  match c with
  | Mprotect a n v => mkpages (page m) (fun q => if in_range m a n q then Some (posix_rights v) else rights_of m q)
                        (reservation m)
  | Munmap a n => mkpages (page m) (fun q => if in_range m a n q then None else rights_of m q) (reservation m)
  | _ => m
  end.
Definition posix_effects (s : system) (m : pages) (cs : list syscall) : pages := fold_left (posix_effect s) cs m.

(** Windows: the meaning of the page protection constants. *)
Definition windows_rights (v : N) : rights :=
  if v =? 2 then mkrights true false false
  else if v =? 4 then mkrights true true false
  else if v =? 16 then mkrights false false true
  else if v =? 32 then mkrights true false true
  else if v =? 64 then mkrights true true true
  else mkrights false false false.
(** VirtualFree(address, 0, MEM_RELEASE) releases the whole reservation that starts at the address. *)
Definition windows_effect (s : wsystem) (m : pages) (c : wcall) : pages :=
  if (wanswer s c =? 0)%Z then m else
  match c with
  | VirtualProtectCall a n v =>
      mkpages (page m) (fun q => if in_range m a n q then Some (windows_rights v) else rights_of m q) (reservation m)
  | VirtualFreeCall a n ty =>
      if (ty =? 32768) && (n =? 0) then
        match reservation m a with
        | Some r => mkpages (page m) (fun q => if in_range m a r q then None else rights_of m q)
                      (fun a' => if a' =? a then None else reservation m a')
        | None => m
        end
      else m
  | _ => m
  end.
Definition windows_effects (s : wsystem) (m : pages) (cs : list wcall) : pages := fold_left (windows_effect s) cs m.
(** The calls, with the pages of the process. *)
Definition posix_protect (a n : N) (p : protection) (s : system) (m : pages) : status * pages :=
  let '(st, cs) := virtual_protect a n p s in (st, posix_effects s m cs).
Definition posix_free (a n : N) (s : system) (m : pages) : status * pages :=
  let '(st, cs) := virtual_free a n s in (st, posix_effects s m cs).
Definition windows_protect (a n : N) (p : protection) (s : wsystem) (m : pages) : status * pages :=
  let '(st, cs) := win_virtual_protect a n p s in (st, windows_effects s m cs).
Definition windows_free (a n : N) (s : wsystem) (m : pages) : status * pages :=
  let '(st, cs) := win_virtual_free a n s in (st, windows_effects s m cs).
