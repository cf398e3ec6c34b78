(** * The layer below: physical pointers, the literal memory loops and the test
    architecture's atomics (src/bare/phys_ptr.h, src/bare/arch/test).

    The other model files use addresses and the operations of Machine.v directly;
    P_Phys.v proves that this is what the layer gives. *)
From Coq Require Import NArith ZArith Lia Bool List.
From Verif Require Import Word Machine.
Import ListNotations.
Open Scope N_scope.

(** ** phys_ptr<T> (src/bare/phys_ptr.h:97-168, and 170-242 for class types).
    [size] is sizeof(T). Pointer arithmetic beyond an array is undefined in C++;
    modelled as the address arithmetic of the flat address space. *)
(** operator += and operator +: src/bare/phys_ptr.h:144-152, 199-206 *)
Definition phys_add (size p n : N) : N := wadd p (wmul size n).
(** operator -= and operator -: src/bare/phys_ptr.h:153-161, 207-215 *)
Definition phys_sub (size p n : N) : N := wsub p (wmul size n).
(** the address of operator []: src/bare/phys_ptr.h:130-133, 189-192, by operator & of
    phys_ref: lines 61-63 *)
Definition phys_index (size p n : N) : N := wadd p (wmul size n).
(** the address of operator ->*: src/bare/phys_ptr.h:219-228; a member at a constant
    offset *)
Definition phys_member (p off : N) : N := wadd p off.
(** operator == and !=: src/bare/phys_ptr.h:136-141, 193-198 *)
Definition phys_eq (p q : N) : bool := p =? q.

(** ** bzero<T>: src/bare/arch/test/memory_arch.h:49-57, with sizeof(T) = 8. The
    loop as written; [fuel] bounds its iterations, [Stop] is running on. The assert
    (line 52) is not modelled. *)
Fixpoint bzero_loop (fuel : nat) (start stop : N) : prog unit :=
  if negb (phys_eq start stop) then
    match fuel with
    | O => Stop
    | S k => store64 start 0 ;; bzero_loop k (phys_add 8 start 1) stop
    end
  else Ret tt.
Definition bzero_code (fuel : nat) (start bytes : N) : prog unit :=
  let words := bytes / 8 in
  bzero_loop fuel start (phys_add 8 start words).

(** bcopy<T>: memory_arch.h:58-71, with sizeof(T) = 8. The asserts (lines 62-66) are
    not modelled. *)
Fixpoint bcopy_loop (fuel : nat) (dest source stop : N) : prog unit :=
  if negb (phys_eq source stop) then
    match fuel with
    | O => Stop
    | S k => v <- load64 source ;; store64 dest v ;;
             bcopy_loop k (phys_add 8 dest 1) (phys_add 8 source 1) stop
    end
  else Ret tt.
Definition bcopy_code (fuel : nat) (dest source bytes : N) : prog unit :=
  let words := bytes / 8 in
  bcopy_loop fuel dest source (phys_add 8 source words).

(** ** Atomics: src/bare/arch/test/phys_atomics_arch.h *)
(** atomic_flag_test_and_set: arch/test/phys_atomics_arch.h:14-18 *)
Definition tas_code (a : N) : prog N :=
  v <- load64 a ;;
  store64 a 1 ;;
  Ret (if v =? 0 then 0 else 1).
(** atomic_flag_clear: arch/test/phys_atomics_arch.h:19-21 *)
Definition clear_code (a : N) : prog N := store64 a 0.
(** atomic_fetch_add: arch/test/phys_atomics_arch.h:40-45; += is phys_ref::operator +=, phys_ptr.h:71-74 *)
Definition fetch_add_code (a d : N) : prog N :=
  old <- load64 a ;;
  v <- load64 a ;;
  store64 a (wadd v d) ;;
  Ret old.
(** atomic_fetch_sub: arch/test/phys_atomics_arch.h:46-51, phys_ptr.h:75-78 *)
Definition fetch_sub_code (a d : N) : prog N :=
  old <- load64 a ;;
  v <- load64 a ;;
  store64 a (wsub v d) ;;
  Ret old.

(** A program with its atomic operations replaced by that code
    (arch/test/phys_atomics_arch.h:14-51): what runs on the test architecture. *)
Definition op_code (o : op) : prog N :=
  match o with
  | OTas a => tas_code a
  | OClr a => clear_code a
  | OFadd a d => fetch_add_code a d
  | _ => op1 o
  end.
(** The same for all operations of a program (arch/test/phys_atomics_arch.h:14-51). *)
Fixpoint on_test_arch {A} (p : prog A) : prog A :=
  match p with
  | Ret a => Ret a
  | Do o k => v <- op_code o ;; on_test_arch (k v)
  | Stop => Stop
  end.
