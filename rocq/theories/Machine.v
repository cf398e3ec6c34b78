(** * The machine: physical memory, registers, programs.

    Monitor functions are modelled as values of type [prog A]: trees of
    machine operations with continuations.  The same tree is executed by the
    sequential semantics [run] below and by the interleaving semantics of
    SpecConcurrent.v, where each operation is one atomic step. *)
From Coq Require Import NArith ZArith Lia Bool List.
From Verif Require Import Word.
Import ListNotations.
Open Scope N_scope.

(** ** Physical memory (src/bare/phys_ptr.h, src/bare/arch/test/phys_ptr_arch.h).

    Byte addressed and little endian (src/bare/arch/test/bit_masking_arch.h:7-13).
    Simplification: memory is total; the bounds assertion of the test
    architecture (phys_ptr_arch.h:29,36,41,51) is not part of the model.  Which
    addresses are touched is the subject of explicit theorems instead. *)
Definition mem := N -> N.

(** Load of [n] bytes, little endian: phys_ref<T>::operator T,
    src/bare/arch/test/phys_ptr_arch.h:26-31 (n = 8), 41-46 (n = 4). *)
Fixpoint ld (n : nat) (m : mem) (a : N) : N :=
  match n with
  | O => 0
  | S k => m a mod 256 + 256 * ld k m (a + 1)
  end.

(** Store of [n] bytes, little endian: phys_ref<T>::operator =,
    src/bare/arch/test/phys_ptr_arch.h:32-39 (n = 8), 47-54 (n = 4). *)
Definition st (n : nat) (m : mem) (a v : N) : mem :=
  fun b => if (a <=? b) && (b <? a + N.of_nat n)
           then N.shiftr v (8 * (b - a)) mod 256
           else m b.

(** ** Machine operations: the accesses of src/bare/phys_ptr.h, the atomics of
    src/bare/phys_atomics.h and the functions of src/bare/cpu_context.h and
    src/bare/memory.h; the code behind each is cited at [step]. *)
Inductive op : Type :=
| OLd (n : nat) (a : N)          (* load of n bytes *)
| OSt (n : nat) (a v : N)        (* store of n bytes *)
| OTas (a : N)                   (* atomic_flag_test_and_set *)
| OClr (a : N)                   (* atomic_flag_clear *)
| OFadd (a v : N)                (* atomic_fetch_add *)
| OCore                          (* current_core() *)
| OFlushTlb                      (* flush_tlbs() *)
| OSetShift (v : N)              (* set_cache_index_shift *)
| OSetParBase (v : N)            (* set_par_base *)
| OSetParMask (v : N)            (* set_par_mask *)
| OSetDrb (a : N)                (* set_drb_map *)
| OSetEdrb (a : N)               (* set_edrb_map *)
| OSetDmarBase (v : N)           (* set_dmar_base *)
| OSetDmarMask (v : N)           (* set_dmar_mask *)
| OGetDmaStart | OGetDmaEnd      (* reads of g_dma_range_{start,end} *)
| OSetDmaStart (v : N)           (* write of g_dma_range_start *)
| OSetDmaEnd (v : N)             (* write of g_dma_range_end *)
| OUb (code : N).                (* the C++ abstract machine is undefined here *)

(** Programs. [Stop] models boot_panic() (src/monitor/boot_init.cc:42-45, an
    endless loop) and loops that never terminate. *)
Inductive prog (A : Type) : Type :=
| Ret (a : A)
| Do (o : op) (k : N -> prog A)
| Stop.
Arguments Ret {A} a.
Arguments Do {A} o k.
Arguments Stop {A}.

Fixpoint bind {A B} (p : prog A) (f : A -> prog B) : prog B :=
  match p with
  | Ret a => f a
  | Do o k => Do o (fun v => bind (k v) f)
  | Stop => Stop
  end.

Declare Scope prog_scope.
Delimit Scope prog_scope with prog.
Notation "x <- p ;; q" := (bind p (fun x => q))
  (at level 61, p at next level, right associativity) : prog_scope.
Notation "p ;; q" := (bind p (fun _ => q))
  (at level 61, right associativity) : prog_scope.
Open Scope prog_scope.

(** One operation; the loads and stores of phys_ref<T>
    (src/bare/arch/test/phys_ptr_arch.h:26-54). *)
Definition op1 (o : op) : prog N := Do o (fun v => Ret v).
Definition load64 (a : N) : prog N := op1 (OLd 8 a).
Definition store64 (a v : N) : prog N := op1 (OSt 8 a v).
Definition load32 (a : N) : prog N := op1 (OLd 4 a).
Definition store32 (a v : N) : prog N := op1 (OSt 4 a v).

(** Undefined behaviour marker: execution goes on with the machine's value. It models
    no line of code; it marks the shifts of src/monitor/boot_init.cc:52-180 and
    src/monitor/dram_regions_inl.h:84-90 whose count may be out of range. *)
Definition ub_if (b : bool) (code : N) : prog unit :=
  if b then Do (OUb code) (fun _ => Ret tt) else Ret tt.

(** ** Machine state. *)

(** Per-core registers: src/bare/arch/test/cpu_context_arch.cc:16-28.
    Simplification: only the registers written by live (not commented out)
    monitor code are present. *)
Record cregs := mkCregs {
  r_drb : N -> N;            (* core_drb_map, indexed by word *)
  r_edrb : N -> N;           (* core_edrb_map *)
  r_par_base : N;            (* core_par_base *)
  r_par_mask : N;            (* core_par_mask *)
  r_cache_shift : N;         (* core_cache_index_shift *)
  r_tlb_flushes : N          (* core_tlb_flush_count *)
}.

(** Machine state.  [s_words] is the width of the bitmap registers
    (testing::dram_region_bitmap_words, cpu_context_arch.cc:14).
    [s_ub] logs the undefined behaviour met so far (ghost). *)
Record state := mkState {
  s_mem : mem;
  s_cores : N -> cregs;
  s_words : N;
  s_dmar_base : N;           (* testing::dmar_base *)
  s_dmar_mask : N;           (* testing::dmar_mask *)
  s_dma_start : N;           (* g_dma_range_start, dram_regions.cc:67 *)
  s_dma_end : N;             (* g_dma_range_end, dram_regions.cc:68 *)
  s_ub : list N
}.

(** Update of testing::phys_buffer: src/bare/arch/test/phys_ptr_arch.h:32-39,47-54. *)
Definition set_mem (s : state) (m : mem) : state :=
  mkState m (s_cores s) (s_words s) (s_dmar_base s) (s_dmar_mask s)
    (s_dma_start s) (s_dma_end s) (s_ub s).
(** Update of the registers of core [c]: src/bare/arch/test/cpu_context_arch.h:53-96. *)
Definition set_creg (s : state) (c : N) (r : cregs) : state :=
  mkState (s_mem s) (fun c' => if c' =? c then r else s_cores s c')
    (s_words s) (s_dmar_base s) (s_dmar_mask s)
    (s_dma_start s) (s_dma_end s) (s_ub s).

(** snapshot_dram_region_bitmap, src/bare/arch/test/cpu_context_arch.cc:46-51. *)
Definition snapshot (s : state) (old : N -> N) (a : N) : N -> N :=
  fun i => if i <? s_words s then ld 8 (s_mem s) (a + 8 * i) else old i.

(** One machine operation on core [c]: new state and returned value.
    - OTas: src/bare/arch/test/phys_atomics_arch.h:14-18 (modelled as atomic,
      as its contract in src/bare/phys_atomics.h demands)
    - OClr: phys_atomics_arch.h:19-21
    - OFadd: phys_atomics_arch.h:40-45
    - registers: src/bare/arch/test/cpu_context_arch.h:53-96,
      src/bare/arch/test/memory_arch.h:23-28. *)
Definition step (c : N) (o : op) (s : state) : state * N :=
  let r := s_cores s c in
  match o with
  | OLd n a => (s, ld n (s_mem s) a)
  | OSt n a v => (set_mem s (st n (s_mem s) a v), 0)
  | OTas a => (set_mem s (st 8 (s_mem s) a 1),
               if ld 8 (s_mem s) a =? 0 then 0 else 1)
  | OClr a => (set_mem s (st 8 (s_mem s) a 0), 0)
  | OFadd a v => (set_mem s (st 8 (s_mem s) a (wadd (ld 8 (s_mem s) a) v)),
                  ld 8 (s_mem s) a)
  | OCore => (s, c)
  | OFlushTlb => (set_creg s c (mkCregs (r_drb r) (r_edrb r) (r_par_base r)
                    (r_par_mask r) (r_cache_shift r) (r_tlb_flushes r + 1)), 0)
  | OSetShift v => (set_creg s c (mkCregs (r_drb r) (r_edrb r) (r_par_base r)
                    (r_par_mask r) v (r_tlb_flushes r)), 0)
  | OSetParBase v => (set_creg s c (mkCregs (r_drb r) (r_edrb r) v
                    (r_par_mask r) (r_cache_shift r) (r_tlb_flushes r)), 0)
  | OSetParMask v => (set_creg s c (mkCregs (r_drb r) (r_edrb r) (r_par_base r)
                    v (r_cache_shift r) (r_tlb_flushes r)), 0)
  | OSetDrb a => (set_creg s c (mkCregs (snapshot s (r_drb r) a) (r_edrb r)
                    (r_par_base r) (r_par_mask r) (r_cache_shift r)
                    (r_tlb_flushes r)), 0)
  | OSetEdrb a => (set_creg s c (mkCregs (r_drb r) (snapshot s (r_edrb r) a)
                    (r_par_base r) (r_par_mask r) (r_cache_shift r)
                    (r_tlb_flushes r)), 0)
  | OSetDmarBase v =>
      (mkState (s_mem s) (s_cores s) (s_words s) v (s_dmar_mask s)
         (s_dma_start s) (s_dma_end s) (s_ub s), 0)
  | OSetDmarMask v =>
      (mkState (s_mem s) (s_cores s) (s_words s) (s_dmar_base s) v
         (s_dma_start s) (s_dma_end s) (s_ub s), 0)
  | OGetDmaStart => (s, s_dma_start s)
  | OGetDmaEnd => (s, s_dma_end s)
  | OSetDmaStart v =>
      (mkState (s_mem s) (s_cores s) (s_words s) (s_dmar_base s) (s_dmar_mask s)
         v (s_dma_end s) (s_ub s), 0)
  | OSetDmaEnd v =>
      (mkState (s_mem s) (s_cores s) (s_words s) (s_dmar_base s) (s_dmar_mask s)
         (s_dma_start s) v (s_ub s), 0)
  | OUb code =>
      (mkState (s_mem s) (s_cores s) (s_words s) (s_dmar_base s) (s_dmar_mask s)
         (s_dma_start s) (s_dma_end s) (code :: s_ub s), 0)
  end.

(** Sequential execution on core [c]; [None] is [Stop]. (Semantics of programs; models
    no line of /repo.) *)
Fixpoint run {A} (c : N) (p : prog A) (s : state) : state * option A :=
  match p with
  | Ret a => (s, Some a)
  | Do o k => let '(s', v) := step c o s in run c (k v) s'
  | Stop => (s, None)
  end.

(** ** Loops. *)

(** [for (i = start; ...; ++i)] executed [n] times, no early exit, as in
    src/monitor/boot_init.cc:143-150. *)
Fixpoint for_n (n : nat) (i : N) (body : N -> prog unit) : prog unit :=
  match n with
  | O => Ret tt
  | S k => body i ;; for_n k (i + 1) body
  end.

(** The same with an early exit ([break] or [return]) when the body yields
    [Some r], as in src/monitor/metadata_inl.h:118-120. *)
Fixpoint for_exit {R} (n : nat) (i : N) (body : N -> prog (option R))
  : prog (option R) :=
  match n with
  | O => Ret None
  | S k => r <- body i ;;
           match r with
           | Some x => Ret (Some x)
           | None => for_exit k (i + 1) body
           end
  end.
