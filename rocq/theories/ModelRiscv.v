(** * The RISC-V architecture of the repository (src/bare/arch/riscv).

    Its page table functions are modelled in ModelBare.v ([riscv_arch]) and its 64-bit loads
    and stores are those of Machine.v.  Its atomic operations, identification registers and
    protection registers are empty bodies marked "TODO: asm intrinsic", which return 0 if
    they return anything. *)
From Coq Require Import NArith Bool.
From Verif Require Import Word Machine ModelBoot.
Open Scope N_scope.

(** memory_arch.h:13-40 (read_dram_size, read_cache_levels, is_shared_cache,
    read_cache_line_size, read_cache_set_count, read_min_cache_index_shift,
    read_max_cache_index_shift), cpu_context_arch.h:7-10 (read_core_count) *)
Definition riscv_platform : platform :=
  mkPlatform 0 0 (fun _ => false) (fun _ => 0) (fun _ => 0) 0 0 0.

(** One operation of the monitor on this architecture: phys_atomics_arch.h:18-31
    (test_and_set, clear), 54-58 (atomic_fetch_add), cpu_context_arch.h:11-53
    (current_core, flush_tlbs, set_cache_index_shift, set_par_base, set_par_mask,
    set_drb_map, set_edrb_map), memory_arch.h:7-12 (set_dmar_base, set_dmar_mask).
    Loads, stores and the monitor's own variables are as everywhere.

    Simplified: the load of the block clock (an atomic_load, which returns 0 here:
    phys_atomics_arch.h:45-49) is an ordinary load, and bzero and bcopy, which do nothing
    here (memory_arch.h:42-48), do their work. *)
Definition riscv_op (o : op) : prog N :=
  match o with
  | OLd _ _ | OSt _ _ _ | OGetDmaStart | OGetDmaEnd | OSetDmaStart _ | OSetDmaEnd _ | OUb _ => op1 o
  | OTas _ | OClr _ | OFadd _ _ | OCore | OFlushTlb | OSetShift _ | OSetParBase _ | OSetParMask _
  | OSetDrb _ | OSetEdrb _ | OSetDmarBase _ | OSetDmarMask _ => Ret 0
  end.
(** A program with its operations replaced by these (src/bare/arch/riscv, files and lines
    as above). *)
Fixpoint on_riscv {A} (p : prog A) : prog A :=
  match p with
  | Ret a => Ret a
  | Do o k => v <- riscv_op o ;; on_riscv (k v)
  | Stop => Stop
  end.
