(** * Model of src/bare: bit masking, page tables, memory operations. *)
From Coq Require Import NArith ZArith Lia Bool List.
From Verif Require Import Word Machine.
Import ListNotations.
Open Scope N_scope.

(** ** Page tables (src/bare/page_tables.h and arch files) *)

(** The architecture parameters of src/bare/page_tables.h:10-30. Levels are
    numbered from 0, the leaves. *)
Record pt_arch := mkPtArch {
  pa_levels : nat;               (* page_table_levels() *)
  pa_shift : nat -> N;           (* page_table_shift(level) *)
  pa_entry_shift : nat -> N      (* page_table_entry_shift(level) *)
}.

(** src/bare/arch/test/page_tables_arch.h:15-36 *)
Definition test_arch : pt_arch :=
  mkPtArch 3
    (fun l => match l with O => 9 | S O => 10 | _ => 11 end)
    (fun l => match l with O => 3 | _ => 4 end).

(** src/bare/arch/riscv/page_tables_arch.h:15-23 *)
Definition riscv_arch : pt_arch := mkPtArch 3 (fun _ => 9) (fun _ => 3).

(** page_shift(): test/page_tables_arch.h:12-14, riscv/page_tables_arch.h:9-11 *)
Definition page_shift : N := 12.
(** page_size(): src/bare/page_tables.h:65-67, [1 << page_shift()] (int). *)
Definition page_size : N := int_shl 1 page_shift.

(** page_table_entry_size, page_table_entries, page_table_size,
    page_table_pages: src/bare/page_tables.h:70-87 *)
Definition page_table_entry_size (pa : pt_arch) (level : nat) : N :=
  int_shl 1 (pa_entry_shift pa level).
Definition page_table_entries (pa : pt_arch) (level : nat) : N :=
  int_shl 1 (pa_shift pa level).
Definition page_table_size (pa : pt_arch) (level : nat) : N :=
  wmul (page_table_entries pa level) (page_table_entry_size pa level).
Definition page_table_pages (pa : pt_arch) (level : nat) : N :=
  wshr (page_table_size pa level) page_shift.

(** __page_table_translated_bits / page_table_translated_bits:
    src/bare/page_tables.h:90-100. [left] levels remain above [level]. *)
Fixpoint translated_bits_from (pa : pt_arch) (left : nat) (level : nat)
  (sum : N) : N :=
  match left with
  | O => sum
  | S k => translated_bits_from pa k (S level) (wadd sum (pa_shift pa level))
  end.
Definition page_table_translated_bits (pa : pt_arch) : N :=
  translated_bits_from pa (pa_levels pa) 0 page_shift.

(** is_valid_page_table_entry: test/page_tables_arch.h:38-40 (identical in
    riscv/page_tables_arch.h:25-27); the argument is the entry's word. *)
Definition pte_is_valid (w : N) : bool := negb (N.land w 1 =? 0).
(** page_table_entry_target: test/page_tables_arch.h:41-44. The mask
    [~((1 << 12) - 1)] has type int and is sign-extended. *)
Definition pte_target_mask : N :=
  wnot (int_pred (int_shl 1 page_shift)).
Definition pte_target (w : N) : N := N.land w pte_target_mask.
(** The word written by write_page_table_entry: test/page_tables_arch.h:45-51 *)
Definition pte_encode (target acl : N) : N :=
  let acl_mask := int_pred (int_shl 1 page_shift) in
  N.lor target (N.lor (N.land acl acl_mask) 1).

Definition is_valid_page_table_entry (entry_addr : N) : prog bool :=
  w <- load64 entry_addr ;; Ret (pte_is_valid w).
Definition page_table_entry_target (entry_addr : N) : prog N :=
  w <- load64 entry_addr ;; Ret (pte_target w).
Definition write_page_table_entry (entry_addr target acl : N) : prog unit :=
  store64 entry_addr (pte_encode target acl) ;; Ret tt.

(** ** Bit masking (src/bare/bit_masking.h) *)

(** is_valid_range_mask: bit_masking.h:16-18 *)
Definition is_valid_range_mask (mask : N) : bool :=
  N.land mask (wadd mask 1) =? 0.
(** is_aligned_to_mask: bit_masking.h:20-22 *)
Definition is_aligned_to_mask (address mask : N) : bool :=
  N.land address mask =? 0.
(** is_valid_range: bit_masking.h:31-33 *)
Definition is_valid_range (base mask : N) : bool :=
  is_aligned_to_mask base mask && is_valid_range_mask mask.
(** is_page_aligned: bit_masking.h:35-37 *)
Definition is_page_aligned (address : N) : bool :=
  is_aligned_to_mask address (wsub page_size 1).
(** pages_needed_for: bit_masking.h:40-42 *)
Definition pages_needed_for (memory_size : N) : N :=
  wshr (wsub (wadd memory_size page_size) 1) page_shift.

(** The loop of address_bits_for (bit_masking.h:52-55): at most 64 iterations,
    because the value halves at every one. *)
Fixpoint address_bits_loop (fuel : nat) (v bits : N) : N :=
  match fuel with
  | O => bits
  | S k => if 0 <? v then address_bits_loop k (N.shiftr v 1) (wadd bits 1)
           else bits
  end.
(** address_bits_for: bit_masking.h:47-56 *)
Definition address_bits_for (memory_size : N) : N :=
  address_bits_loop 64 (wsub memory_size 1) 0.

(** ceil_power_of_two: bit_masking.h:59-61. The shifted 1 is an int. *)
Definition ceil_power_of_two (memory_size : N) : N :=
  int_shl 1 (address_bits_for memory_size).
(** is_power_of_two: bit_masking.h:64-66 *)
Definition is_power_of_two (memory_size : N) : bool :=
  (0 <? memory_size) && is_valid_range_mask (wsub memory_size 1).

(** set_bitmap_bit: bit_masking.h:71-82 *)
Definition set_bitmap_bit (bitmap bit : N) (value : bool) : prog unit :=
  let offset := bit / 64 in
  let mask := wshl 1 (bit mod 64) in
  let a := wadd bitmap (wmul 8 offset) in
  w <- load64 a ;;
  (if value then store64 a (N.lor w mask)
   else store64 a (N.land w (wnot mask))) ;;
  Ret tt.
(** read_bitmap_bit: bit_masking.h:84-92 *)
Definition read_bitmap_bit (bitmap bit : N) : prog bool :=
  let offset := bit / 64 in
  let mask := wshl 1 (bit mod 64) in
  w <- load64 (wadd bitmap (wmul 8 offset)) ;;
  Ret (negb (N.land w mask =? 0)).

(** reverse_bytes<uint32_t>: bit_masking.h:103-106 *)
Definition reverse_bytes (value : N) : N :=
  N.lor (N.lor (N.lor
    (N.shiftl (N.land value 0xff) 24 mod W32)
    (N.shiftl (N.land value 0xff00) 8 mod W32))
    (N.land (N.shiftr value 24) 0xff))
    (N.land (N.shiftr value 8) 0xff00).

(** ** Memory operations (src/bare/arch/test/memory_arch.h) *)

(** bzero with T = size_t: test/memory_arch.h:49-57. The assert (line 52) is
    not modelled. *)
Definition bzero64 (start bytes : N) : prog unit :=
  for_n (N.to_nat (bytes / 8)) 0
    (fun i => store64 (wadd start (wmul 8 i)) 0 ;; Ret tt).

(** bcopy with T = size_t: test/memory_arch.h:58-71. The asserts (lines 62-66)
    are not modelled. *)
Definition bcopy64 (dest source bytes : N) : prog unit :=
  for_n (N.to_nat (bytes / 8)) 0
    (fun i => v <- load64 (wadd source (wmul 8 i)) ;;
              store64 (wadd dest (wmul 8 i)) v ;; Ret tt).
