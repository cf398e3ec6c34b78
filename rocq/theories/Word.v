(** * Machine words.

    All C++ integers of the monitor are modelled as natural numbers [N]
    together with explicit reductions modulo 2^64 (size_t / uintptr_t, see
    src/bare/arch/test/base_types_arch.h:10-14), 2^32 (uint32_t) or with explicit
    sign extension (the type [int] of literals such as the [1] in
    [1 << n]). *)
From Coq Require Import NArith ZArith Lia Bool.
Open Scope N_scope.

(** 2^64: size_t and uintptr_t are 64 bits wide on the test architecture
    (src/bare/arch/test/page_tables_arch.h:10). *)
Definition W64 : N := 18446744073709551616.
(** 2^32: uint32_t (src/bare/arch/test/base_types_arch.h:13). *)
Definition W32 : N := 4294967296.

(** Unsigned arithmetic of size_t and uintptr_t (src/bare/arch/test/base_types_arch.h:10-11):
    C++ defines it modulo 2^64. *)
Definition wrap (a : N) : N := a mod W64.
Definition wadd (a b : N) : N := (a + b) mod W64.
Definition wsub (a b : N) : N := (a + (W64 - b mod W64)) mod W64.
Definition wmul (a b : N) : N := (a * b) mod W64.
(** [~a] on size_t: src/monitor/boot_init.cc:169,179, src/monitor/dram_regions.cc:273,
    src/bare/bit_masking.h:81. *)
Definition wnot (a : N) : N := W64 - 1 - a mod W64.
(** [a << n] and [a >> n] on size_t.  A shift count of 64 or more is undefined
    behaviour in C++.  The value given here is the one computed by a machine
    whose shifter uses the low six bits of the count (x86-64, RV64); every
    place where the count can be out of range is flagged separately by the
    [OUb] operation of Machine.v.  Used for the shifts of src/bare/bit_masking.h,
    src/monitor/dram_regions_inl.h:46-90 and src/monitor/boot_init.cc:52-134. *)
Definition wshl (a n : N) : N := (N.shiftl a (n mod 64)) mod W64.
Definition wshr (a n : N) : N := N.shiftr a (n mod 64).

(** Unsigned arithmetic of uint32_t in src/crypto/hash.cc:41-139. *)
Definition wadd32 (a b : N) : N := (a + b) mod W32.
Definition wnot32 (a : N) : N := W32 - 1 - a mod W32.

(** [int] values, represented by their 64-bit sign extension, which is the
    value obtained when they are converted to size_t (the literals [1] of
    src/bare/page_tables.h:65-88, src/monitor/enclave_inl.h:62 and
    src/monitor/boot_init.cc:52-113). *)
Definition sext32 (a : N) : N :=
  let y := a mod W32 in if y <? 2147483648 then y else y + (W64 - W32).
(** [v << n] where [v] has type int, as in src/bare/page_tables.h:65-67. The machine
    shifter uses the low five bits of the count. *)
Definition int_shl (v n : N) : N := sext32 (N.shiftl v (n mod 32)).
(** [v - 1] where [v] has type int, as in src/monitor/enclave_inl.h:62. *)
Definition int_pred (v : N) : N := sext32 (v + (W64 - 1)).
(** True if [v << n] (with v >= 0 of type int) is undefined: the count is out
    of range or the result is not representable. Applied to the shifts of
    src/bare/bit_masking.h and src/monitor/boot_init.cc:52-113. *)
Definition int_shl_ub (v n : N) : bool :=
  (32 <=? n) || (2147483648 <=? N.shiftl v n).
