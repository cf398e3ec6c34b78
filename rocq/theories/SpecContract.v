(** * Result tables of the enclave calls, over every machine state.

    The histories of SpecHistory.v start at boot, and from boot no enclave ever
    comes to own a region (C44), so most of the code of the enclave calls is out of
    their reach.  The tables below are about arbitrary memory contents instead:
    they say, for each call, which documented conditions are checked in which
    order, in terms of the words of the tables and of the enclave record. *)
From Coq Require Import NArith Bool List.
From Verif Require Import Word Machine ModelInl ModelApi SpecGeometry SpecMonitor SpecMetadata.
Open Scope N_scope.

Definition word (s : state) (a : N) : N := ld 8 (s_mem s) a.
(** The locks are words that hold 0 or 1. *)
Definition clean_locks (G : globals) (s : state) : Prop :=
  forall r, r < g_dram_region_count G -> lock_of G s r = 0 \/ lock_of G s r = 1.
Definition is_locked (G : globals) (s : state) (r : N) : bool := lock_of G s r =? 1.
(** The region an enclave record lies in; 0 if it is not in DRAM. *)
Definition main_region (G : globals) (pb rb id : N) : N :=
  if id <? g_dram_size G then region_of pb rb id else 0.
(** An enclave identifier names an enclave if that enclave owns its record's region. *)
Definition names_enclave (G : globals) (pb rb : N) (s : state) (id : N) : bool :=
  negb (id =? 0) && (owner_of G s (main_region G pb rb id) =? id).
(** The fields of the record (304 bytes), its region bitmap and one more word are
    neither in the monitor's memory nor do they wrap around the address space. *)
Definition record_at (G : globals) (id : N) : Prop :=
  g_monitor_top G <= id /\ id + 312 + 8 * g_dram_region_bitmap_words G <= 2 ^ 64.
Definition record_id (G : globals) (id : N) : Prop := id = 0 \/ record_at G id.
(** If [id] names an enclave, its record is there.  This holds of every identifier
    when region 0 is the OS's, as it is from boot on, and DRAM does not reach the end of
    the address space (ContractProofs.record_ok_os). *)
Definition record_ok (G : globals) (pb rb : N) (s : state) (id : N) : Prop :=
  names_enclave G pb rb s id = true -> record_at G id.
(** [s] after a word was written. *)
Definition put (s : state) (a v : N) : state := set_mem s (st 8 (s_mem s) a v).
Definition lock_addr (G : globals) (r : N) : N := g_dram_region G + 40 * r.

Definition in_dram_page (G : globals) (a : N) : bool :=
  (a <? g_dram_size G) && (a mod 4096 =? 0).
(** va & mask = base *)
Definition accepts_va (s : state) (id va : N) : bool :=
  N.land va (word s (id + 56)) =? word s (id + 48).

(** Registers and everything outside memory. *)
Definition same_registers (s s' : state) : Prop :=
  (forall c, s_cores s' c = s_cores s c) /\ s_words s' = s_words s /\
  s_dmar_base s' = s_dmar_base s /\ s_dmar_mask s' = s_dmar_mask s /\
  s_dma_start s' = s_dma_start s /\ s_dma_end s' = s_dma_end s.
(** Only bytes in [P] may differ. *)
Definition changes_only (P : N -> Prop) (s s' : state) : Prop :=
  same_registers s s' /\ forall b, ~ P b -> s_mem s' b mod 256 = s_mem s b mod 256.
Definition bytes_of (a len b : N) : Prop := a <= b < a + len.

(** ** Loading and initialising *)
(** The checks common to the loading calls and init_enclave: the region's lock, the
    identifier, and that the enclave is not initialised yet. *)
Definition loading_code (G : globals) (pb rb : N) (s : state) (id : N) (next : N) : N :=
  if is_locked G s (main_region G pb rb id) then 3
  else if negb (names_enclave G pb rb s id) then 1
  else if negb (word s (id + 16) =? 0) then 2
  else next.
Definition init_code G pb rb s id : N := loading_code G pb rb s id 0.
Definition load_page_table_code G pb rb (s : state) (levels id pa va level : N) : N :=
  if negb (in_dram_page G pa) || (levels <=? level) then 1
  else loading_code G pb rb s id
    (if pa <=? word s (id + 72) then 1
     else if negb (level =? levels - 1) && negb (accepts_va s id va) then 1 else 0).
Definition load_page_code G pb rb (s : state) (id pa va oa : N) : N :=
  if negb (in_dram_page G pa) || negb (in_dram_page G oa) then 1
  else loading_code G pb rb s id
    (if pa <=? word s (id + 72) then 1 else if negb (accepts_va s id va) then 1 else 0).

(** ** Running *)
Definition enter_code (G : globals) (pb rb : N) (s : state) (id : N) : N :=
  if is_locked G s (main_region G pb rb id) then 3
  else if negb (names_enclave G pb rb s id) then 1
  else if word s (id + 16) =? 0 then 2
  else 0.
(** The enclave running on core [c]; the region of its record. *)
Definition own_region (G : globals) (pb rb : N) (s : state) (c : N) : N :=
  region_of pb rb (enclave_of G s c).
Definition delete_thread_code (G : globals) (pb rb : N) (s : state) (c : N) : N :=
  if is_locked G s (own_region G pb rb s c) then 3 else 0.
(** The bit of region [r] in the bitmap behind the record of the enclave running on core
    [c], whatever lies there; the code reads it with the lock of the record's region taken,
    which it may overlap (if the OS is running, the record is at address 0). *)
Definition own_bit (G : globals) (pb rb : N) (s : state) (c r : N) : bool :=
  let s1 := put s (lock_addr G (own_region G pb rb s c)) 1 in
  N.testbit (word s1 ((enclave_of G s c + 304 + 8 * (r / 64)) mod 2 ^ 64)) (r mod 64).
Definition create_thread_code (G : globals) (pb rb : N) (s : state) (c pa : N) : N :=
  if negb (in_dram_page G pa) || (g_dram_size G <? pa + 552) then 1
  else if is_locked G s (own_region G pb rb s c) then 3
  else if negb (own_bit G pb rb s c (region_of pb rb pa)) then 2
  else if pa + 4096 =? 2 ^ 64 then 5
  else 0.

(** ** Deleting *)
(** Some region of the enclave's bitmap, other than its main one, is locked. *)
Definition regions_busy (G : globals) (pb rb : N) (s : state) (id : N) : bool :=
  existsb (fun j => let r := N.of_nat j in
     negb (r =? main_region G pb rb id) && enclave_bit s id r && is_locked G s r)
    (seq 0 (N.to_nat (g_dram_region_count G))).
Definition delete_enclave_code (G : globals) (pb rb : N) (s : state) (id : N) : N :=
  if is_locked G s (main_region G pb rb id) then 3
  else if negb (names_enclave G pb rb s id) then 1
  else if negb (word s (id + 32) =? 0) then 2
  else if regions_busy G pb rb s id then 3
  else 0.

(** ** Region calls *)
Definition is_dynamic (G : globals) (r : N) : bool :=
  negb (r =? 0) && (r <? g_dram_region_count G).
(** The region an owner's record lies in, modulo the size of DRAM; 0 for the OS. *)
Definition owner_region (pb rb id : N) : N := region_of pb rb id.
(** The second lock is that of another region and is free. *)
Definition second_free (G : globals) (s : state) (r q : N) : bool :=
  negb (q =? r) && negb (is_locked G s q).
(** Region [r]'s first stripe touches the DMA range (dram_regions.cc:117-124). *)
Definition dma_blocks (pb rb : N) (s : state) (r : N) : bool :=
  touches (s_dma_start s) (s_dma_end s) (stripe_start pb rb r 0) (stripe_start pb rb (r + 1) 0).

Definition check_ownership_code (G : globals) (s : state) (c r : N) : N :=
  if negb (is_dynamic G r) then 1
  else if is_locked G s r then 3
  else if owner_of G s r =? enclave_of G s c then 0 else 2.
Definition region_state_code (G : globals) (s : state) (r : N) : N :=
  if negb (r <? g_dram_region_count G) then 0
  else if is_locked G s r then 3
  else if owner_of G s r =? 1 then 2
  else if owner_of G s r =? 3 then 1
  else 4.
Definition region_owner_code (G : globals) (s : state) (r : N) : N :=
  if negb (r <? g_dram_region_count G) then 0
  else if is_locked G s r then 0
  else if (owner_of G s r =? 1) || (owner_of G s r =? 3) then 0
  else owner_of G s r.
Definition block_code (G : globals) (pb rb : N) (s : state) (c r : N) : N :=
  let own := owner_of G s r in
  if negb (is_dynamic G r) then 1
  else if is_locked G s r then 3
  else if negb (own =? enclave_of G s c) then 4
  else if negb (own =? 0) && negb (pinned_of G s r =? 0) then 2
  else if negb (second_free G s r (owner_region pb rb own)) then 3
  else if (owner_region pb rb own =? 0) && dma_blocks pb rb s r then 2
  else 0.
Definition assign_code (G : globals) (pb rb : N) (s : state) (r id : N) : N :=
  if negb (r <? g_dram_region_count G) then 1
  else if is_locked G s r then 3
  else if negb (owner_of G s r =? 3) then 2
  else if negb (second_free G s r (owner_region pb rb id)) then 3
  else if negb (owner_of G s (main_region G pb rb id) =? id) then 1
  else 0.
Definition all_flushed_since (G : globals) (s : state) (t : N) : bool :=
  forallb (fun j => t <=? flushed_of G s (N.of_nat j)) (seq 0 (N.to_nat (g_core_count G))).
Definition free_code (G : globals) (s : state) (r : N) : N :=
  if negb (r <? g_dram_region_count G) then 1
  else if is_locked G s r then 3
  else if owner_of G s r =? 1 then
    if all_flushed_since G s (blocked_at_of G s r) then 0 else 2
  else if owner_of G s r =? 2 then
    if pinned_of G s r =? 0 then 0 else 2
  else 2.
Definition create_metadata_code (G : globals) (s : state) (r : N) : N :=
  if negb (r <? g_dram_region_count G) then 1
  else if is_locked G s r then 3
  else if owner_of G s r =? 3 then 0 else 2.

(** What a successful call writes. *)
Definition same_memory (s s' : state) : Prop :=
  forall b, s_mem s' b mod 256 = s_mem s b mod 256.
(** Everything but memory and core [c]'s registers. *)
Definition same_others (c : N) (s s' : state) : Prop :=
  (forall c', c' <> c -> s_cores s' c' = s_cores s c') /\ s_words s' = s_words s /\
  s_dmar_base s' = s_dmar_base s /\ s_dmar_mask s' = s_dmar_mask s /\
  s_dma_start s' = s_dma_start s /\ s_dma_end s' = s_dma_end s.
(** The word of bit [r] in the region bitmap of the OS or of an enclave. *)
Definition bit_word (G : globals) (id r : N) : N :=
  (if id =? 0 then g_os_region_bitmap G else id + 304) + 8 * (r / 64).
Definition region_bit (G : globals) (s : state) (id r : N) : bool :=
  N.testbit (word s (bit_word G id r)) (r mod 64).
Definition put_bit (G : globals) (s : state) (id r : N) (v : bool) : state :=
  let w := word s (bit_word G id r) in
  put s (bit_word G id r) (if v then N.setbit w (r mod 64) else N.clearbit w (r mod 64)).
(** The access registers: the OS's (DRBMAP) and the enclave's (EDRBMAP). *)
Definition edrb_bit (r : cregs) (region : N) : bool :=
  N.testbit (r_edrb r (region / 64)) (region mod 64).
(** Core [c] has the bitmap of [id] in the matching access register; its other
    registers are those of [s]. *)
Definition loads_access (G : globals) (c id : N) (s s' : state) : Prop :=
  let r := s_cores s c in let r' := s_cores s' c in
  (forall j, j < g_dram_region_count G ->
     (if id =? 0 then drb_bit r' j else edrb_bit r' j) = region_bit G s' id j) /\
  (if id =? 0 then r_edrb r' = r_edrb r else r_drb r' = r_drb r) /\
  r_par_base r' = r_par_base r /\ r_par_mask r' = r_par_mask r /\
  r_cache_shift r' = r_cache_shift r /\ r_tlb_flushes r' = r_tlb_flushes r.
Definition blocked_state (G : globals) (s : state) (r : N) : state :=
  let own := owner_of G s r in
  let s1 := put s (lock_addr G r + 16) own in
  let s2 := put s1 (lock_addr G r + 8) 1 in
  let s3 := put s2 (g_dram_regions G) ((clock_of G s + 1) mod 2 ^ 64) in
  let s4 := put s3 (lock_addr G r + 32) (clock_of G s) in
  put_bit G s4 own r false.
Definition assigned_state (G : globals) (s : state) (r id : N) : state :=
  put_bit G (put s (lock_addr G r + 8) id) id r true.
Definition freed_state (G : globals) (s : state) (r : N) : state :=
  put s (lock_addr G r + 8) 3.

(** ** Debug copies *)
(** copy_debug_enclave_page: the page addresses; the two locks, of the region of the
    enclave's record and of the OS page, which must be different regions; the
    enclave's debug flag; the enclave's bitmap, the owner of the OS page and the
    identifier. *)
Definition copy_debug_code (G : globals) (pb rb : N) (s : state) (id ea oa : N) : N :=
  let q := main_region G pb rb id in let r := region_of pb rb oa in
  if negb (in_dram_page G ea) || negb (in_dram_page G oa) then 1
  else if is_locked G s q then 3
  else if (r =? q) || is_locked G s r then 3
  else if word s (id + 24) =? 0 then 2
  else if enclave_bit s id (region_of pb rb ea) && (owner_of G s r =? 0) && (owner_of G s q =? id)
  then 0 else 1.
(** The page at [dst] holds what the page at [src] held. *)
Definition page_copied (s s' : state) (dst src : N) : Prop :=
  forall j, j < 4096 -> s_mem s' (dst + j) mod 256 = s_mem s (src + j) mod 256.

(** ** Threads *)
(** A page of an unlocked metadata region. *)
Definition meta_code (G : globals) (pb rb : N) (s : state) (a : N) : N :=
  if negb (in_dram_page G a) then 1
  else if is_locked G s (region_of pb rb a) then 3
  else if owner_of G s (region_of pb rb a) =? 2 then 0 else 2.
(** The map entry the code uses for the page of [a].  In the first stripe of a region it is
    that of the page; further up the number of the stripe is shifted to the left by 64 minus
    the region bits (the code shifts by a negative amount, of which the hardware takes the
    low six bits), which leads far away from the region. *)
Definition entry_at (pb rb a : N) : N :=
  map_entry pb rb a + (a / 2 ^ (12 + pb + rb) * 2 ^ (67 - rb)) mod 2 ^ 64.
(** The record of an enclave, unlocked, by its entry in the region's map. *)
Definition enclave_code (G : globals) (pb rb : N) (s : state) (id : N) : N :=
  if negb (meta_code G pb rb s id =? 0) then meta_code G pb rb s id
  else if negb (word s (entry_at pb rb id) =? enclave_entry id) then 1
  else if negb (word s id =? 0) then 3
  else 0.
(** assign_thread and load_thread: the enclave, the thread's page, and then always
    invalid_state. *)
Definition thread_code (G : globals) (pb rb : N) (s : state) (id t : N) : N :=
  if negb (enclave_code G pb rb s id =? 0) then enclave_code G pb rb s id
  else if negb (meta_code G pb rb s t =? 0) then meta_code G pb rb s t
  else 2.
(** The state afterwards: a lock word of the enclave that was not free is 1, everything
    else is as before. *)
Definition thread_state (G : globals) (pb rb : N) (s : state) (id : N) : state :=
  if (meta_code G pb rb s id =? 0) && (word s (entry_at pb rb id) =? enclave_entry id)
     && negb (word s id =? 0)
  then put s id 1 else s.
