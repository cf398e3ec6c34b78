(** * Model of the monitor's inline helpers:
    src/monitor/{dram_regions.h, dram_regions_inl.h, cpu_core.h, cpu_core_inl.h,
    metadata.h, metadata_inl.h, enclave.h, enclave_inl.h, measure_inl.h,
    mailbox.h} and of the constants of src/monitor/public/api.h. *)
From Coq Require Import NArith ZArith Lia Bool List.
From Verif Require Import Word Machine ModelBare ModelHash.
Import ListNotations.
Open Scope N_scope.

(** ** Constants *)

(** api_result_t: src/monitor/public/api.h:30-78 *)
Definition monitor_ok : N := 0.
Definition monitor_invalid_value : N := 1.
Definition monitor_invalid_state : N := 2.
Definition monitor_concurrent_call : N := 3.
Definition monitor_async_exit : N := 4.
Definition monitor_access_denied : N := 4.
Definition monitor_unsupported : N := 5.

(** dram_region_state_t: src/monitor/public/api.h lines 223-229 *)
Definition dram_region_invalid : N := 0.
Definition dram_region_free : N := 1.
Definition dram_region_blocked : N := 2.
Definition dram_region_locked : N := 3.
Definition dram_region_owned : N := 4.

(** null_enclave_id (src/monitor/public/api.h:19) and the special owners:
    src/monitor/dram_regions.h:128-134 *)
Definition null_enclave_id : N := 0.
Definition blocked_enclave_id : N := 1.
Definition metadata_enclave_id : N := 2.
Definition free_enclave_id : N := 3.

(** Metadata page types: src/monitor/metadata.h:37-57 *)
Definition metadata_page_type_mask : N := 3.
Definition empty_metadata_page_type : N := 0.
Definition inner_metadata_page_type : N := 1.
Definition enclave_metadata_page_type : N := 2.
Definition thread_metadata_page_type : N := 3.

(** ** Globals set at boot and constant afterwards.
    src/monitor/dram_regions.h:60-110, cpu_core.h:45-47, metadata.h:60-66,
    enclave.h:117, boot_init.h:15.  (g_dma_range_start/end are mutable and
    live in the machine state.) *)
Record globals := mkGlobals {
  g_monitor_top : N;
  g_core : N;                     (* address of the core_info_t array *)
  g_core_count : N;
  g_dram_region : N;              (* address of the dram_region_info_t array *)
  g_dram_regions : N;             (* address of the dram_regions_info_t *)
  g_os_region_bitmap : N;         (* address of the OS region bitmap *)
  g_dram_size : N;
  g_dram_region_shift : N;
  g_dram_stripe_shift : N;
  g_dram_stripe_page_mask : N;
  g_dram_region_mask : N;
  g_dram_stripe_mask : N;
  g_dram_region_count : N;
  g_dram_stripe_size : N;
  g_dram_stripe_pages : N;
  g_dram_region_bitmap_words : N;
  g_metadata_region_pages : N;
  g_metadata_region_start : N
}.

(** ** Structure layouts *)

(** dram_region_info_t: src/monitor/dram_regions.h:41-47 *)
Definition dram_region_info_size : N := 40.
Definition dri_lock : N := 0.
Definition dri_owner : N := 8.
Definition dri_previous_owner : N := 16.
Definition dri_pinned_pages : N := 24.
Definition dri_blocked_at : N := 32.
(** dram_regions_info_t: src/monitor/dram_regions.h:50-55 *)
Definition drs_block_clock : N := 0.
Definition dram_regions_info_size : N := 8.
(** core_info_t: src/monitor/cpu_core.h:27-38 *)
Definition core_info_size : N := 32.
Definition ci_enclave_id : N := 0.
Definition ci_thread_id : N := 8.
Definition ci_thread : N := 16.
Definition ci_flushed_at : N := 24.
(** enclave_info_t: src/monitor/enclave.h:60-111 *)
Definition ei_lock : N := 0.
Definition ei_mailbox_count : N := 8.
Definition ei_is_initialized : N := 16.
Definition ei_is_debug : N := 24.
Definition ei_thread_count : N := 32.
Definition ei_dram_region_count : N := 40.
Definition ei_ev_base : N := 48.
Definition ei_ev_mask : N := 56.
Definition ei_load_eptbr : N := 64.
Definition ei_last_load_addr : N := 72.
Definition ei_hash : N := 80.
Definition ei_hash_block : N := 240.
Definition enclave_info_t_size : N := 304.
(** mailbox_t: src/monitor/mailbox.h:15-32 (8 + 8 + 160 + 128 bytes) *)
Definition mailbox_size : N := 304.
(** thread_info_t: src/monitor/enclave.h:25-52; register_state_t has 31 words
    (src/bare/arch/test/cpu_context_arch.h:98-102) *)
Definition ti_lock : N := 0.
Definition ti_entry_pc : N := 8.
Definition ti_entry_stack : N := 16.
Definition ti_fault_pc : N := 24.
Definition ti_fault_stack : N := 32.
Definition ti_eptbr : N := 40.
Definition thread_info_size : N := 552.
(** thread_init_info_t: src/monitor/public/api.h:172-186 *)
Definition tii_entry_pc : N := 0.
Definition tii_entry_stack : N := 8.
Definition tii_fault_pc : N := 16.
Definition tii_fault_stack : N := 24.
Definition tii_eptbr : N := 32.
(** measurement_block_t: src/monitor/measure_inl.h:28-32 *)
Definition mb_opcode : N := 0.
Definition mb_ptr1 : N := 8.
Definition mb_ptr2 : N := 16.
Definition mb_ptr3 : N := 24.
Definition mb_ptr4 : N := 32.
Definition mb_size1 : N := 40.
Definition mb_size2 : N := 48.

(** &g_dram_region[i], &g_core[i]: phys_ptr<T>::operator [],
    src/bare/phys_ptr.h:189-192 *)
Definition region_addr (G : globals) (i : N) : N :=
  wadd (g_dram_region G) (wmul dram_region_info_size i).
Definition core_addr (G : globals) (i : N) : N :=
  wadd (g_core G) (wmul core_info_size i).

(** ** src/monitor/dram_regions_inl.h *)

(** is_dram_address: dram_regions_inl.h:25-27 *)
Definition is_dram_address (G : globals) (address : N) : bool :=
  address <? g_dram_size G.
(** is_valid_dram_region: dram_regions_inl.h:32-34 *)
Definition is_valid_dram_region (G : globals) (dram_region : N) : bool :=
  dram_region <? g_dram_region_count G.
(** is_dynamic_dram_region: dram_regions_inl.h:39-41 *)
Definition is_dynamic_dram_region (G : globals) (dram_region : N) : bool :=
  negb (dram_region =? 0) && is_valid_dram_region G dram_region.
(** dram_region_start: dram_regions_inl.h:46-48 *)
Definition dram_region_start (G : globals) (dram_region : N) : N :=
  wshl dram_region (g_dram_region_shift G).
(** dram_region_for: dram_regions_inl.h:53-55 *)
Definition dram_region_for (G : globals) (address : N) : N :=
  wshr (N.land address (g_dram_region_mask G)) (g_dram_region_shift G).
(** clamped_dram_region_for: dram_regions_inl.h:60-62 *)
Definition clamped_dram_region_for (G : globals) (address : N) : N :=
  if is_dram_address G address then dram_region_for G address else 0.
(** dram_stripe_page_for: dram_regions_inl.h:67-69 *)
Definition dram_stripe_page_for (G : globals) (address : N) : N :=
  wshr (N.land address (g_dram_stripe_page_mask G)) page_shift.
(** dram_stripe_for: dram_regions_inl.h:74-76 *)
Definition dram_stripe_for (G : globals) (address : N) : N :=
  wshr address (g_dram_stripe_shift G).

(** dram_region_page_for: dram_regions_inl.h:84-87. The shift count
    [g_dram_region_shift - g_dram_stripe_shift] is a size_t, and is at least 64
    whenever there is more than one region: undefined behaviour, code 1. *)
Definition page_for_shift (G : globals) : N :=
  wsub (g_dram_region_shift G) (g_dram_stripe_shift G).
Definition dram_region_page_for_val (G : globals) (address : N) : N :=
  N.lor (dram_stripe_page_for G address)
    (wshl (dram_stripe_for G address) (page_for_shift G)).
Definition dram_region_page_for (G : globals) (address : N) : prog N :=
  ub_if (64 <=? page_for_shift G) 1 ;;
  Ret (dram_region_page_for_val G address).

(** test_and_set_dram_region_lock: dram_regions_inl.h:95-98; true when the lock
    was already taken. *)
Definition test_and_set_dram_region_lock (G : globals) (r : N) : prog bool :=
  v <- op1 (OTas (wadd (region_addr G r) dri_lock)) ;; Ret (negb (v =? 0)).
(** clear_dram_region_lock: dram_regions_inl.h:106-109 *)
Definition clear_dram_region_lock (G : globals) (r : N) : prog unit :=
  op1 (OClr (wadd (region_addr G r) dri_lock)) ;; Ret tt.
(** read_dram_region_owner: dram_regions_inl.h:114-117 *)
Definition read_dram_region_owner (G : globals) (r : N) : prog N :=
  load64 (wadd (region_addr G r) dri_owner).

(** The loop of bzero_dram_region (dram_regions_inl.h:127-130); [fuel] bounds
    the number of stripes, [Stop] stands for divergence. *)
Fixpoint bzero_stripes (fuel : nat) (G : globals) (step region_start stripe : N)
  : prog unit :=
  if stripe <? g_dram_size G then
    match fuel with
    | O => Stop
    | S k =>
        bzero64 (N.lor stripe region_start) (g_dram_stripe_size G) ;;
        bzero_stripes k G step region_start (wadd stripe step)
    end
  else Ret tt.
(** bzero_dram_region: dram_regions_inl.h:122-131 *)
Definition bzero_dram_region (G : globals) (dram_region : N) : prog unit :=
  let stripe_step := wshl (g_dram_region_count G) (g_dram_region_shift G) in
  let region_start := wshl dram_region (g_dram_region_shift G) in
  bzero_stripes (S (N.to_nat (g_dram_size G / stripe_step))) G stripe_step
    region_start 0.

(** dram_region_tlb_flush: dram_regions_inl.h:136-147 *)
Definition dram_region_tlb_flush (G : globals) : prog unit :=
  op1 OFlushTlb ;;
  core <- op1 OCore ;;
  block_clock <- load64 (wadd (g_dram_regions G) drs_block_clock) ;;
  store64 (wadd (core_addr G core) ci_flushed_at) block_clock ;;
  Ret tt.

(** ** src/monitor/cpu_core_inl.h *)

(** current_core_info: cpu_core_inl.h:14-16 *)
Definition current_core_info (G : globals) : prog N :=
  core <- op1 OCore ;; Ret (core_addr G core).
(** current_enclave: cpu_core_inl.h:22-25 *)
Definition current_enclave (G : globals) : prog N :=
  ci <- current_core_info G ;; load64 (wadd ci ci_enclave_id).

(** ** src/monitor/measure_inl.h *)

Definition enclave_init_opcode : N := 0xAAAAAAAA.       (* measure_inl.h:37 *)
Definition load_page_table_opcode : N := 0xBBBBBBBB.    (* measure_inl.h:38 *)
Definition load_page_opcode : N := 0xCCCCCCCC.          (* measure_inl.h:39 *)
Definition load_thread_opcode : N := 0xDDDDDDDD.        (* measure_inl.h:40 *)
Definition finalize_enclave_opcode : N := 0xEEEEEEEE.   (* measure_inl.h:41 *)

Definition N_of_bool (b : bool) : N := if b then 1 else 0.

(** enclave_measurement_block: measure_inl.h:46-50 *)
Definition enclave_measurement_block (enclave_info : N) : N :=
  wadd enclave_info ei_hash_block.
(** extend_hash(&enclave_info->hash, enclave_info->hash_block):
    measure_inl.h:73-74 and elsewhere *)
Definition extend_enclave_block (enclave_info : N) : prog unit :=
  extend_hash (wadd enclave_info ei_hash) (wadd enclave_info ei_hash_block).

(** init_enclave_hash: measure_inl.h:55-79 *)
Definition init_enclave_hash (enclave_info ev_base ev_mask mailbox_count : N)
  (debug : bool) : prog unit :=
  bzero64 (wadd enclave_info ei_hash_block) hash_block_size ;;
  init_hash (wadd enclave_info ei_hash) ;;
  let block := enclave_measurement_block enclave_info in
  store64 (wadd block mb_opcode) enclave_init_opcode ;;
  store64 (wadd block mb_ptr1) ev_base ;;
  store64 (wadd block mb_ptr2) ev_mask ;;
  store64 (wadd block mb_size1) mailbox_count ;;
  store64 (wadd block mb_size2) (N_of_bool debug) ;;
  extend_enclave_block enclave_info ;;
  store64 (wadd block mb_ptr1) 0 ;;
  store64 (wadd block mb_ptr2) 0 ;;
  store64 (wadd block mb_size1) 0 ;;
  store64 (wadd block mb_size2) 0 ;;
  Ret tt.

(** extend_enclave_hash_with_page_table: measure_inl.h:84-99 *)
Definition extend_enclave_hash_with_page_table
  (enclave_info virtual_addr level acl : N) : prog unit :=
  let block := enclave_measurement_block enclave_info in
  store64 (wadd block mb_opcode) load_page_table_opcode ;;
  store64 (wadd block mb_ptr1) virtual_addr ;;
  store64 (wadd block mb_ptr2) acl ;;
  store64 (wadd block mb_size1) level ;;
  extend_enclave_block enclave_info ;;
  store64 (wadd block mb_ptr1) 0 ;;
  store64 (wadd block mb_ptr2) 0 ;;
  store64 (wadd block mb_size1) 0 ;;
  Ret tt.

(** extend_enclave_hash_with_page: measure_inl.h:107-126. The loop runs
    page_size() / hash_block_size = 64 times. *)
Definition extend_enclave_hash_with_page
  (enclave_info virtual_addr acl phys_addr : N) : prog unit :=
  let block := enclave_measurement_block enclave_info in
  store64 (wadd block mb_opcode) load_page_opcode ;;
  store64 (wadd block mb_ptr1) virtual_addr ;;
  store64 (wadd block mb_ptr2) acl ;;
  extend_enclave_block enclave_info ;;
  store64 (wadd block mb_ptr1) 0 ;;
  store64 (wadd block mb_ptr2) 0 ;;
  for_n (N.to_nat (page_size / hash_block_size)) 0
    (fun i => extend_hash (wadd enclave_info ei_hash)
                (wadd phys_addr (wmul hash_block_size i))).

(** extend_enclave_hash_with_thread: measure_inl.h:131-148 *)
Definition extend_enclave_hash_with_thread
  (enclave_info entry_pc entry_stack fault_pc fault_stack : N) : prog unit :=
  let block := enclave_measurement_block enclave_info in
  store64 (wadd block mb_opcode) load_thread_opcode ;;
  store64 (wadd block mb_ptr1) entry_pc ;;
  store64 (wadd block mb_ptr2) entry_stack ;;
  store64 (wadd block mb_ptr3) fault_pc ;;
  store64 (wadd block mb_ptr4) fault_stack ;;
  extend_enclave_block enclave_info ;;
  store64 (wadd block mb_ptr1) 0 ;;
  store64 (wadd block mb_ptr2) 0 ;;
  store64 (wadd block mb_ptr3) 0 ;;
  store64 (wadd block mb_ptr4) 0 ;;
  Ret tt.

(** finalize_enclave_hash: measure_inl.h:151-159 *)
Definition finalize_enclave_hash (enclave_info : N) : prog unit :=
  let block := enclave_measurement_block enclave_info in
  store64 (wadd block mb_opcode) finalize_enclave_opcode ;;
  extend_enclave_block enclave_info ;;
  finalize_hash (wadd enclave_info ei_hash).

(** ** src/monitor/metadata_inl.h *)

(** metadata_page_info: metadata_inl.h:29-32 *)
Definition metadata_page_info (owner page_type : N) : N := N.lor owner page_type.
(** empty_metadata_page_info: metadata_inl.h:37-38 *)
Definition empty_metadata_page_info : N :=
  metadata_page_info null_enclave_id empty_metadata_page_type.
(** metadata_page_info_type: metadata_inl.h:41-44 *)
Definition metadata_page_info_type (info : N) : N :=
  N.land info metadata_page_type_mask.

(** init_metadata_region: metadata_inl.h:52-59 *)
Definition init_metadata_region (G : globals) (dram_region : N) : prog unit :=
  let region := region_addr G dram_region in
  store64 (wadd region dri_owner) metadata_enclave_id ;;
  store64 (wadd region dri_pinned_pages) 0 ;;
  bzero64 (dram_region_start G dram_region)
    (wshl (g_metadata_region_start G) page_shift).

(** lock_metadata_region_for: metadata_inl.h:69-84. Returns the result code and
    the region index (the output parameter). *)
Definition lock_metadata_region_for (G : globals) (phys_addr : N)
  : prog (N * N) :=
  if negb (is_page_aligned phys_addr) || negb (is_dram_address G phys_addr)
  then Ret (monitor_invalid_value, 0)
  else
    let dram_region := dram_region_for G phys_addr in
    t <- test_and_set_dram_region_lock G dram_region ;;
    if (t : bool) then Ret (monitor_concurrent_call, dram_region)
    else
      o <- load64 (wadd (region_addr G dram_region) dri_owner) ;;
      if negb (o =? metadata_enclave_id) then
        clear_dram_region_lock G dram_region ;;
        Ret (monitor_invalid_state, dram_region)
      else Ret (monitor_ok, dram_region).

(** metadata_page_info_for: metadata_inl.h:86-90 *)
Definition metadata_page_info_for_val (G : globals) (phys_addr : N) : N :=
  wadd (N.land phys_addr (g_dram_region_mask G))
       (wmul 8 (dram_region_page_for_val G phys_addr)).
Definition metadata_page_info_for (G : globals) (phys_addr : N) : prog N :=
  page <- dram_region_page_for G phys_addr ;;
  Ret (wadd (N.land phys_addr (g_dram_region_mask G)) (wmul 8 page)).

(** assign_metadata_pages: metadata_inl.h:111-129. [free_info] is an unused
    parameter in the code as well. *)
Definition assign_metadata_pages (G : globals)
  (phys_addr page_count owner type free_info : N) : prog N :=
  if g_dram_stripe_pages G <? wadd (dram_stripe_page_for G phys_addr) page_count
  then Ret monitor_invalid_value
  else
    page_info <- metadata_page_info_for G phys_addr ;;
    busy <- for_exit (N.to_nat page_count) 0
              (fun i => v <- load64 (wadd page_info (wmul 8 i)) ;;
                        if v =? 0 then Ret None
                        else Ret (Some monitor_invalid_state)) ;;
    match (busy : option N) with
    | Some e => Ret e
    | None =>
        store64 page_info (metadata_page_info owner type) ;;
        (* for (i = 1; i < page_count; ++i, page_info += 1)
             *page_info = inner_metadata_page_type; *)
        for_n (N.to_nat (page_count - 1)) 0
          (fun i => store64 (wadd page_info (wmul 8 i))
                      inner_metadata_page_type ;; Ret tt) ;;
        Ret monitor_ok
    end.

(** reserve_metadata_pages: metadata_inl.h:149-153 *)
Definition reserve_metadata_pages (G : globals)
  (phys_addr page_count owner type : N) : prog N :=
  assign_metadata_pages G phys_addr page_count owner type
    empty_metadata_page_type.
(** accept_metadata_pages: metadata_inl.h:170-174 *)
Definition accept_metadata_pages (G : globals)
  (phys_addr page_count owner type : N) : prog N :=
  assign_metadata_pages G phys_addr page_count owner type
    (metadata_page_info owner empty_metadata_page_type).

(** lock_enclave: metadata_inl.h:184-207 *)
Definition lock_enclave (G : globals) (enclave_id : N) : prog N :=
  if negb (is_dram_address G enclave_id) || negb (is_page_aligned enclave_id)
  then Ret monitor_invalid_value
  else
    lr <- lock_metadata_region_for G enclave_id ;;
    let '(result, dram_region) := (lr : N * N) in
    if negb (result =? monitor_ok) then Ret result
    else
      page_info <- metadata_page_info_for G enclave_id ;;
      v <- load64 page_info ;;
      result <-
        (if negb (v =? metadata_page_info enclave_id enclave_metadata_page_type)
         then Ret monitor_invalid_value
         else
           t <- op1 (OTas (wadd enclave_id ei_lock)) ;;
           Ret (if t =? 0 then monitor_ok else monitor_concurrent_call)) ;;
      clear_dram_region_lock G dram_region ;;
      Ret result.

(** unlock_enclave: metadata_inl.h:216-219 *)
Definition unlock_enclave (enclave_id : N) : prog unit :=
  op1 (OClr (wadd enclave_id ei_lock)) ;; Ret tt.

(** enclave_region_bitmap: metadata_inl.h:225-228 *)
Definition enclave_region_bitmap (enclave_id : N) : N :=
  wadd enclave_id enclave_info_t_size.
(** enclave_mailboxes: metadata_inl.h:230-233 *)
Definition enclave_mailboxes (G : globals) (enclave_id : N) : N :=
  wadd (enclave_region_bitmap enclave_id)
    (wmul 8 (g_dram_region_bitmap_words G)).
(** enclave_mailbox: metadata_inl.h:235-238 *)
Definition enclave_mailbox (G : globals) (enclave_id mailbox_id : N) : N :=
  wadd (enclave_mailboxes G enclave_id) (wmul mailbox_size mailbox_id).
(** enclave_info_size: metadata_inl.h:250-252 *)
Definition enclave_info_size (G : globals) (mailbox_count : N) : N :=
  enclave_mailbox G 0 mailbox_count.
(** enclave_info_pages: metadata_inl.h:257-259 *)
Definition enclave_info_pages (G : globals) (mailbox_count : N) : N :=
  pages_needed_for (enclave_info_size G mailbox_count).
(** thread_metadata_size, thread_metadata_pages: metadata_inl.h:262-269 *)
Definition thread_metadata_size : N := thread_info_size.
Definition thread_metadata_pages : N := pages_needed_for thread_metadata_size.

(** set_enclave_region_bitmap_bit: metadata_inl.h:276-284 *)
Definition set_enclave_region_bitmap_bit (G : globals)
  (enclave_id dram_region : N) (true_for_set : bool) : prog unit :=
  if enclave_id =? null_enclave_id
  then set_bitmap_bit (g_os_region_bitmap G) dram_region true_for_set
  else set_bitmap_bit (enclave_region_bitmap enclave_id) dram_region
         true_for_set.
(** read_enclave_region_bitmap_bit: metadata_inl.h:291-297 *)
Definition read_enclave_region_bitmap_bit (G : globals)
  (enclave_id dram_region : N) : prog bool :=
  if enclave_id =? null_enclave_id
  then read_bitmap_bit (g_os_region_bitmap G) dram_region
  else read_bitmap_bit (enclave_region_bitmap enclave_id) dram_region.
(** is_valid_enclave_id: metadata_inl.h:307-314 *)
Definition is_valid_enclave_id (G : globals) (enclave_id : N) : prog bool :=
  let dram_region := clamped_dram_region_for G enclave_id in
  o <- load64 (wadd (region_addr G dram_region) dri_owner) ;;
  Ret (o =? enclave_id).

(** ** src/monitor/enclave_inl.h *)

(** is_enclave_virtual_address: enclave_inl.h:30-35 *)
Definition is_enclave_virtual_address (virtual_addr enclave_id : N)
  : prog bool :=
  m <- load64 (wadd enclave_id ei_ev_mask) ;;
  b <- load64 (wadd enclave_id ei_ev_base) ;;
  Ret (N.land virtual_addr m =? b).

(** The loop of walk_page_tables_to_entry (enclave_inl.h:58-72). [wl] is
    walk_level before the decrement. Reaching 0 means that [level] was not a
    valid level: the C++ loop does not stop at a valid table then. *)
Fixpoint walk_loop (pa : pt_arch) (wl : nat) (addr_shift table_addr
  virtual_addr : N) (level : nat) : prog N :=
  match wl with
  | O => Stop
  | S l =>
      let addr_shift := wsub addr_shift (pa_shift pa l) in
      let addr_mask := int_pred (int_shl 1 (pa_shift pa l)) in
      let entry_offset := N.land (wshr virtual_addr addr_shift) addr_mask in
      let entry_addr :=
        wadd table_addr (wshl entry_offset (pa_entry_shift pa l)) in
      if Nat.eqb l level then Ret entry_addr
      else
        v <- is_valid_page_table_entry entry_addr ;;
        if (v : bool) then
          t <- page_table_entry_target entry_addr ;;
          walk_loop pa l addr_shift t virtual_addr level
        else Ret 0
  end.
(** walk_page_tables_to_entry: enclave_inl.h:46-74 *)
Definition walk_page_tables_to_entry (pa : pt_arch) (ptb virtual_addr : N)
  (level : nat) : prog N :=
  if ptb =? 0 then Ret 0
  else walk_loop pa (pa_levels pa) (page_table_translated_bits pa) ptb
         virtual_addr level.
(** walk_page_tables: enclave_inl.h:85-92 *)
Definition walk_page_tables (pa : pt_arch) (ptb virtual_addr : N) : prog N :=
  entry_addr <- walk_page_tables_to_entry pa ptb virtual_addr 0 ;;
  if entry_addr =? 0 then Ret 0
  else
    v <- is_valid_page_table_entry entry_addr ;;
    if (v : bool) then page_table_entry_target entry_addr else Ret 0.

(** init_enclave_info: enclave_inl.h:98-111 *)
Definition init_enclave_info (enclave_info ev_base ev_mask mailbox_count : N)
  (debug : bool) : prog unit :=
  op1 (OClr (wadd enclave_info ei_lock)) ;;
  store64 (wadd enclave_info ei_mailbox_count) mailbox_count ;;
  store64 (wadd enclave_info ei_is_initialized) 0 ;;
  store64 (wadd enclave_info ei_is_debug) (N_of_bool debug) ;;
  store64 (wadd enclave_info ei_ev_base) ev_base ;;
  store64 (wadd enclave_info ei_ev_mask) ev_mask ;;
  store64 (wadd enclave_info ei_load_eptbr) 0 ;;
  store64 (wadd enclave_info ei_last_load_addr) 0 ;;
  store64 (wadd enclave_info ei_thread_count) 0 ;;
  store64 (wadd enclave_info ei_dram_region_count) 0 ;;
  init_enclave_hash enclave_info ev_base ev_mask mailbox_count debug.
