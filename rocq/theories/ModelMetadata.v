(** * Model of src/monitor/metadata.cc *)
From Coq Require Import NArith ZArith Lia Bool List.
From Verif Require Import Word Machine ModelBare ModelHash ModelInl.
Import ListNotations.
Open Scope N_scope.

(** metadata_region_pages, metadata_region_start, enclave_metadata_pages,
    thread_metadata_pages: metadata.cc:55-69 *)
Definition metadata_region_pages (G : globals) : N := g_metadata_region_pages G.
Definition metadata_region_start (G : globals) : N := g_metadata_region_start G.
Definition enclave_metadata_pages (G : globals) (mailbox_count : N) : N :=
  enclave_info_pages G mailbox_count.
Definition api_thread_metadata_pages : N := thread_metadata_pages.

(** create_enclave: metadata.cc:71-101 *)
Definition create_enclave (G : globals)
  (enclave_id ev_base ev_mask mailbox_count : N) (debug : bool) : prog N :=
  if negb (is_valid_range ev_base ev_mask) then Ret monitor_invalid_value
  else if wadd ev_mask 1 <? page_size then Ret monitor_invalid_value
  else
  lr <- lock_metadata_region_for G enclave_id ;;
  let '(result, dram_region) := (lr : N * N) in
  if negb (result =? monitor_ok) then Ret result
  else
  owner <- load64 (wadd (region_addr G dram_region) dri_owner) ;;
  if negb (owner =? metadata_enclave_id) then
    clear_dram_region_lock G dram_region ;;
    Ret monitor_invalid_value
  else
  result <- reserve_metadata_pages G enclave_id
              (enclave_info_pages G mailbox_count) enclave_id
              enclave_metadata_page_type ;;
  if negb (result =? monitor_ok) then
    clear_dram_region_lock G dram_region ;;
    Ret result
  else
  init_enclave_info enclave_id ev_base ev_mask mailbox_count debug ;;
  clear_dram_region_lock G dram_region ;;
  Ret monitor_ok.

(** assign_thread: metadata.cc:103-134 *)
Definition assign_thread (G : globals) (enclave_id thread_id : N) : prog N :=
  result <- lock_enclave G enclave_id ;;
  if negb (result =? monitor_ok) then Ret result
  else
  lr <- lock_metadata_region_for G thread_id ;;
  let '(result, dram_region) := (lr : N * N) in
  if negb (result =? monitor_ok) then
    unlock_enclave enclave_id ;;
    Ret result
  else
  init <- load64 (wadd enclave_id ei_is_initialized) ;;
  result <-
    (if negb (init =? 0)
     then reserve_metadata_pages G enclave_id thread_metadata_pages enclave_id
            thread_metadata_page_type
     else Ret monitor_invalid_state) ;;
  if negb (result =? monitor_ok) then
    clear_dram_region_lock G dram_region ;;
    unlock_enclave enclave_id ;;
    Ret result
  else
  tc <- load64 (wadd enclave_id ei_thread_count) ;;
  store64 (wadd enclave_id ei_thread_count) (wadd tc 1) ;;
  clear_dram_region_lock G dram_region ;;
  unlock_enclave enclave_id ;;
  Ret monitor_ok.

(** load_thread: metadata.cc:136-182 *)
Definition load_thread (G : globals)
  (enclave_id thread_id entry_pc entry_stack fault_pc fault_stack : N)
  : prog N :=
  result <- lock_enclave G enclave_id ;;
  if negb (result =? monitor_ok) then Ret result
  else
  lr <- lock_metadata_region_for G thread_id ;;
  let '(result, thread_dram_region) := (lr : N * N) in
  if negb (result =? monitor_ok) then
    unlock_enclave enclave_id ;;
    Ret result
  else
  init <- load64 (wadd enclave_id ei_is_initialized) ;;
  result <-
    (if negb (init =? 0) then Ret monitor_invalid_state
     else
       eptbr <- load64 (wadd enclave_id ei_load_eptbr) ;;
       if eptbr =? 0 then Ret monitor_invalid_state
       else reserve_metadata_pages G enclave_id thread_metadata_pages
              enclave_id thread_metadata_page_type) ;;
  if negb (result =? monitor_ok) then
    clear_dram_region_lock G thread_dram_region ;;
    unlock_enclave enclave_id ;;
    Ret result
  else
  tc <- load64 (wadd enclave_id ei_thread_count) ;;
  store64 (wadd enclave_id ei_thread_count) (wadd tc 1) ;;
  op1 (OClr (wadd thread_id ti_lock)) ;;
  store64 (wadd thread_id ti_entry_pc) entry_pc ;;
  store64 (wadd thread_id ti_entry_stack) entry_stack ;;
  store64 (wadd thread_id ti_fault_pc) fault_pc ;;
  store64 (wadd thread_id ti_fault_stack) fault_stack ;;
  eptbr <- load64 (wadd enclave_id ei_load_eptbr) ;;
  store64 (wadd thread_id ti_eptbr) eptbr ;;
  extend_enclave_hash_with_thread enclave_id entry_pc entry_stack fault_pc
    fault_stack ;;
  clear_dram_region_lock G thread_dram_region ;;
  unlock_enclave enclave_id ;;
  Ret monitor_ok.

(** accept_thread: metadata.cc:191-250. Note the argument of the first
    test_and_set_dram_region_lock (line 198), an address. *)
Definition accept_thread (G : globals) (thread_id thread_info_addr : N)
  : prog N :=
  if negb (is_dram_address G thread_info_addr) ||
     negb (is_page_aligned thread_info_addr)
  then Ret monitor_invalid_value
  else
  enclave_id <- current_enclave G ;;
  let thread_dram_region := dram_region_for G thread_info_addr in
  t <- test_and_set_dram_region_lock G thread_info_addr ;;
  if (t : bool) then Ret monitor_concurrent_call
  else
  o <- read_dram_region_owner G thread_dram_region ;;
  if negb (o =? enclave_id) then
    clear_dram_region_lock G thread_dram_region ;;
    Ret monitor_invalid_value
  else
  let enclave_dram_region := dram_region_for G enclave_id in
  t2 <- test_and_set_dram_region_lock G enclave_dram_region ;;
  if (t2 : bool) then
    clear_dram_region_lock G thread_dram_region ;;
    Ret monitor_concurrent_call
  else
  result <- accept_metadata_pages G thread_id thread_metadata_pages enclave_id
              thread_metadata_page_type ;;
  if negb (result =? monitor_ok) then
    clear_dram_region_lock G enclave_dram_region ;;
    clear_dram_region_lock G thread_dram_region ;;
    Ret result
  else
  op1 (OClr (wadd thread_id ti_lock)) ;;
  entry_pc <- load64 (wadd thread_info_addr tii_entry_pc) ;;
  entry_stack <- load64 (wadd thread_info_addr tii_entry_stack) ;;
  fault_pc <- load64 (wadd thread_info_addr tii_fault_pc) ;;
  fault_stack <- load64 (wadd thread_info_addr tii_fault_stack) ;;
  eptbr <- load64 (wadd thread_info_addr tii_eptbr) ;;
  store64 (wadd thread_id ti_entry_pc) entry_pc ;;
  store64 (wadd thread_id ti_entry_stack) entry_stack ;;
  store64 (wadd thread_id ti_fault_pc) fault_pc ;;
  store64 (wadd thread_id ti_fault_stack) fault_stack ;;
  store64 (wadd thread_id ti_eptbr) eptbr ;;
  clear_dram_region_lock G enclave_dram_region ;;
  clear_dram_region_lock G thread_dram_region ;;
  Ret monitor_ok.
