(** * Model of src/monitor/enclave.cc and src/monitor/enclave_init.cc.

    Code inside /* ... */ comments in the C++ sources is not modelled, because
    it is not executed. *)
From Coq Require Import NArith ZArith Lia Bool List.
From Verif Require Import Word Machine ModelBare ModelHash ModelInl.
Import ListNotations.
Open Scope N_scope.

(** enclave_id == null_enclave_id || !is_valid_enclave_id(enclave_id):
    enclave.cc:75, 148; enclave_init.cc:77, 162, 242 *)
Definition bad_enclave_id (G : globals) (enclave_id : N) : prog bool :=
  if enclave_id =? null_enclave_id then Ret true
  else v <- is_valid_enclave_id G enclave_id ;; Ret (negb v).

(** ** enclave_init.cc *)

(** load_page_table: enclave_init.cc:60-147 (lines 96-143 are commented out) *)
Definition load_page_table (G : globals) (pa : pt_arch)
  (enclave_id phys_addr virtual_addr level acl : N) : prog N :=
  if negb (is_dram_address G phys_addr) then Ret monitor_invalid_value
  else if negb (is_page_aligned phys_addr) then Ret monitor_invalid_value
  else if N.of_nat (pa_levels pa) <=? level then Ret monitor_invalid_value
  else
  let dram_region := clamped_dram_region_for G enclave_id in
  t <- test_and_set_dram_region_lock G dram_region ;;
  if (t : bool) then Ret monitor_concurrent_call
  else
  bad <- bad_enclave_id G enclave_id ;;
  if (bad : bool) then
    clear_dram_region_lock G dram_region ;; Ret monitor_invalid_value
  else
  init <- load64 (wadd enclave_id ei_is_initialized) ;;
  if negb (init =? 0) then
    clear_dram_region_lock G dram_region ;; Ret monitor_invalid_state
  else
  last <- load64 (wadd enclave_id ei_last_load_addr) ;;
  if phys_addr <=? last then
    clear_dram_region_lock G dram_region ;; Ret monitor_invalid_value
  else
  badva <- (if negb (level =? wsub (N.of_nat (pa_levels pa)) 1)
            then v <- is_enclave_virtual_address virtual_addr enclave_id ;;
                 Ret (negb v)
            else Ret false) ;;
  if (badva : bool) then
    clear_dram_region_lock G dram_region ;; Ret monitor_invalid_value
  else
  clear_dram_region_lock G dram_region ;;
  Ret monitor_ok.

(** load_page: enclave_init.cc:149-233 (lines 180-230 are commented out) *)
Definition load_page (G : globals)
  (enclave_id phys_addr virtual_addr os_addr acl : N) : prog N :=
  if negb (is_dram_address G phys_addr) || negb (is_dram_address G os_addr)
  then Ret monitor_invalid_value
  else if negb (is_page_aligned phys_addr) || negb (is_page_aligned os_addr)
  then Ret monitor_invalid_value
  else
  let dram_region := clamped_dram_region_for G enclave_id in
  t <- test_and_set_dram_region_lock G dram_region ;;
  if (t : bool) then Ret monitor_concurrent_call
  else
  bad <- bad_enclave_id G enclave_id ;;
  if (bad : bool) then
    clear_dram_region_lock G dram_region ;; Ret monitor_invalid_value
  else
  init <- load64 (wadd enclave_id ei_is_initialized) ;;
  if negb (init =? 0) then
    clear_dram_region_lock G dram_region ;; Ret monitor_invalid_state
  else
  last <- load64 (wadd enclave_id ei_last_load_addr) ;;
  if phys_addr <=? last then
    clear_dram_region_lock G dram_region ;; Ret monitor_invalid_value
  else
  v <- is_enclave_virtual_address virtual_addr enclave_id ;;
  if negb v then
    clear_dram_region_lock G dram_region ;; Ret monitor_invalid_value
  else
  clear_dram_region_lock G dram_region ;;
  Ret monitor_ok.

(** init_enclave: enclave_init.cc:235-258 *)
Definition init_enclave (G : globals) (enclave_id : N) : prog N :=
  let dram_region := clamped_dram_region_for G enclave_id in
  t <- test_and_set_dram_region_lock G dram_region ;;
  if (t : bool) then Ret monitor_concurrent_call
  else
  bad <- bad_enclave_id G enclave_id ;;
  if (bad : bool) then
    clear_dram_region_lock G dram_region ;; Ret monitor_invalid_value
  else
  init <- load64 (wadd enclave_id ei_is_initialized) ;;
  if negb (init =? 0) then
    clear_dram_region_lock G dram_region ;; Ret monitor_invalid_state
  else
  finalize_enclave_hash enclave_id ;;
  store64 (wadd enclave_id ei_is_initialized) 1 ;;
  clear_dram_region_lock G dram_region ;;
  Ret monitor_ok.

(** ** enclave.cc *)

(** Clears the locks of regions [0, n) that belong to the bitmap, except the
    enclave's main region: enclave.cc:98-104 and 129-135. *)
Definition unlock_enclave_regions (G : globals) (region_bitmap dram_region n : N)
  : prog unit :=
  for_n (N.to_nat n) 0
    (fun i =>
       if i =? dram_region then Ret tt
       else
         b <- read_bitmap_bit region_bitmap i ;;
         if (b : bool) then clear_dram_region_lock G i else Ret tt).

(** delete_enclave: enclave.cc:68-138. In the freeing loop the bitmap is read
    at [region_iterator] (line 113), which equals g_dram_region_count there. *)
Definition delete_enclave (G : globals) (enclave_id : N) : prog N :=
  let dram_region := clamped_dram_region_for G enclave_id in
  t <- test_and_set_dram_region_lock G dram_region ;;
  if (t : bool) then Ret monitor_concurrent_call
  else
  bad <- bad_enclave_id G enclave_id ;;
  if (bad : bool) then
    clear_dram_region_lock G dram_region ;; Ret monitor_invalid_value
  else
  tc <- load64 (wadd enclave_id ei_thread_count) ;;
  if negb (tc =? 0) then
    clear_dram_region_lock G dram_region ;; Ret monitor_invalid_state
  else
  let region_bitmap := enclave_region_bitmap enclave_id in
  stuck <- for_exit (N.to_nat (g_dram_region_count G)) 0
    (fun i =>
       if i =? dram_region then Ret None
       else
         b <- read_bitmap_bit region_bitmap i ;;
         if (b : bool) then
           t <- test_and_set_dram_region_lock G i ;;
           if (t : bool) then Ret (Some i) else Ret None
         else Ret None) ;;
  match (stuck : option N) with
  | Some region_iterator =>
      unlock_enclave_regions G region_bitmap dram_region region_iterator ;;
      clear_dram_region_lock G dram_region ;;
      Ret monitor_concurrent_call
  | None =>
      let region_iterator := g_dram_region_count G in
      for_n (N.to_nat (g_dram_region_count G)) 0
        (fun i =>
           b <- read_bitmap_bit region_bitmap region_iterator ;;
           if (b : bool) then
             store64 (wadd (region_addr G i) dri_owner) free_enclave_id ;;
             store64 (wadd (region_addr G i) dri_pinned_pages) 0 ;;
             bzero_dram_region G i
           else Ret tt) ;;
      unlock_enclave_regions G region_bitmap dram_region
        (g_dram_region_count G) ;;
      clear_dram_region_lock G dram_region ;;
      Ret monitor_ok
  end.

(** enter_enclave: enclave.cc:140-200 (lines 161-192 are commented out; the
    region lock is still held at the return of line 199) *)
Definition enter_enclave (G : globals) (enclave_id thread_id : N) : prog N :=
  let dram_region := clamped_dram_region_for G enclave_id in
  t <- test_and_set_dram_region_lock G dram_region ;;
  if (t : bool) then Ret monitor_concurrent_call
  else
  bad <- bad_enclave_id G enclave_id ;;
  if (bad : bool) then
    clear_dram_region_lock G dram_region ;; Ret monitor_invalid_value
  else
  init <- load64 (wadd enclave_id ei_is_initialized) ;;
  if init =? 0 then
    clear_dram_region_lock G dram_region ;; Ret monitor_invalid_state
  else Ret monitor_ok.

(** copy_debug_enclave_page: enclave.cc:202-259. The copy loops (lines 246-252)
    run page_size() / sizeof(size_t) times. *)
Definition copy_debug_enclave_page (G : globals)
  (enclave_id enclave_addr os_addr : N) (read_from_enclave : bool) : prog N :=
  if negb (is_page_aligned enclave_addr) || negb (is_page_aligned os_addr)
  then Ret monitor_invalid_value
  else if negb (is_dram_address G enclave_addr) ||
          negb (is_dram_address G os_addr)
  then Ret monitor_invalid_value
  else
  let enclave_dram_region := clamped_dram_region_for G enclave_id in
  let enclave_addr_dram_region := dram_region_for G enclave_addr in
  let os_addr_dram_region := dram_region_for G os_addr in
  t <- test_and_set_dram_region_lock G enclave_dram_region ;;
  if (t : bool) then Ret monitor_concurrent_call
  else
  t2 <- test_and_set_dram_region_lock G os_addr_dram_region ;;
  if (t2 : bool) then
    clear_dram_region_lock G enclave_dram_region ;;
    Ret monitor_concurrent_call
  else
  o1 <- read_dram_region_owner G enclave_dram_region ;;
  o2 <- read_dram_region_owner G os_addr_dram_region ;;
  b <- read_enclave_region_bitmap_bit G enclave_id enclave_addr_dram_region ;;
  dbg <- load64 (wadd enclave_id ei_is_debug) ;;
  let result := monitor_ok in
  let result := if negb (o1 =? enclave_id) then monitor_invalid_value
                else result in
  let result := if negb (o2 =? null_enclave_id) then monitor_invalid_value
                else result in
  let result := if negb b then monitor_invalid_value else result in
  let result := if dbg =? 0 then monitor_invalid_state else result in
  (if result =? monitor_ok then
     if read_from_enclave
     then bcopy64 os_addr enclave_addr page_size
     else bcopy64 enclave_addr os_addr page_size
   else Ret tt) ;;
  clear_dram_region_lock G os_addr_dram_region ;;
  clear_dram_region_lock G enclave_dram_region ;;
  Ret result.

(** The loop of create_thread over pages, enclave.cc:294-302: [page_addr]
    runs from phys_addr below phys_end; thread_metadata_size() is less than a
    page, so one page is visited (phys_end does not wrap: it was checked that
    phys_end - 1 is a DRAM address; for the last page below 2^64 page_addr then wraps to 0, in
    region 0, and the loop returns: ConcBound.w_thread_pages). *)
Fixpoint thread_pages (fuel : nat) (G : globals) (page_addr phys_end region : N)
  : prog bool :=
  if page_addr <? phys_end then
    match fuel with
    | O => Stop
    | S k => if negb (dram_region_for G page_addr =? region) then Ret true
             else thread_pages k G (wadd page_addr page_size) phys_end region
    end
  else Ret false.

(** create_thread: enclave.cc:269-350 (lines 304-348 are commented out; the
    region lock is still held at the return of line 349) *)
Definition create_thread (G : globals) (thread_id phys_addr : N) : prog N :=
  if negb (is_page_aligned phys_addr) then Ret monitor_invalid_value
  else if negb (is_dram_address G phys_addr) then Ret monitor_invalid_value
  else
  let phys_end := wadd phys_addr thread_metadata_size in
  if negb (is_dram_address G (wsub phys_end 1)) then Ret monitor_invalid_value
  else
  enclave_id <- current_enclave G ;;
  let dram_region := dram_region_for G enclave_id in
  t <- test_and_set_dram_region_lock G dram_region ;;
  if (t : bool) then Ret monitor_concurrent_call
  else
  let thread_dram_region := dram_region_for G phys_addr in
  b <- read_bitmap_bit (enclave_region_bitmap enclave_id) thread_dram_region ;;
  if negb b then
    clear_dram_region_lock G dram_region ;; Ret monitor_invalid_state
  else
  span <- thread_pages 2 G phys_addr phys_end thread_dram_region ;;
  if (span : bool) then
    clear_dram_region_lock G dram_region ;; Ret monitor_unsupported
  else Ret monitor_ok.

(** delete_thread: enclave.cc:352-399 (lines 358-397 are commented out) *)
Definition delete_thread (G : globals) (thread_id : N) : prog N :=
  enclave_id <- current_enclave G ;;
  let dram_region := dram_region_for G enclave_id in
  t <- test_and_set_dram_region_lock G dram_region ;;
  if (t : bool) then Ret monitor_concurrent_call
  else Ret monitor_ok.

(** exit_enclave: enclave.cc:401-435 (lines 410-433 are commented out) *)
Definition exit_enclave (G : globals) : prog N :=
  core <- current_core_info G ;;
  load64 (wadd core ci_enclave_id) ;;
  load64 (wadd core ci_thread_id) ;;
  load64 (wadd core ci_thread) ;;
  Ret monitor_ok.
