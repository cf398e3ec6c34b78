(** * Model of src/monitor/dram_regions.cc *)
From Coq Require Import NArith ZArith Lia Bool List.
From Verif Require Import Word Machine ModelBare ModelHash ModelInl.
Import ListNotations.
Open Scope N_scope.

(** dram_size, dram_region_mask: dram_regions.cc:76-81 *)
Definition dram_size (G : globals) : N := g_dram_size G.
Definition dram_region_mask (G : globals) : N := g_dram_region_mask G.

(** The four comparisons of block_dram_region: dram_regions.cc:117-124 *)
Definition dma_range_crossed (region_start region_end dma_start dma_end : N)
  : bool :=
  ((region_start <=? dma_start) && (dma_end <=? region_end)) ||
  ((region_start <=? dma_end) && (dma_end <=? region_end)) ||
  ((dma_start <=? region_start) && (region_start <=? dma_end)) ||
  ((dma_start <=? region_end) && (region_end <=? dma_end)).

(** The DMA check of block_dram_region: dram_regions.cc:113-131, true if the
    call must be refused. *)
Definition dma_check (G : globals) (dram_region owner_dram_region : N)
  : prog bool :=
  if owner_dram_region =? 0 then
    let region_start := dram_region_start G dram_region in
    let region_end := dram_region_start G (wadd dram_region 1) in
    s <- op1 OGetDmaStart ;;
    e <- op1 OGetDmaEnd ;;
    Ret (dma_range_crossed region_start region_end s e)
  else Ret false.

(** block_dram_region: dram_regions.cc:82-150 *)
Definition block_dram_region (G : globals) (dram_region : N) : prog N :=
  if negb (is_dynamic_dram_region G dram_region)
  then Ret monitor_invalid_value
  else
  t <- test_and_set_dram_region_lock G dram_region ;;
  if (t : bool) then Ret monitor_concurrent_call
  else
  owner <- read_dram_region_owner G dram_region ;;
  cur <- current_enclave G ;;
  if negb (owner =? cur) then
    clear_dram_region_lock G dram_region ;;
    Ret monitor_access_denied
  else
  let region := region_addr G dram_region in
  pinned <- (if negb (owner =? null_enclave_id)
             then load64 (wadd region dri_pinned_pages) else Ret 0) ;;
  if negb (owner =? null_enclave_id) && negb (pinned =? 0) then
    clear_dram_region_lock G dram_region ;;
    Ret monitor_invalid_state
  else
  let owner_dram_region := dram_region_for G owner in
  t2 <- test_and_set_dram_region_lock G owner_dram_region ;;
  if (t2 : bool) then
    clear_dram_region_lock G dram_region ;;
    Ret monitor_concurrent_call
  else
  crossed <- dma_check G dram_region owner_dram_region ;;
  if (crossed : bool) then
    clear_dram_region_lock G owner_dram_region ;;
    clear_dram_region_lock G dram_region ;;
    Ret monitor_invalid_state
  else
  store64 (wadd region dri_previous_owner) owner ;;
  store64 (wadd region dri_owner) blocked_enclave_id ;;
  block_clock <- op1 (OFadd (wadd (g_dram_regions G) drs_block_clock) 1) ;;
  store64 (wadd region dri_blocked_at) block_clock ;;
  set_enclave_region_bitmap_bit G owner dram_region false ;;
  (if owner =? 0
   then op1 (OSetDrb (g_os_region_bitmap G))
   else op1 (OSetEdrb (enclave_region_bitmap owner))) ;;
  clear_dram_region_lock G owner_dram_region ;;
  clear_dram_region_lock G dram_region ;;
  Ret monitor_ok.

(** dram_region_check_ownership: dram_regions.cc:159-178 *)
Definition dram_region_check_ownership (G : globals) (dram_region : N)
  : prog N :=
  if negb (is_dynamic_dram_region G dram_region)
  then Ret monitor_invalid_value
  else
  t <- test_and_set_dram_region_lock G dram_region ;;
  if (t : bool) then Ret monitor_concurrent_call
  else
  owner <- read_dram_region_owner G dram_region ;;
  cur <- current_enclave G ;;
  let result := if owner =? cur then monitor_ok else monitor_invalid_state in
  clear_dram_region_lock G dram_region ;;
  Ret result.

(** dram_region_state: dram_regions.cc:188-212 *)
Definition dram_region_state (G : globals) (dram_region : N) : prog N :=
  if negb (is_valid_dram_region G dram_region) then Ret dram_region_invalid
  else
  t <- test_and_set_dram_region_lock G dram_region ;;
  if (t : bool) then Ret dram_region_locked
  else
  owner <- read_dram_region_owner G dram_region ;;
  let state :=
    if owner =? null_enclave_id then dram_region_owned
    else if owner =? blocked_enclave_id then dram_region_blocked
    else if owner =? free_enclave_id then dram_region_free
    else dram_region_owned in
  clear_dram_region_lock G dram_region ;;
  Ret state.

(** dram_region_owner: dram_regions.cc:214-227 *)
Definition dram_region_owner (G : globals) (dram_region : N) : prog N :=
  if negb (is_valid_dram_region G dram_region) then Ret null_enclave_id
  else
  t <- test_and_set_dram_region_lock G dram_region ;;
  if (t : bool) then Ret null_enclave_id
  else
  owner <- read_dram_region_owner G dram_region ;;
  let owner :=
    if (owner =? blocked_enclave_id) || (owner =? free_enclave_id)
    then null_enclave_id else owner in
  clear_dram_region_lock G dram_region ;;
  Ret owner.

(** The loop of set_dma_range: dram_regions.cc:245-266. Yields [None] when a
    lock could not be acquired (the function then returns), otherwise the value
    of os_owns_regions.  [fuel] bounds the number of stripes; [Stop] stands for
    a loop that does not end. set_dma_range supplies one more than the stripes of the range
    plus the regions: when stripe_addr wraps around 2^64 (LoopProofs.v) that many suffice to
    visit every region once, after which, with nobody interfering, nothing changes. *)
Fixpoint dma_stripes (fuel : nat) (G : globals) (stripe_addr range_end : N)
  (os_owns_regions : bool) : prog (option bool) :=
  if stripe_addr <? range_end then
    match fuel with
    | O => Stop
    | S k =>
        let dram_region := dram_region_for G stripe_addr in
        t <- (if negb (dram_region =? 0)
              then test_and_set_dram_region_lock G dram_region
              else Ret false) ;;
        if (t : bool) then Ret None
        else
        o <- load64 (wadd (region_addr G dram_region) dri_owner) ;;
        (if negb (dram_region =? 0)
         then clear_dram_region_lock G dram_region else Ret tt) ;;
        dma_stripes k G (wadd stripe_addr (g_dram_stripe_size G)) range_end
          (if negb (o =? 0) then false else os_owns_regions)
    end
  else Ret (Some os_owns_regions).

(** set_dma_range: dram_regions.cc:229-277. The value of os_owns_regions is
    computed and never used, as in the code. *)
Definition set_dma_range (G : globals) (base mask : N) : prog N :=
  if negb (is_valid_range base mask) then Ret monitor_invalid_value
  else if negb (is_dram_address G (N.lor base mask))
  then Ret monitor_invalid_value
  else
  t <- test_and_set_dram_region_lock G 0 ;;
  if (t : bool) then Ret monitor_concurrent_call
  else
  let range_end := wadd (N.lor base mask) 1 in
  r <- dma_stripes (S (N.to_nat ((range_end - base) / g_dram_stripe_size G
                                  + g_dram_region_count G)))
         G base range_end true ;;
  match (r : option bool) with
  | None =>
      clear_dram_region_lock G 0 ;;
      Ret monitor_concurrent_call
  | Some os_owns_regions =>
      op1 (OSetDmaStart base) ;;
      op1 (OSetDmaEnd range_end) ;;
      op1 (OSetDmarBase base) ;;
      op1 (OSetDmarMask (wnot mask)) ;;
      clear_dram_region_lock G 0 ;;
      Ret monitor_ok
  end.

(** create_metadata_region: dram_regions.cc:279-294 *)
Definition create_metadata_region (G : globals) (dram_region : N) : prog N :=
  if negb (is_valid_dram_region G dram_region) then Ret monitor_invalid_value
  else
  t <- test_and_set_dram_region_lock G dram_region ;;
  if (t : bool) then Ret monitor_concurrent_call
  else
  owner <- read_dram_region_owner G dram_region ;;
  if negb (owner =? free_enclave_id) then
    clear_dram_region_lock G dram_region ;;
    Ret monitor_invalid_state
  else
  init_metadata_region G dram_region ;;
  clear_dram_region_lock G dram_region ;;
  Ret monitor_ok.

(** assign_dram_region: dram_regions.cc:296-337 *)
Definition assign_dram_region (G : globals) (dram_region new_owner : N)
  : prog N :=
  if negb (is_valid_dram_region G dram_region) then Ret monitor_invalid_value
  else
  t <- test_and_set_dram_region_lock G dram_region ;;
  if (t : bool) then Ret monitor_concurrent_call
  else
  owner <- read_dram_region_owner G dram_region ;;
  if negb (owner =? free_enclave_id) then
    clear_dram_region_lock G dram_region ;;
    Ret monitor_invalid_state
  else
  let new_owner_dram_region := dram_region_for G new_owner in
  t2 <- test_and_set_dram_region_lock G new_owner_dram_region ;;
  if (t2 : bool) then
    clear_dram_region_lock G dram_region ;;
    Ret monitor_concurrent_call
  else
  valid <- is_valid_enclave_id G new_owner ;;
  result <-
    (if (valid : bool) then
       store64 (wadd (region_addr G dram_region) dri_owner) new_owner ;;
       set_enclave_region_bitmap_bit G new_owner dram_region true ;;
       (if new_owner =? 0
        then op1 (OSetDrb (g_os_region_bitmap G)) ;; Ret tt
        else Ret tt) ;;
       Ret monitor_ok
     else Ret monitor_invalid_value) ;;
  clear_dram_region_lock G new_owner_dram_region ;;
  clear_dram_region_lock G dram_region ;;
  Ret result.

(** The loop of free_dram_region over the cores: dram_regions.cc:359-365;
    [Some tt] when some core has not flushed. *)
Definition stale_core (G : globals) (blocked_at : N) : prog (option unit) :=
  for_exit (N.to_nat (g_core_count G)) 0
    (fun i => f <- load64 (wadd (core_addr G i) ci_flushed_at) ;;
              if f <? blocked_at then Ret (Some tt) else Ret None).

(** free_dram_region: dram_regions.cc:339-391 *)
Definition free_dram_region (G : globals) (dram_region : N) : prog N :=
  if negb (is_valid_dram_region G dram_region) then Ret monitor_invalid_value
  else
  t <- test_and_set_dram_region_lock G dram_region ;;
  if (t : bool) then Ret monitor_concurrent_call
  else
  region_owner <- read_dram_region_owner G dram_region ;;
  let region := region_addr G dram_region in
  result <-
    (if region_owner =? blocked_enclave_id then
       blocked_at <- load64 (wadd region dri_blocked_at) ;;
       stale <- stale_core G blocked_at ;;
       match (stale : option unit) with
       | None =>
           store64 (wadd region dri_owner) free_enclave_id ;; Ret monitor_ok
       | Some _ => Ret monitor_invalid_state
       end
     else if region_owner =? metadata_enclave_id then
       pinned <- load64 (wadd region dri_pinned_pages) ;;
       if pinned =? 0 then
         store64 (wadd region dri_owner) free_enclave_id ;; Ret monitor_ok
       else Ret monitor_invalid_state
     else Ret monitor_invalid_state) ;;
  clear_dram_region_lock G dram_region ;;
  Ret result.

(** flush_cached_dram_regions: dram_regions.cc:393-396 *)
Definition flush_cached_dram_regions (G : globals) : prog N :=
  dram_region_tlb_flush G ;; Ret monitor_ok.
