(** * The monitor's API as one type of calls (src/monitor/public/api.h) *)
From Coq Require Import NArith ZArith Lia Bool List.
From Verif Require Import Word Machine ModelBare ModelHash ModelInl ModelRegions
  ModelMetadata ModelEnclave ModelBoot.
Import ListNotations.
Open Scope N_scope.

(** One constructor for each entry point of src/monitor/public/api.h that has
    a body in the repository (get_attestation_key, accept_message,
    read_message, send_message have none). *)
Inductive call : Type :=
| CBlock (dram_region : N)
| CCheckOwnership (dram_region : N)
| CRegionState (dram_region : N)
| CRegionOwner (dram_region : N)
| CSetDmaRange (base mask : N)
| CCreateMetadataRegion (dram_region : N)
| CAssign (dram_region new_owner : N)
| CFree (dram_region : N)
| CFlush
| CCreateEnclave (enclave_id ev_base ev_mask mailbox_count : N) (debug : bool)
| CLoadPageTable (enclave_id phys_addr virtual_addr level acl : N)
| CLoadPage (enclave_id phys_addr virtual_addr os_addr acl : N)
| CLoadThread (enclave_id thread_id entry_pc entry_stack fault_pc
    fault_stack : N)
| CAssignThread (enclave_id thread_id : N)
| CInitEnclave (enclave_id : N)
| CEnterEnclave (enclave_id thread_id : N)
| CDeleteEnclave (enclave_id : N)
| CCopyDebugPage (enclave_id enclave_addr os_addr : N) (read_from_enclave : bool)
| CAcceptThread (thread_id thread_info_addr : N)
| CCreateThread (thread_id phys_addr : N)
| CDeleteThread (thread_id : N)
| CExitEnclave.

(** The program run by each call (test architecture page tables): the functions of
    src/monitor/public/api.h. *)
Definition call_prog (G : globals) (k : call) : prog N :=
  match k with
  | CBlock r => block_dram_region G r
  | CCheckOwnership r => dram_region_check_ownership G r
  | CRegionState r => dram_region_state G r
  | CRegionOwner r => dram_region_owner G r
  | CSetDmaRange b m => set_dma_range G b m
  | CCreateMetadataRegion r => create_metadata_region G r
  | CAssign r o => assign_dram_region G r o
  | CFree r => free_dram_region G r
  | CFlush => flush_cached_dram_regions G
  | CCreateEnclave id b m mc d => create_enclave G id b m mc d
  | CLoadPageTable id pa va l acl => load_page_table G test_arch id pa va l acl
  | CLoadPage id pa va oa acl => load_page G id pa va oa acl
  | CLoadThread id t pc sp fpc fsp => load_thread G id t pc sp fpc fsp
  | CAssignThread id t => assign_thread G id t
  | CInitEnclave id => init_enclave G id
  | CEnterEnclave id t => enter_enclave G id t
  | CDeleteEnclave id => delete_enclave G id
  | CCopyDebugPage id ea oa r => copy_debug_enclave_page G id ea oa r
  | CAcceptThread t a => accept_thread G t a
  | CCreateThread t a => create_thread G t a
  | CDeleteThread t => delete_thread G t
  | CExitEnclave => exit_enclave G
  end.

(** The arguments of a call are 64-bit values (uintptr_t / size_t, the parameter types of
    src/monitor/public/api.h). *)
Definition call_args_ok (k : call) : Prop :=
  let w x := x < W64 in
  match k with
  | CBlock r | CCheckOwnership r | CRegionState r | CRegionOwner r
  | CCreateMetadataRegion r | CFree r => w r
  | CSetDmaRange b m => w b /\ w m
  | CAssign r o => w r /\ w o
  | CFlush | CExitEnclave => True
  | CCreateEnclave id b m mc _ => w id /\ w b /\ w m /\ w mc
  | CLoadPageTable id p v l a => w id /\ w p /\ w v /\ w l /\ w a
  | CLoadPage id p v o a => w id /\ w p /\ w v /\ w o /\ w a
  | CLoadThread id t a b c d => w id /\ w t /\ w a /\ w b /\ w c /\ w d
  | CAssignThread id t => w id /\ w t
  | CInitEnclave id => w id
  | CEnterEnclave id t => w id /\ w t
  | CDeleteEnclave id => w id
  | CCopyDebugPage id e o _ => w id /\ w e /\ w o
  | CAcceptThread t a => w t /\ w a
  | CCreateThread t a => w t /\ w a
  | CDeleteThread t => w t
  end.

(** A call of src/monitor/public/api.h executed without interference on core [c]. *)
Definition do_call (G : globals) (c : N) (k : call) (s : state)
  : state * option N := run c (call_prog G k) s.
