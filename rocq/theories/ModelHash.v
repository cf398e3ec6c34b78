(** * Model of src/crypto/hash.{h,cc}: SHA-256 over memory. *)
From Coq Require Import NArith ZArith Lia Bool List.
From Verif Require Import Word Machine ModelBare.
Import ListNotations.
Open Scope N_scope.

(** hash_k: src/crypto/hash.cc:19-36 *)
Definition hash_k : list N :=
  [ 0x428a2f98; 0x71374491; 0xb5c0fbcf; 0xe9b5dba5;
    0x3956c25b; 0x59f111f1; 0x923f82a4; 0xab1c5ed5;
    0xd807aa98; 0x12835b01; 0x243185be; 0x550c7dc3;
    0x72be5d74; 0x80deb1fe; 0x9bdc06a7; 0xc19bf174;
    0xe49b69c1; 0xefbe4786; 0x0fc19dc6; 0x240ca1cc;
    0x2de92c6f; 0x4a7484aa; 0x5cb0a9dc; 0x76f988da;
    0x983e5152; 0xa831c66d; 0xb00327c8; 0xbf597fc7;
    0xc6e00bf3; 0xd5a79147; 0x06ca6351; 0x14292967;
    0x27b70a85; 0x2e1b2138; 0x4d2c6dfc; 0x53380d13;
    0x650a7354; 0x766a0abb; 0x81c2c92e; 0x92722c85;
    0xa2bfe8a1; 0xa81a664b; 0xc24b8b70; 0xc76c51a3;
    0xd192e819; 0xd6990624; 0xf40e3585; 0x106aa070;
    0x19a4c116; 0x1e376c08; 0x2748774c; 0x34b0bcb5;
    0x391c0cb3; 0x4ed8aa4a; 0x5b9cca4f; 0x682e6ff3;
    0x748f82ee; 0x78a5636f; 0x84c87814; 0x8cc70208;
    0x90befffa; 0xa4506ceb; 0xbef9a3f7; 0xc67178f2 ].

(** Layout of hash_state_t (src/crypto/hash.h:31-35): h at 0, work_area at 32,
    padding at 96, size 160. *)
Definition hs_h : N := 0.
Definition hs_work : N := 32.
Definition hs_padding : N := 96.
Definition hash_state_size : N := 160.
(** hash_block_size: src/crypto/hash.h:21 *)
Definition hash_block_size : N := 64.

(** rotate_right: src/crypto/hash.cc:41-43 *)
Definition rotate_right (value size : N) : N :=
  N.lor (N.shiftr value size) (N.shiftl value (32 - size) mod W32).
(** to_big_endian: src/crypto/hash.cc:48-50 on a little-endian machine.
    clamp_to_32 (hash.cc:44-47) is the identity, because sizeof(uint32_t) is 4. *)
Definition to_big_endian (value : N) : N := reverse_bytes value.

(** init_hash: src/crypto/hash.cc:57-73 *)
Definition init_hash (state : N) : prog unit :=
  store32 (wadd state 0) 0x6a09e667 ;;
  store32 (wadd state 4) 0xbb67ae85 ;;
  store32 (wadd state 8) 0x3c6ef372 ;;
  store32 (wadd state 12) 0xa54ff53a ;;
  store32 (wadd state 16) 0x510e527f ;;
  store32 (wadd state 20) 0x9b05688c ;;
  store32 (wadd state 24) 0x1f83d9ab ;;
  store32 (wadd state 28) 0x5be0cd19 ;;
  bzero64 (wadd state hs_padding) hash_block_size ;;
  store32 (wadd state hs_padding)
    (to_big_endian (N.shiftl 1 (4 * 8 - 1) mod W32)) ;;
  Ret tt.

(** The eight working variables a..h of extend_hash (hash.cc:77-84). *)
Record sha_vars := mkVars {
  va : N; vb : N; vc : N; vd : N; ve : N; vf : N; vg : N; vh : N }.

(** The body of the round loop after [wi] is known: src/crypto/hash.cc:102-114 *)
Definition sha_round (i wi : N) (v : sha_vars) : sha_vars :=
  let ch := N.lxor (N.land (ve v) (vf v)) (N.land (wnot32 (ve v)) (vg v)) in
  let maj := N.lxor (N.lxor (N.land (va v) (vb v)) (N.land (va v) (vc v)))
               (N.land (vb v) (vc v)) in
  let sigma0 := N.lxor (N.lxor (rotate_right (va v) 2) (rotate_right (va v) 13))
                  (rotate_right (va v) 22) in
  let sigma1 := N.lxor (N.lxor (rotate_right (ve v) 6) (rotate_right (ve v) 11))
                  (rotate_right (ve v) 25) in
  let temp1 := wadd32 (wadd32 (wadd32 (wadd32 (vh v) sigma1) ch)
                 (nth (N.to_nat i) hash_k 0)) wi in
  let temp2 := wadd32 sigma0 maj in
  mkVars (wadd32 temp1 temp2) (va v) (vb v) (vc v)
         (wadd32 (vd v) temp1) (ve v) (vf v) (vg v).

(** Computation of [wi] with the 16-word ring buffer: src/crypto/hash.cc:88-100 *)
Definition sha_schedule (w block i : N) : prog N :=
  if i <? 16 then
    b <- load32 (wadd block (4 * i)) ;;
    let wi := to_big_endian b in
    store32 (wadd w (4 * (N.land i 0xf))) wi ;;
    Ret wi
  else
    w15 <- load32 (wadd w (4 * N.land (i - 15) 0xf)) ;;
    w2 <- load32 (wadd w (4 * N.land (i - 2) 0xf)) ;;
    let gamma0 := N.lxor (N.lxor (rotate_right w15 7) (rotate_right w15 18))
                    (N.shiftr w15 3) in
    let gamma1 := N.lxor (N.lxor (rotate_right w2 17) (rotate_right w2 19))
                    (N.shiftr w2 10) in
    w7 <- load32 (wadd w (4 * N.land (i - 7) 0xf)) ;;
    let ii := N.land i 0xf in
    wii <- load32 (wadd w (4 * ii)) ;;
    let wi := wadd32 (wadd32 (wadd32 wii gamma0) w7) gamma1 in
    store32 (wadd w (4 * ii)) wi ;;
    Ret wi.

(** The loop of src/crypto/hash.cc:87-115. [n] rounds are left, [i] is the
    current one. *)
Fixpoint sha_rounds (n : nat) (w block i : N) (v : sha_vars) : prog sha_vars :=
  match n with
  | O => Ret v
  | S k => wi <- sha_schedule w block i ;;
           sha_rounds k w block (i + 1) (sha_round i wi v)
  end.

(** hptr[j] = clamp_to_32(hptr[j] + x): src/crypto/hash.cc:117-124 *)
Definition hash_add (p j x : N) : prog unit :=
  o <- load32 (wadd p (4 * j)) ;;
  store32 (wadd p (4 * j)) (wadd32 o x) ;; Ret tt.

(** extend_hash: src/crypto/hash.cc:75-134 *)
Definition extend_hash (state block : N) : prog unit :=
  let hptr := wadd state hs_h in
  a <- load32 (wadd hptr 0) ;;
  b <- load32 (wadd hptr 4) ;;
  c <- load32 (wadd hptr 8) ;;
  d <- load32 (wadd hptr 12) ;;
  e <- load32 (wadd hptr 16) ;;
  f <- load32 (wadd hptr 20) ;;
  g <- load32 (wadd hptr 24) ;;
  h <- load32 (wadd hptr 28) ;;
  let w := wadd state hs_work in
  v <- sha_rounds 64 w block 0 (mkVars a b c d e f g h) ;;
  hash_add hptr 0 (va v) ;;
  hash_add hptr 1 (vb v) ;;
  hash_add hptr 2 (vc v) ;;
  hash_add hptr 3 (vd v) ;;
  hash_add hptr 4 (ve v) ;;
  hash_add hptr 5 (vf v) ;;
  hash_add hptr 6 (vg v) ;;
  hash_add hptr 7 (vh v) ;;
  let counter_addr := wadd state (hs_padding + hash_block_size - 4) in
  cnt <- load32 counter_addr ;;
  let hashed_bits := to_big_endian cnt in
  store32 counter_addr
    (to_big_endian ((hashed_bits + hash_block_size * 8) mod W32)) ;;
  Ret tt.

(** finalize_hash: src/crypto/hash.cc:136-139 *)
Definition finalize_hash (state : N) : prog unit :=
  extend_hash state (wadd state hs_padding).
