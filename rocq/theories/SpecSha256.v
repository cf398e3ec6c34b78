(** * SHA-256 as defined by FIPS 180-4, on lists of bytes.

    Written from the standard, without reference to the monitor's code. *)
From Coq Require Import NArith List.
Import ListNotations.
Open Scope N_scope.

Notation word := N (only parsing).          (* 32-bit words *)
Definition add (x y : word) : word := (x + y) mod 2 ^ 32.          (* 3.2 *)

(** 3.2: SHR and ROTR *)
Definition SHR (n : N) (x : word) : word := x / 2 ^ n.
Definition ROTR (n : N) (x : word) : word :=
  N.lor (x / 2 ^ n) ((x * 2 ^ (32 - n)) mod 2 ^ 32).
Definition NOT (x : word) : word := 2 ^ 32 - 1 - x.

(** 4.1.2: functions *)
Definition Ch (x y z : word) := N.lxor (N.land x y) (N.land (NOT x) z).
Definition Maj (x y z : word) :=
  N.lxor (N.lxor (N.land x y) (N.land x z)) (N.land y z).
Definition Sigma0 (x : word) := N.lxor (N.lxor (ROTR 2 x) (ROTR 13 x)) (ROTR 22 x).
Definition Sigma1 (x : word) := N.lxor (N.lxor (ROTR 6 x) (ROTR 11 x)) (ROTR 25 x).
Definition sigma0 (x : word) := N.lxor (N.lxor (ROTR 7 x) (ROTR 18 x)) (SHR 3 x).
Definition sigma1 (x : word) := N.lxor (N.lxor (ROTR 17 x) (ROTR 19 x)) (SHR 10 x).

(** 4.2.2: the constants are the first 32 bits of the fractional parts of the
    cube roots of the first 64 primes. They are computed here: the integer cube
    root of p * 2^96 is floor(cbrt(p) * 2^32). *)
Definition primes : list N :=
  [2; 3; 5; 7; 11; 13; 17; 19; 23; 29; 31; 37; 41; 43; 47; 53; 59; 61; 67; 71;
   73; 79; 83; 89; 97; 101; 103; 107; 109; 113; 127; 131; 137; 139; 149; 151;
   157; 163; 167; 173; 179; 181; 191; 193; 197; 199; 211; 223; 227; 229; 233;
   239; 241; 251; 257; 263; 269; 271; 277; 281; 283; 293; 307; 311].
(** Largest c < 2^bits (above the already found [c]) with c^3 <= x. *)
Fixpoint cbrt_bits (bits : nat) (c x : N) : N :=
  match bits with
  | O => c
  | S k => let c' := c + 2 ^ N.of_nat k in
           cbrt_bits k (if c' * c' * c' <=? x then c' else c) x
  end.
Definition K_of (p : N) : word := cbrt_bits 40 0 (p * 2 ^ 96) mod 2 ^ 32.
Definition K : list word := map K_of primes.

(** 5.3.3: the initial hash value, from the square roots of the first 8 primes. *)
Definition H0 : list word :=
  map (fun p => N.sqrt (p * 2 ^ 64) mod 2 ^ 32) (firstn 8 primes).

(** 5.1.1: padding of a message of bytes. *)
Definition be_byte (len i x : N) : N := (x / 2 ^ (8 * (len - 1 - i))) mod 256.
Definition be64 (x : N) : list N :=
  map (fun i => be_byte 8 i x) [0; 1; 2; 3; 4; 5; 6; 7].
Definition pad (msg : list N) : list N :=
  let l := N.of_nat (length msg) in
  let zeros := (119 - l mod 64) mod 64 in
  msg ++ [0x80] ++ repeat 0 (N.to_nat zeros) ++ be64 (8 * l).

(** 5.2.1: parsing into big-endian words. *)
Fixpoint words_of (bytes : list N) : list word :=
  match bytes with
  | b0 :: b1 :: b2 :: b3 :: r =>
      (b0 * 2 ^ 24 + b1 * 2 ^ 16 + b2 * 2 ^ 8 + b3) :: words_of r
  | _ => []
  end.

(** 6.2.2 step 1: the message schedule, extended one word at a time. *)
Definition W_next (W : list word) : word :=
  let t := length W in
  let w k := nth (t - k)%nat W 0 in
  add (add (add (sigma1 (w 2%nat)) (w 7%nat)) (sigma0 (w 15%nat))) (w 16%nat).
Fixpoint W_extend (n : nat) (W : list word) : list word :=
  match n with O => W | S k => W_extend k (W ++ [W_next W]) end.
Definition schedule (M : list word) : list word := W_extend 48 M.

(** 6.2.2 steps 2, 3 *)
Definition round (v : list word) (kw : word * word) : list word :=
  match v with
  | [a; b; c; d; e; f; g; h] =>
      let T1 := add (add (add (add h (Sigma1 e)) (Ch e f g)) (fst kw)) (snd kw) in
      let T2 := add (Sigma0 a) (Maj a b c) in
      [add T1 T2; a; b; c; add d T1; e; f; g]
  | _ => v
  end.
(** 6.2.2 step 4 *)
Definition compress (H M : list word) : list word :=
  map (fun p => add (fst p) (snd p))
    (combine (fold_left round (combine K (schedule M)) H) H).

Fixpoint process (n : nat) (H : list word) (bytes : list N) : list word :=
  match n with
  | O => H
  | S k => process k (compress H (words_of (firstn 64 bytes))) (skipn 64 bytes)
  end.

(** The digest of a message of bytes: eight 32-bit words. *)
Definition sha256 (msg : list N) : list word :=
  let p := pad msg in process (Nat.div (length p) 64) H0 p.

(** Known answers (FIPS 180-4 / CAVP): "abc" and the empty message. *)
Example sha256_abc : sha256 [0x61; 0x62; 0x63] =
  [0xba7816bf; 0x8f01cfea; 0x414140de; 0x5dae2223;
   0xb00361a3; 0x96177a9c; 0xb410ff61; 0xf20015ad].
Proof. vm_compute. reflexivity. Qed.
Example sha256_empty : sha256 [] =
  [0xe3b0c442; 0x98fc1c14; 0x9afbf4c8; 0x996fb924;
   0x27ae41e4; 0x649b934c; 0xa495991b; 0x7852b855].
Proof. vm_compute. reflexivity. Qed.
(** A message of two blocks. *)
Example sha256_two_blocks :
  sha256 (map (fun c => c)
    [97;98;99;100;98;99;100;101;99;100;101;102;100;101;102;103;101;102;103;104;
     102;103;104;105;103;104;105;106;104;105;106;107;105;106;107;108;106;107;108;
     109;107;108;109;110;108;109;110;111;109;110;111;112;110;111;112;113]) =
  [0x248d6a61; 0xd20638b8; 0xe5c02693; 0x0c3e6039;
   0xa33ce459; 0x64ff2167; 0xf6ecedd4; 0x19db06c1].
Proof. vm_compute. reflexivity. Qed.
