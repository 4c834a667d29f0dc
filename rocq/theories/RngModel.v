(** Model of /repo/fastiron/src/utils/mc_rng_state.rs. *)
From Coq Require Import NArith List Bool.
Import ListNotations.
Local Open Scope N_scope.

(** u64 and u32 values are [N] below these bounds; every wrapping operation
    of the code is followed by an explicit reduction. *)
Definition two64 : N := 18446744073709551616.
Definition two32 : N := 4294967296.

(** mc_rng_state.rs lines 13-17: new seed, [overflowing_mul] then [overflowing_add]. *)
Definition rng_next (seed : N) : N :=
  (((2862933555777941757 * seed) mod two64) + 3037000493) mod two64.

(** [u64::to_be_bytes] / [u32::from_be_bytes] etc. (std), used by lines 42-47 and 74-80. *)
Definition byte (i n : N) : N := (n / 2 ^ (8 * i)) mod 256.
Definition from_be_bytes (l : list N) : N := fold_left (fun acc b => acc * 256 + b) l 0.

(** mc_rng_state.rs lines 42-47, [breakup_u64]. *)
Definition breakup_u64 (n : N) : N * N :=
  (from_be_bytes [byte 7 n; byte 6 n; byte 5 n; byte 4 n],
   from_be_bytes [byte 3 n; byte 2 n; byte 1 n; byte 0 n]).

(** mc_rng_state.rs lines 74-80, [rebuild_u64]. *)
Definition rebuild_u64 (front back : N) : N :=
  from_be_bytes [byte 3 front; byte 2 front; byte 1 front; byte 0 front;
                 byte 3 back; byte 2 back; byte 1 back; byte 0 back].

(** mc_rng_state.rs lines 51-52; only the first two entries of each table are
    used since [n_iter] is 2 (line 50). *)
Definition des_c1 : list N := [0xbaa96887; 0x1e17d32c; 0x03bcdc3c; 0x0f33d1b2].
Definition des_c2 : list N := [0x4b0f3b58; 0xe874f0c3; 0x6955c5a6; 0x55a7ca46].

(** u32 wrapping operations used in lines 54-71. *)
Definition mul32 (a b : N) : N := (a * b) mod two32.
Definition add32 (a b : N) : N := (a + b) mod two32.
Definition not32 (a : N) : N := N.lxor a 0xffffffff.
Definition shl32 (a k : N) : N := (N.shiftl a k) mod two32.

(** mc_rng_state.rs lines 55-67: the round function, from the right word to
    the value xored onto the left word. *)
Definition des_f (c1 c2 irword : N) : N :=
  let ia := N.lxor irword c1 in
  let itmpl := N.land ia 0xffff in
  let itmph := N.shiftr ia 16 in
  let ib := add32 (mul32 itmpl itmpl) (not32 (mul32 itmph itmph)) in
  let ia := N.lor (N.shiftr ib 16) (shl32 (N.land ib 0xffff) 16) in
  add32 (N.lxor ia c2) (mul32 itmpl itmph).

(** mc_rng_state.rs lines 54-71: one iteration, [(lword, irword)] to [(lword, irword)]. *)
Definition des_round (c1 c2 : N) (w : N * N) : N * N :=
  (snd w, N.lxor (fst w) (des_f c1 c2 (snd w))).

(** mc_rng_state.rs lines 49-72, [pseudo_des] (n_iter = 2). *)
Definition pseudo_des (w : N * N) : N * N :=
  fold_left (fun w c => des_round (fst c) (snd c) w)
            (firstn 2 (combine des_c1 des_c2)) w.

(** mc_rng_state.rs lines 34-40, [hash_state]. *)
Definition hash_state (init : N) : N :=
  let w := pseudo_des (breakup_u64 init) in rebuild_u64 (fst w) (snd w).

(** mc_rng_state.rs lines 27-31, [spawn_rn_seed]: returns (spawned seed, new parent seed). *)
Definition spawn_rn_seed (parent : N) : N * N := (hash_state parent, rng_next parent).

(** mc_rng_state.rs line 21, [*seed as f64]: conversion of a u64 to f64 rounds
    to nearest, ties to even, on 53 bits (Rust reference, numeric casts).  This
    is the integer value of the result.  [RngIeee.u64_as_f64_value] relates it to
    the IEEE-754 binary64 semantics of Flocq. *)
Definition round53 (n : N) : N :=
  if n <? 9007199254740992 then n else
  let e := N.log2 n - 52 in
  let q := n / 2 ^ e in
  let r := n mod 2 ^ e in
  let half := 2 ^ (e - 1) in
  if (half <? r) || ((half =? r) && N.odd q) then (q + 1) * 2 ^ e else q * 2 ^ e.

(** mc_rng_state.rs lines 19-21: the sampled f64 is [round53 seed / 2^64]; the
    literal 5.421010862427522e-20 is the binary64 number 2^-64, so the product is
    exact.  The pair is (numerator, denominator). *)
Definition rng_sample_frac (seed : N) : N * N := (round53 (rng_next seed), two64).
