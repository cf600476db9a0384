(** Model of crates/zune-png/src/crc.rs. *)
From Verif Require Import Base Loops CrcTables.

(** Table lookup by a [usize] index; out of range panics. *)
Definition tab (t : list Z) (i : Z) : res Z := get_at t (Z.to_nat i).

(** One iteration of the main loop — crc.rs:16-30. *)
Definition slice8_step (chunk : list Z) (crc : Z) : res Z :=
  let loaded := le_val chunk in
  let v1 := Z.land loaded (2 ^ 32 - 1) in
  let v2 := Z.shiftr loaded 32 in
  let x := Z.lxor crc v1 in
  do t0 <- tab crc32_slice8_table (1792 + Z.land (Z.shiftr x 0) 255) ;
  do t1 <- tab crc32_slice8_table (1536 + Z.land (Z.shiftr x 8) 255) ;
  do t2 <- tab crc32_slice8_table (1280 + Z.land (Z.shiftr x 16) 255) ;
  do t3 <- tab crc32_slice8_table (1024 + Z.land (Z.shiftr x 24) 255) ;
  do t4 <- tab crc32_slice8_table (768 + Z.land (Z.shiftr v2 0) 255) ;
  do t5 <- tab crc32_slice8_table (512 + Z.land (Z.shiftr v2 8) 255) ;
  do t6 <- tab crc32_slice8_table (256 + Z.land (Z.shiftr v2 16) 255) ;
  do t7 <- tab crc32_slice8_table (0 + Z.land (Z.shiftr v2 24) 255) ;
  Ok (Z.lxor (Z.lxor (Z.lxor (Z.lxor (Z.lxor (Z.lxor (Z.lxor t0 t1) t2) t3) t4) t5) t6) t7).

(** One byte — crc.rs:33-35 and 42-44. *)
Definition slice1_step (b crc : Z) : res Z :=
  do t <- tab crc32_slice1_table (Z.lxor (Z.land crc 255) b) ;
  Ok (Z.lxor (Z.shiftr crc 8) t).

Fixpoint fold_res {A S} (f : A -> S -> res S) (l : list A) (s : S) : res S :=
  match l with
  | [] => Ok s
  | x :: l' => bind (f x s) (fold_res f l')
  end.

(** [crc32_slice8] — crc.rs:14-38: whole 8-byte chunks, then the remainder byte by byte. *)
Definition crc32_slice8 (data : list Z) (crc : Z) : res Z :=
  do crc1 <- fold_res slice8_step (chunks_exact 8 data) crc ;
  fold_res slice1_step (skipn (length data / 8 * 8) data) crc1.

(** [_crc32_slice1] — crc.rs:41-46. *)
Definition crc32_slice1 (data : list Z) (crc : Z) : res Z := fold_res slice1_step data crc.

(** [calc_crc] — crc.rs:48-50; [!x] on [u32]. *)
Definition calc_crc (data : list Z) : res Z :=
  do c <- crc32_slice8 data (2 ^ 32 - 1) ; Ok (2 ^ 32 - 1 - c).

(** [calc_crc_with_bytes] — crc.rs:51-53. *)
Definition calc_crc_with_bytes (data : list Z) (value : Z) : res Z := crc32_slice8 data value.
