(** AVX2 operations used by zune-jpeg, on registers given as lists of lanes, lowest address first: 32 bytes, 16 words
    (signed) or 8 double words (signed). From Intel's instruction set reference; trusted. *)
From Verif Require Import Base.

Definition i32 (x : Z) : Z := (x + 2 ^ 31) mod 2 ^ 32 - 2 ^ 31.
Definition i16 (x : Z) : Z := (x + 2 ^ 15) mod 2 ^ 16 - 2 ^ 15.
Definition is_i32 (x : Z) : Prop := - 2 ^ 31 <= x < 2 ^ 31.
Definition is_i16 (x : Z) : Prop := - 2 ^ 15 <= x < 2 ^ 15.

Fixpoint map2 {A B C} (f : A -> B -> C) (a : list A) (b : list B) : list C :=
  match a, b with
  | x :: a', y :: b' => f x y :: map2 f a' b'
  | _, _ => []
  end.

(** Double words *)
Definition add_epi32 := map2 (fun a b => i32 (a + b)).
Definition sub_epi32 := map2 (fun a b => i32 (a - b)).
Definition mullo_epi32 := map2 (fun a b => i32 (a * b)).
Definition or_si256 := map2 Z.lor.
Definition set1_epi32 (x : Z) : list Z := repeat x 8.
Definition slli_epi32 (k : Z) := map (fun a => i32 (Z.shiftl a k)).
Definition srai_epi32 (k : Z) := map (fun a => Z.shiftr a k).
(** [_mm256_testz_si256(a, a) == 1] *)
Definition testz (a : list Z) : bool := forallb (Z.eqb 0) a.

(** The register cut into [k] equal groups of lanes *)
Definition part {A} (k i : nat) (l : list A) : list A := let n := (length l / k)%nat in firstn n (skipn (i * n) l).
Definition lo128 {A} (l : list A) : list A := part 2 0 l.
Definition hi128 {A} (l : list A) : list A := part 2 1 l.

(** [_MM_SHUFFLE] — unsafe_utils_avx2.rs:23-25 *)
Definition shuffle (z y x w : Z) : Z := Z.lor (Z.lor (Z.lor (Z.shiftl z 6) (Z.shiftl y 4)) (Z.shiftl x 2)) w.
(** The [i]th field of [n] bits of an immediate *)
Definition field (n : Z) (imm i : Z) : nat := Z.to_nat (Z.land (Z.shiftr imm (n * i)) (2 ^ n - 1)).
Definition permute4x64 {A} (imm : Z) (l : list A) : list A :=
  part 4 (field 2 imm 0) l ++ part 4 (field 2 imm 1) l ++ part 4 (field 2 imm 2) l ++ part 4 (field 2 imm 3) l.
(** One half of [_mm256_permute2x128_si256]: bit 3 of the selector writes zeros. *)
Definition half128 (z : list Z) (a b : list Z) (sel : Z) : list Z :=
  if Z.testbit sel 3 then z else
  match Z.land sel 3 with 0 => lo128 a | 1 => hi128 a | 2 => lo128 b | _ => hi128 b end.
Definition permute2x128 (imm : Z) (a b : list Z) : list Z :=
  let z := repeat 0 (length a / 2)%nat in
  half128 z a b (Z.land imm 15) ++ half128 z a b (Z.land (Z.shiftr imm 4) 15).

(** Interleave groups of [n] lanes *)
Fixpoint weave {A} (fuel n : nat) (a b : list A) : list A :=
  match fuel with
  | O => []
  | S f => firstn n a ++ firstn n b ++ weave f n (skipn n a) (skipn n b)
  end.
(** The unpack instructions work on each 128-bit half separately: [n] lanes form one unit, a half has [u] units. *)
Definition unpacklo {A} (n u : nat) (a b : list A) : list A :=
  weave (u / 2) n (lo128 a) (lo128 b) ++ weave (u / 2) n (hi128 a) (hi128 b).
Definition unpackhi {A} (n u : nat) (a b : list A) : list A :=
  let k := (n * (u / 2))%nat in
  weave (u / 2) n (skipn k (lo128 a)) (skipn k (lo128 b)) ++ weave (u / 2) n (skipn k (hi128 a)) (skipn k (hi128 b)).
Definition unpacklo_epi32 {A} := @unpacklo A 1 4.
Definition unpackhi_epi32 {A} := @unpackhi A 1 4.
(** On double words: a unit is two lanes *)
Definition unpacklo_epi64 {A} := @unpacklo A 2 2.
Definition unpackhi_epi64 {A} := @unpackhi A 2 2.
Definition unpacklo_epi16 {A} := @unpacklo A 1 8.
Definition unpackhi_epi16 {A} := @unpackhi A 1 8.
Definition unpacklo_epi8 {A} := @unpacklo A 1 16.
Definition unpackhi_epi8 {A} := @unpackhi A 1 16.

(** Saturating packs, each 128-bit half separately *)
Definition clampz (lo hi x : Z) : Z := Z.max lo (Z.min hi x).
Definition pack_with (f : Z -> Z) (a b : list Z) : list Z :=
  map f (lo128 a) ++ map f (lo128 b) ++ map f (hi128 a) ++ map f (hi128 b).
Definition packs_epi32 := pack_with (clampz (- 2 ^ 15) (2 ^ 15 - 1)).
(** The unsigned words are reread as signed ones. *)
Definition packus_epi32 := pack_with (fun x => i16 (clampz 0 65535 x)).
Definition packus_epi16 := pack_with (clampz 0 255).

(** Words *)
Definition set1_epi16 (x : Z) : list Z := repeat x 16.
Definition add_epi16 := map2 (fun a b => i16 (a + b)).
Definition sub_epi16 := map2 (fun a b => i16 (a - b)).
Definition mullo_epi16 := map2 (fun a b => i16 (a * b)).
Definition max_epi16 := map2 Z.max.
Definition min_epi16 := map2 Z.min.
Definition srai_epi16 (k : Z) := map (fun a => Z.shiftr a k).
Definition slli_epi16 (k : Z) := map (fun a => i16 (Z.shiftl a k)).
Fixpoint madd_epi16 (a b : list Z) : list Z :=
  match a, b with
  | x0 :: x1 :: a', y0 :: y1 :: b' => i32 (x0 * y0 + x1 * y1) :: madd_epi16 a' b'
  | _, _ => []
  end.
(** Rereading registers with other lanes *)
Definition bytes_of_words (l : list Z) : list Z := flat_map (fun x => [x mod 256; (x / 256) mod 256]) l.
Fixpoint words_of_bytes (l : list Z) : list Z :=
  match l with
  | a :: b :: l' => i16 (a + 256 * b) :: words_of_bytes l'
  | _ => []
  end.
Definition words_of_dwords (l : list Z) : list Z := flat_map (fun x => [i16 x; i16 (x / 65536)]) l.
(** Bytes: [_mm256_shuffle_epi8] with selectors below 16, and [_mm256_blendv_epi8] *)
Definition shuffle_epi8 (l sel : list Z) : list Z :=
  map (fun s => nth (Z.to_nat s) (lo128 l) 0) (lo128 sel) ++ map (fun s => nth (Z.to_nat s) (hi128 l) 0) (hi128 sel).
Definition blendv_epi8 (a b m : list Z) : list Z := map2 (fun ab k => if k <? 0 then snd ab else fst ab) (combine a b) m.
(** [_mm256_blend_epi32] with the upper four lanes from [b], on bytes *)
Definition blend_high (a b : list Z) : list Z := lo128 a ++ hi128 b.
