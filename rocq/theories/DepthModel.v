(** Model of bit depth conversion — crates/zune-image/src/core_filters/depth.rs. *)
From Verif Require Import Base F32.

Definition zip_write {A B} (f : A -> B) (from : list A) (to : list B) : list B :=
  map f (firstn (length to) from) ++ skipn (length from) to.

(** [depth_u16_to_u8] — depth.rs:49-66. *)
Definition u16_to_u8 (max_value x : Z) : Z :=
  if max_value =? 65535 then (x / 257) mod 256
  else to_uint 255 (fmul (fmul (of_int x) (fdiv (of_int 1) (of_int max_value))) (of_int 255)).
Definition depth_u16_to_u8 (from to : list Z) (max_value : Z) : list Z := zip_write (u16_to_u8 max_value) from to.
(** [depth_u8_to_u16] — depth.rs:80-89 *)
Definition u8_to_u16 (max_value x : Z) : Z := to_uint 65535 (fmul (fmul (of_int x) (fdiv (of_int 1) (of_int 255))) (of_int max_value)).
Definition depth_u8_to_u16 (from to : list Z) (max_value : Z) : list Z := zip_write (u8_to_u16 max_value) from to.

(** [BitDepth] and the samples of a channel in it *)
Inductive depth : Set := D8 | D16 | D32.
Inductive samples : Set := S8 (l : list Z) | S16 (l : list Z) | SF (l : list f32).
Definition max_value (d : depth) : Z := match d with D8 => 255 | D16 => 65535 | D32 => 1 end.
Definition depth_eqb (a b : depth) : bool := match a, b with D8, D8 | D16, D16 | D32, D32 => true | _, _ => false end.

(** One channel — depth.rs:118-204; [reinterpret_as] of the wrong type panics. The new channel is zeroed and has
    as many samples as the old one ([new_with_length] takes bytes: lines 121, 132, 142, 155, 168, 182). *)
Definition float_to (hi : Z) (x : f32) : Z := to_uint hi (fclamp (fmul (of_int hi) x) (of_int 0) (of_int hi)).
Definition int_to_float (hi x : Z) : f32 := fmul (of_int x) (fdiv (of_int 1) (of_int hi)).
Definition convert_channel (from to : depth) (c : samples) : res samples :=
  match from, to, c with
  | D8, D16, S8 l => Ok (S16 (depth_u8_to_u16 l (repeat 0 (length l)) (max_value D16)))
  | D16, D8, S16 l => Ok (S8 (depth_u16_to_u8 l (repeat 0 (length l)) (max_value D16)))
  | D32, D8, SF l => Ok (S8 (zip_write (float_to 255) l (repeat 0 (length l))))
  | D32, D16, SF l => Ok (S16 (zip_write (float_to 65535) l (repeat 0 (length l))))
  | D8, D32, S8 l => Ok (SF (zip_write (int_to_float 255) l (repeat (of_int 0) (length l))))
  | D16, D32, S16 l => Ok (SF (zip_write (int_to_float 65535) l (repeat (of_int 0) (length l))))
  | _, _, _ => Panic
  end.
Fixpoint convert_channels (from to : depth) (cs : list samples) : res (list samples) :=
  match cs with
  | [] => Ok []
  | c :: cs => do c' <- convert_channel from to c ; do cs' <- convert_channels from to cs ; Ok (c' :: cs')
  end.
(** [Depth::execute_impl] — depth.rs:109-211: image depth and channels of all frames. [BitDepth::Unknown] (an error) is left out. *)
Definition convert_depth (to : depth) (image : depth * list samples) : res (depth * list samples) :=
  if depth_eqb (fst image) to then Ok image else
  do cs <- convert_channels (fst image) to (snd image) ; Ok (to, cs).
