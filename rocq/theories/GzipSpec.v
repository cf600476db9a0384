(** RFC 1952: the gzip file format. *)
From Verif Require Import Base CrcSpec HuffSpec.

(** A member: the optional header fields, the compressed bytes and the data they stand for. *)
Record member := mkMember {
  g_text : bool;                  (* FTEXT *)
  g_hcrc : option (list Z);       (* CRC16, two bytes *)
  g_extra : option (list Z);
  g_name : option (list Z);       (* without the terminating zero *)
  g_comment : option (list Z);
  g_mtime : list Z;               (* four bytes *)
  g_xfl : Z;
  g_os : Z;
  g_body : list Z;                (* the DEFLATE stream *)
  g_data : list Z }.

Definition present {A} (x : option A) : Z := match x with Some _ => 1 | None => 0 end.
Definition optional (f : list Z -> list Z) (x : option (list Z)) : list Z := match x with Some l => f l | None => [] end.
Definition all_of (P : list Z -> Prop) (x : option (list Z)) : Prop := match x with Some l => P l | None => True end.

(** 2.3: the bytes of a member. *)
Definition member_header (g : member) : list Z :=
  [31; 139; 8; Z.b2z (g_text g) + 2 * present (g_hcrc g) + 4 * present (g_extra g) + 8 * present (g_name g) + 16 * present (g_comment g)]
  ++ g_mtime g ++ [g_xfl g; g_os g]
  ++ optional (fun l => le_bytes 2 (Z.of_nat (length l)) ++ l) (g_extra g)
  ++ optional (fun l => l ++ [0]) (g_name g)
  ++ optional (fun l => l ++ [0]) (g_comment g)
  ++ optional (fun l => l) (g_hcrc g).
Definition member_bytes (g : member) : list Z :=
  member_header g ++ g_body g ++ le_bytes 4 (crc32 (g_data g)) ++ le_bytes 4 (Z.of_nat (length (g_data g)) mod 2 ^ 32).

(** [budget] bounds the bits of one match, as in [deflate_stream]. *)
Definition member_ok (budget : Z) (g : member) : Prop :=
  all_of (fun l => bytes l /\ length l = 2%nat) (g_hcrc g) /\
  all_of (fun l => bytes l /\ Z.of_nat (length l) < 2 ^ 16) (g_extra g) /\
  all_of (fun l => bytes l /\ ~ In 0 l) (g_name g) /\
  all_of (fun l => bytes l /\ ~ In 0 l) (g_comment g) /\
  bytes (g_mtime g) /\ length (g_mtime g) = 4%nat /\ is_byte (g_xfl g) /\ is_byte (g_os g) /\
  deflate_stream budget (g_body g) (g_data g).

(** 2.2: a gzip file is a series of members and stands for their data in order. *)
Definition file_bytes (gs : list member) : list Z := concat (map member_bytes gs).
Definition file_data (gs : list member) : list Z := concat (map g_data gs).
