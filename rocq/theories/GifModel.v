(** Model of the GIF decoder — crates/zune-gif/src/decoder.rs, the whole crate. Logging is dropped, and so are the fields
    that nothing reads ([_background], [_dispose_area]). *)
From Verif Require Import Base Loops StreamModel.

(** [GifDecoder] — decoder.rs:15-29 *)
Record gif := { gs : cursor; gwidth : Z; gheight : Z; gflags : Z; gbgindex : Z; gratio : Z; gread : bool; gframe : nat;
                gpal : list (list Z); gback : list Z }.

(** [GifDecoder::new] — decoder.rs:32-51 *)
Definition gif_new (data : list Z) : gif :=
  {| gs := {| cdata := data; cpos := 0 |}; gwidth := 0; gheight := 0; gflags := 0; gbgindex := 0; gratio := 0; gread := false;
     gframe := 0; gpal := repeat [0; 0; 0; 0] 256; gback := [] |}.

Definition with_stream (g : gif) (c : cursor) : gif :=
  {| gs := c; gwidth := gwidth g; gheight := gheight g; gflags := gflags g; gbgindex := gbgindex g; gratio := gratio g;
     gread := gread g; gframe := gframe g; gpal := gpal g; gback := gback g |}.

(** The comparison [buffer.read_u8() != b] followed by the rest of the test — decoder.rs:177-191 *)
Definition expect (p : Z -> bool) (c : cursor) (k : cursor -> bool * cursor) : bool * cursor :=
  let '(b, c) := read_u8 c in if p b then k c else (false, c).
(** [test_gif] — decoder.rs:176-195 *)
Definition test_gif (c : cursor) : bool * cursor :=
  expect (fun b => b =? 71) c (fun c => expect (fun b => b =? 73) c (fun c => expect (fun b => b =? 70) c (fun c =>
  expect (fun b => b =? 56) c (fun c => expect (fun b => (b =? 57) || (b =? 55)) c (fun c => expect (fun b => b =? 97) c (fun c =>
  (true, c))))))).

(** [parse_colortable] — decoder.rs:100-114; [pos] is the index of the first entry of [pal] *)
Fixpoint parse_colortable (pos : nat) (transp : Z) (n : nat) (pal : list (list Z)) (c : cursor) : list (list Z) * cursor :=
  match n, pal with
  | S n', _ :: pal' =>
      let '(x2, c) := read_u8 c in
      let '(x1, c) := read_u8 c in
      let '(x0, c) := read_u8 c in
      let '(rest, c) := parse_colortable (S pos) transp n' pal' c in
      ([x0; x1; x2; if transp =? Z.of_nat pos then 0 else 255] :: rest, c)
  | _, _ => (pal, c)
  end.

(** [decode_headers] — decoder.rs:52-99. The decoder is returned with every field that was set before an error. *)
Definition decode_headers (max_width max_height : Z) (g : gif) : res unit * gif :=
  if gread g then (Ok tt, g) else
  let '(ok, c) := test_gif (gs g) in
  if negb ok then (Err EMagic, with_stream g c) else
  match get_err LE 2 c with
  | (Ok width, c) =>
      let g := {| gs := c; gwidth := width; gheight := gheight g; gflags := gflags g; gbgindex := gbgindex g; gratio := gratio g;
                  gread := gread g; gframe := gframe g; gpal := gpal g; gback := gback g |} in
      match get_err LE 2 c with
      | (Ok height, c) =>
          match read_u8_err c with
          | (Ok flags, c) =>
              match read_u8_err c with
              | (Ok bg, c) =>
                  match read_u8_err c with
                  | (Ok ratio, c) =>
                      let set rd pal c :=
                        {| gs := c; gwidth := width; gheight := height; gflags := flags; gbgindex := bg; gratio := ratio;
                           gread := rd; gframe := gframe g; gpal := pal; gback := gback g |} in
                      if max_width <? width then (Err ELimit, set false (gpal g) c) else
                      if max_height <? height then (Err ELimit, set false (gpal g) c) else
                      let '(pal, c) :=
                        if 0 <? Z.land flags 0x80
                        then parse_colortable 0 (2 ^ 64 - 1) (Z.to_nat (Z.shiftl 2 (Z.land flags 7))) (gpal g) c
                        else (gpal g, c) in
                      (Ok tt, set true pal c)
                  | (_, c) => (Err EEof, with_stream g c)
                  end
              | (_, c) => (Err EEof, with_stream g c)
              end
          | (_, c) => (Err EEof, with_stream g c)
          end
      | (_, c) => (Err EEof, with_stream g c)
      end
  | (_, c) => (Err EEof, with_stream g c)
  end.

(** [output_buf_size] — decoder.rs:116-121 *)
Definition output_buf_size (g : gif) : option Z :=
  if gread g then
    if 2 ^ 64 <=? gwidth g * gheight g then None
    else if 2 ^ 64 <=? gwidth g * gheight g * 4 then None else Some (gwidth g * gheight g * 4)
  else None.

(** [decode_into] — decoder.rs:136-174. The choice of a disposal method has no effect and is dropped, and with it the
    argument [two_back]. Returns the status, the caller's buffer and the decoder. *)
Definition decode_into (max_width max_height : Z) (g : gif) (output : list Z) : res unit * list Z * gif :=
  match decode_headers max_width max_height g with
  | (Ok _, g) =>
      match output_buf_size g with
      | None => (Err EOverflow, output, g)
      | Some size =>
          if Z.of_nat (length output) <? size then (Err ESize, output, g) else
          let n := Z.to_nat size in
          let next back := {| gs := gs g; gwidth := gwidth g; gheight := gheight g; gflags := gflags g; gbgindex := gbgindex g;
                              gratio := gratio g; gread := gread g; gframe := S (gframe g); gpal := gpal g; gback := back |} in
          if (gframe g =? 0)%nat
          then (Ok tt, repeat 0 n ++ skipn n output, next (firstn n (gback g) ++ repeat 0 (n - length (gback g))))
          else (Ok tt, output, next (gback g))
      end
  | (Err e, g) => (Err e, output, g)
  | (Panic, g) => (Panic, output, g)
  | (Fuel, g) => (Fuel, output, g)
  end.
