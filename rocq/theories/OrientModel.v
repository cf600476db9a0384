(** Model of whole-image rotation, flips and transposition and of automatic orientation in crates/zune-imageprocs
    (rotate.rs, flip.rs, transpose.rs, auto_orient.rs) and of pipelines in crates/zune-image (pipelines.rs). *)
From Verif Require Import Base Loops Slices BmpModel GeomModel F32.

(** An image: width, height, bytes per sample (1, 2 or 4) and the samples of every channel of every frame. Colour is
    left out: these operations accept every colour space and treat all channels alike. *)
Record pic := Pic { p_w : nat; p_h : nat; p_size : nat; p_chans : list (list Z) }.

(** [confirm_invariants] — crates/zune-image/src/traits.rs:220-251, the part about lengths. *)
Definition confirm (p : pic) : res unit :=
  if forallb (fun c => length c * p_size p =? p_size p * p_w p * p_h p)%nat (p_chans p) then Ok tt else Err ESize.

(** [OperationsTrait::execute] — traits.rs:143-193 (the checks of type and colour space succeed for these operations). *)
Definition execute (impl : pic -> res pic) (p : pic) : res pic :=
  do _ <- confirm p ; do q <- impl p ; do _ <- confirm q ; Ok q.

(** [execute_on] — utils.rs:86-114: all channels, the first error is returned (threads: see ThreadModel.v). *)
Definition on_channels (f : list Z -> res (list Z)) (p : pic) : res pic :=
  do cs <- mapM f (p_chans p) ; Ok (Pic (p_w p) (p_h p) (p_size p) cs).

(** [Flip::execute_impl] — flip.rs:76-121, horizontal and vertical. *)
Definition flip_h_impl (p : pic) : res pic := on_channels (flop (p_w p)) p.
Definition flip_v_impl (p : pic) : res pic := on_channels (vertical_flip (p_w p)) p.

(** [Transpose::execute_impl] — transpose.rs:50-92, with the scalar routine. *)
Definition transpose_impl (checked : bool) (p : pic) : res pic :=
  do q <- on_channels (fun c => transpose checked (p_w p) (p_h p) c (repeat 0 (p_w p * p_h p))) p ;
  Ok (Pic (p_h p) (p_w p) (p_size p) (p_chans q)).

(** *** Rotation by a quarter, half or three quarters of a turn *)
Inductive turn : Set := T90 | T180 | T270.

(** [f32::abs] *)
Definition fabs (x : f32) : f32 :=
  match x with
  | S754_zero _ => S754_zero false | S754_infinity _ => S754_infinity false | S754_nan => S754_nan
  | S754_finite _ m e => S754_finite false m e
  end.
(** [x.ceil() as usize] for values that are not negative (negative ones become 0) *)
Definition ceil_usize (x : f32) : Z :=
  match x with
  | S754_finite false m e => Z.min (2 ^ 64 - 1) (if 0 <=? e then Zpos m * 2 ^ e else - (- Zpos m / 2 ^ (- e)))
  | S754_infinity false => 2 ^ 64 - 1
  | _ => 0
  end.

Section Rotate.
(** Cosine and sine of the angle converted to radians: functions of the platform's mathematical library. *)
Variable trig : turn -> f32 * f32.

(** [change_image_dims] — rotate.rs:122-141: whatever the first two cases set is overwritten by the last lines, which
    use the old dimensions. *)
Definition change_dims (t : turn) (w h : nat) : nat * nat :=
  let '(c, s) := trig t in
  let dim a b := Z.to_nat (ceil_usize (fadd (fmul (of_int (Z.of_nat a)) (fabs c)) (fmul (of_int (Z.of_nat b)) (fabs s)))) in
  let dim' a b := Z.to_nat (ceil_usize (fadd (fmul (of_int (Z.of_nat a)) (fabs s)) (fmul (of_int (Z.of_nat b)) (fabs c)))) in
  (dim w h, dim' w h).

(** One channel — rotate.rs:68-109 and 143-162. The new channel gets as many bytes as the picture has samples
    ([new_with_length_and_type] counts bytes); its reinterpretation fails when the sample size does not divide this. *)
Definition rotate_channel (t : turn) (p : pic) (c : list Z) : res (list Z) :=
  let bytes_ := (p_w p * p_h p)%nat in
  if negb (bytes_ mod p_size p =? 0)%nat then Err ESize else
  let out := repeat 0 (bytes_ / p_size p) in
  match t with
  | T180 => if negb (length out =? length c)%nat then Panic else rotate_180 (p_w p) c
  | T90 => rotate_90 (p_w p) (p_h p) c out
  | T270 => rotate_270 (p_w p) (p_h p) c out
  end.

(** [Rotate::execute_impl] — rotate.rs:61-116. *)
Definition rotate_impl (t : turn) (p : pic) : res pic :=
  do q <- on_channels (rotate_channel t p) p ;
  match t with
  | T180 => Ok q
  | _ => let '(w, h) := change_dims t (p_w p) (p_h p) in Ok (Pic w h (p_size p) (p_chans q))
  end.

(** *** Automatic orientation *)

(** An Exif value: [Value::Short], or any other kind. *)
Inductive value : Set := Short (xs : list Z) | Byte (xs : list Z) | OtherValue.
Record field : Set := Field { f_tag : Z; f_value : value }.
Definition orientation_tag : Z := 274. (* 0x112 *)

(** The match on the orientation — auto_orient.rs:62-98. *)
Definition orient_by (checked : bool) (b : Z) (p : pic) : res pic :=
  if b =? 2 then execute flip_h_impl p
  else if b =? 3 then execute (rotate_impl T180) p
  else if b =? 4 then execute flip_v_impl p
  else if b =? 5 then transpose_impl checked p
  else if b =? 6 then execute (rotate_impl T90) p
  else if b =? 7 then do q <- execute (rotate_impl T270) p ; execute flip_h_impl q
  else if b =? 8 then execute (rotate_impl T270) p
  else Ok p.

(** The loop over the fields — auto_orient.rs:51-108. The flag tells whether the function goes on to the update. *)
Fixpoint orient_fields (checked : bool) (fs : list field) (p : pic) : res (pic * bool) :=
  match fs with
  | [] => Ok (p, true)
  | f :: fs' =>
      if f_tag f =? orientation_tag then
        match f_value f with
        | Short [] => Ok (p, false)
        | Short (b :: _) => do q <- orient_by checked b p ; Ok (q, true)
        | _ => orient_fields checked fs' p
        end
      else orient_fields checked fs' p
  end.

(** The update — auto_orient.rs:111-118. *)
Definition neutral (fs : list field) : list field :=
  map (fun f => if f_tag f =? orientation_tag then Field (f_tag f) (Byte [1]) else f) fs.

(** [AutoOrient::execute] with the feature exif; [None]: the image has no Exif fields. *)
Definition auto_orient (checked : bool) (fs : option (list field)) (p : pic) : res (pic * option (list field)) :=
  do _ <- confirm p ;
  do r <- match fs with
          | None => Ok (p, None)
          | Some l => do (q, go) <- orient_fields checked l p ; Ok (q, Some (if go : bool then neutral l else l))
          end ;
  do _ <- confirm (fst r) ; Ok r.
End Rotate.

(** ** Pipelines — crates/zune-image/src/pipelines.rs *)
Section Pipeline.
Variable I : Type.

(** What an operation leaves in the image, and whether it succeeded. *)
Definition operation : Type := I -> I * bool.

Inductive pstate : Set := Initialized | Decode | Operations | Encode | Finished.
Definition next (s : pstate) : option pstate :=
  match s with
  | Initialized => Some Decode | Decode => Some Operations | Operations => Some Encode
  | Encode => Some Finished | Finished => None
  end.

(** pipelines.rs:74-79; a decoder is the picture it will give, or [None] for an error. *)
Record pipeline := Pipe { state : option pstate; decoder : option (option I); images : list I; operations : list operation }.

(** [Pipeline::new], [chain_image], [chain_decoder], [chain_operations] — pipelines.rs:84-136. *)
Definition new_pipeline : pipeline := Pipe (Some Initialized) None [] [].
Definition chain_image (i : I) (p : pipeline) : pipeline := Pipe (state p) (decoder p) (images p ++ [i]) (operations p).
Definition chain_decoder (d : option I) (p : pipeline) : pipeline := Pipe (state p) (Some d) (images p) (operations p).
Definition chain_operation (o : operation) (p : pipeline) : pipeline := Pipe (state p) (decoder p) (images p) (operations p ++ [o]).

(** The inner loop — pipelines.rs:198-213. *)
Fixpoint run_operations (os : list operation) (i : I) : I * bool :=
  match os with
  | [] => (i, true)
  | o :: os' => let '(i', ok) := o i in if ok then run_operations os' i' else (i', false)
  end.
(** The outer loop — pipelines.rs:197-215: the state advances as soon as one image is done. *)
Fixpoint run_images (os : list operation) (s : option pstate) (is : list I) : list I * option pstate * bool :=
  match is with
  | [] => ([], s, true)
  | i :: is' =>
      let '(i', ok) := run_operations os i in
      if ok then let '(done, s', ok') := run_images os (next Operations) is' in (i' :: done, s', ok')
      else (i' :: is', s, false)
  end.

(** [advance] — pipelines.rs:155-228; the Boolean is false for an error. *)
Definition advance (p : pipeline) : pipeline * bool :=
  match state p with
  | None => (p, true)
  | Some Decode =>
      match decoder p with
      | None =>
          match images p with
          | [] => (Pipe (next Decode) None [] (operations p), true)
          | _ => (p, false)
          end
      | Some None => (Pipe (Some Decode) None (images p) (operations p), false)
      | Some (Some i) => (Pipe (next Decode) None (images p ++ [i]) (operations p), true)
      end
  | Some Operations =>
      match images p with
      | [] => (p, false)
      | _ => let '(is, s, ok) := run_images (operations p) (state p) (images p) in (Pipe s (decoder p) is (operations p), ok)
      end
  | Some s => (Pipe (next s) (decoder p) (images p) (operations p), true)
  end.

(** [advance_to_end] — pipelines.rs:234-241; the fuel is the number of rounds of the loop. *)
Fixpoint advance_loop (fuel : nat) (p : pipeline) : pipeline * option bool :=
  match state p with
  | None => (p, Some true)
  | Some _ =>
      match fuel with
      | O => (p, None)
      | S f => let '(p', ok) := advance p in if ok then advance_loop f p' else (p', Some false)
      end
  end.
Definition advance_to_end (p : pipeline) : pipeline * option bool := advance_loop 5 p.
End Pipeline.
