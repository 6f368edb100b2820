(** Text buffers without allocation: src/lib/formatting-nostd/src/utf8.rs and
    format_buffer.rs (used for logging inside managed processes).

    Bytes are numbers; the buffer is the text written so far, and writing the
    NUL byte after it is in bounds or a panic ([None]).  The output of libc's
    vsnprintf (without the size limit) is an input. *)
From Verif Require Import Base.

Definition len (l : list Z) : Z := Z.of_nat (length l).

Definition between (a x b : Z) : bool := (a <=? x) && (x <=? b).

(** core::str::from_utf8, used in utf8.rs:20: the length of the character the
    bytes start with, by the table of the Rust core library
    (core/src/str/validations.rs, run_utf8_validation) *)
Definition one (bs : list Z) : option nat :=
  match bs with
  | [] => None
  | a :: r =>
      if between 0 a 127 then Some 1%nat
      else match r with
      | [] => None
      | b :: r =>
          if between 194 a 223 && between 128 b 191 then Some 2%nat
          else match r with
          | [] => None
          | c :: r =>
              if ((a =? 224) && between 160 b 191 || between 225 a 236 && between 128 b 191
                  || (a =? 237) && between 128 b 159 || between 238 a 239 && between 128 b 191)
                 && between 128 c 191 then Some 3%nat
              else match r with
              | [] => None
              | d :: _ =>
                  if ((a =? 240) && between 144 b 191 || between 241 a 243 && between 128 b 191
                      || (a =? 244) && between 128 b 143)
                     && between 128 c 191 && between 128 d 191 then Some 4%nat
                  else None
              end
          end
      end
  end.

Fixpoint valid (fuel : nat) (bs : list Z) : bool :=
  match bs, fuel with
  | [], _ => true
  | _, O => false
  | _, S fuel => match one bs with Some n => valid fuel (skipn n bs) | None => false end
  end.

Definition from_utf8 (bs : list Z) : bool := valid (length bs) bs.

(** split_at_first_char, utf8.rs:17-25: the loop over the lengths *)
Fixpoint try_lengths (ns : list nat) (bs : list Z) : option (list Z * list Z) :=
  match ns with
  | [] => None
  | n :: ns => if from_utf8 (firstn n bs) then Some (firstn n bs, skipn n bs) else try_lengths ns bs
  end.

Definition split_first (bs : list Z) : option (list Z * list Z) :=
  try_lengths (seq 1 (Nat.min 4 (length bs))) bs.

(** UNICODE_REPLACEMENT_CHAR_STR, utf8.rs:1 *)
Definition replacement : list Z := [239; 191; 189].

(** split_at_first_char_lossy, utf8.rs:79-103 *)
Fixpoint split_lossy (invalid : bool) (bs : list Z) : list Z * list Z :=
  match bs with
  | [] => (replacement, [])
  | _ :: rest =>
      match split_first bs with
      | Some (c, t) => if invalid then (replacement, bs) else (c, t)
      | None => split_lossy true rest
      end
  end.

(** DecodeLossyIterator::next until it ends, utf8.rs:126-141 *)
Fixpoint decode (fuel : nat) (bs : list Z) : option (list (list Z)) :=
  match bs, fuel with
  | [], _ => Some []
  | _, O => None
  | _, S fuel =>
      let '(c, t) := split_lossy false bs in
      do cs <- decode fuel t; Some (c :: cs)
  end.

(** FormatBuffer, format_buffer.rs:27-32 *)
Record fbuf := FBuf { b_text : list Z; b_trunc : Z }.

(** null_terminate, format_buffer.rs:67-69 *)
Definition null_terminate (N : Z) (b : fbuf) : option fbuf :=
  check (len (b_text b) <? N); Some b.

(** FormatBuffer::new, format_buffer.rs:38-47 *)
Definition fnew (N : Z) : option fbuf := check (1 <=? N); null_terminate N (FBuf [] 0).

(** capacity_remaining, format_buffer.rs:50-52 *)
Definition remaining (N : Z) (b : fbuf) : Z := N - 1 - len (b_text b).

(** write_fitting_str, format_buffer.rs:183-197 *)
Definition write_fitting (N : Z) (src : list Z) (b : fbuf) : option fbuf :=
  check (len src <=? remaining N b);
  null_terminate N (FBuf (b_text b ++ src) (b_trunc b)).

(** str::is_char_boundary, and the loop of write_str, format_buffer.rs:215-217 *)
Definition boundary (src : list Z) (n : nat) : bool :=
  (n =? 0)%nat || (n =? length src)%nat
  || match nth_error src n with Some x => negb (between 128 x 191) | None => false end.

Fixpoint floor_boundary (src : list Z) (n : nat) : option nat :=
  if boundary src n then Some n
  else match n with O => None | S n => floor_boundary src n end.

(** write_str, format_buffer.rs:201-223 *)
Definition write_str (N : Z) (src : list Z) (b : fbuf) : option fbuf :=
  if 0 <? b_trunc b then Some (FBuf (b_text b) (b_trunc b + len src))
  else if len src <=? remaining N b then write_fitting N src b
  else
    check (0 <=? remaining N b);
    do n <- floor_boundary src (Z.to_nat (remaining N b));
    write_fitting N (firstn n src) (FBuf (b_text b) (b_trunc b + (len src - Z.of_nat n))).

Fixpoint writes (N : Z) (ws : list (list Z)) (b : fbuf) : option fbuf :=
  match ws with
  | [] => Some b
  | w :: ws => do b <- write_str N w b; writes N ws b
  end.

(** the loop of sprintf, format_buffer.rs:165-171 *)
Fixpoint put_chars (N : Z) (cs : list (list Z)) (b : fbuf) : option fbuf :=
  match cs with
  | [] => Some b
  | c :: cs =>
      if (0 <? b_trunc b) || (remaining N b <? len c)
      then put_chars N cs (FBuf (b_text b) (b_trunc b + len c))
      else do b <- write_fitting N c b; put_chars N cs b
  end.

(** sprintf, format_buffer.rs:127-180; [out] is what vsnprintf would write if
    there were no limit *)
Definition sprintf (N : Z) (out : list Z) (b : fbuf) : option fbuf :=
  let written := Z.min (N - 1) (len out) in
  let initd := firstn (Z.to_nat written) out in
  do cs <- decode (length initd) initd;
  do b <- put_chars N cs b;
  null_terminate N (FBuf (b_text b) (b_trunc b + (len out - written))).

(** The operations of a buffer; reset is format_buffer.rs:75-79. *)
Inductive op :=
| Write (src : list Z)
| Printf (out : list Z)
| Reset.

Definition apply_op (N : Z) (o : op) (b : fbuf) : option fbuf :=
  match o with
  | Write src => write_str N src b
  | Printf out => sprintf N out b
  | Reset => null_terminate N (FBuf [] 0)
  end.

Fixpoint apply_ops (N : Z) (os : list op) (b : fbuf) : option fbuf :=
  match os with
  | [] => Some b
  | o :: os => do b <- apply_op N o b; apply_ops N os b
  end.
