(** Reading and writing text files: [io.TextIOWrapper(f, 'utf-8')] as used by
    [UnicodeCodec] (cli.py:88-103).  Definitions only.  Bytes are numbers 0..255. *)
From Verif Require Import Py.

Definition bytes := list Z.

(** One code point in UTF-8; surrogates and numbers beyond U+10FFFF cannot be
    encoded. *)
Definition utf8_char (c : char) : option bytes :=
  if c <? 0 then None
  else if c <? 128 then Some [c]
  else if c <? 2048 then Some [192 + c / 64; 128 + c mod 64]
  else if c <? 65536 then
    if (55296 <=? c) && (c <=? 57343) then None
    else Some [224 + c / 4096; 128 + (c / 64) mod 64; 128 + c mod 64]
  else if c <? 1114112 then
    Some [240 + c / 262144; 128 + (c / 4096) mod 64; 128 + (c / 64) mod 64; 128 + c mod 64]
  else None.

(** [s.encode('utf-8')]; None stands for UnicodeEncodeError. *)
Fixpoint utf8_encode (t : text) : option bytes :=
  match t with
  | [] => Some []
  | c :: rest =>
      match utf8_char c, utf8_encode rest with
      | Some a, Some b => Some (a ++ b)
      | _, _ => None
      end
  end.

(** A continuation byte. *)
Definition is_cont (b : Z) : bool := (128 <=? b) && (b <=? 191).

(** [b.decode('utf-8')], strict; None stands for UnicodeDecodeError. *)
Fixpoint utf8_decode (bs : bytes) : option text :=
  let emit (c : Z) (r : option text) := match r with Some t => Some (c :: t) | None => None end in
  match bs with
  | [] => Some []
  | b0 :: r0 =>
      if (0 <=? b0) && (b0 <? 128) then emit b0 (utf8_decode r0)
      else
        match r0 with
        | [] => None
        | b1 :: r1 =>
            if negb (is_cont b1) then None
            else if (194 <=? b0) && (b0 <=? 223) then
              emit ((b0 - 192) * 64 + (b1 - 128)) (utf8_decode r1)
            else
              match r1 with
              | [] => None
              | b2 :: r2 =>
                  if negb (is_cont b2) then None
                  else if (224 <=? b0) && (b0 <=? 239) then
                    let c := (b0 - 224) * 4096 + (b1 - 128) * 64 + (b2 - 128) in
                    if (c <? 2048) || ((55296 <=? c) && (c <=? 57343)) then None
                    else emit c (utf8_decode r2)
                  else
                    match r2 with
                    | [] => None
                    | b3 :: r3 =>
                        if negb (is_cont b3) then None
                        else if (240 <=? b0) && (b0 <=? 244) then
                          let c := (b0 - 240) * 262144 + (b1 - 128) * 4096 + (b2 - 128) * 64 + (b3 - 128) in
                          if (c <? 65536) || (1114111 <? c) then None
                          else emit c (utf8_decode r3)
                        else None
                    end
              end
        end
  end.

Definition CR : char := 13.

(** Universal newlines ([newline=None]) when reading: CR LF and CR become LF. *)
Fixpoint universal_newlines (t : text) : text :=
  match t with
  | [] => []
  | c :: rest =>
      if c =? CR then
        NL :: match rest with
              | d :: rest' => if d =? NL then universal_newlines rest' else universal_newlines rest
              | [] => []
              end
      else c :: universal_newlines rest
  end.

(** [UnicodeCodec.read] (cli.py:93-95). *)
Definition codec_read (bs : bytes) : option text :=
  match utf8_decode bs with Some t => Some (universal_newlines t) | None => None end.

(** [UnicodeCodec.write] (cli.py:97-99), where [os.linesep] is LF. *)
Definition codec_write (t : text) : option bytes := utf8_encode t.
