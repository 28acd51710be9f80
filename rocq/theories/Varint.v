(** * Model of Go's [encoding/binary] (Go 1.12, see /repo/.circleci/config.yml:5).

    The package is an external dependency of zeropb; this file transcribes its
    published source (encoding/binary/varint.go, binary.go of Go 1.12). *)
From Verif Require Export GoBase.

(** binary.Uvarint (varint.go):
<<
	for i, b := range buf {
		if b < 0x80 {
			if i > 9 || i == 9 && b > 1 { return 0, -(i + 1) }
			return x | uint64(b)<<s, i + 1
		}
		x |= uint64(b&0x7f) << s
		s += 7
	}
	return 0, 0
>> *)
Fixpoint uvarint_loop (buf : list Z) (i x s : Z) : Z * Z :=
  match buf with
  | [] => (0, 0)
  | b :: rest =>
    if b <? 128 then
      if (9 <? i) || ((i =? 9) && (1 <? b)) then (0, - (i + 1))
      else (Z.lor x (u64 (Z.shiftl b s)), i + 1)
    else
      uvarint_loop rest (i + 1)
        (Z.lor x (u64 (Z.shiftl (Z.land b 127) s))) (s + 7)
  end.

Definition uvarint (buf : list Z) : Z * Z := uvarint_loop buf 0 0 0.

(** The loop of later Go releases (1.17 and up) gives up at the eleventh byte.
    Only used to show (VarintFacts.v) that the two versions agree on every
    input that is not an overlong varint. *)
Fixpoint uvarint_loop_117 (buf : list Z) (i x s : Z) : Z * Z :=
  match buf with
  | [] => (0, 0)
  | b :: rest =>
    if i =? 10 then (0, - (i + 1))
    else if b <? 128 then
      if (i =? 9) && (1 <? b) then (0, - (i + 1))
      else (Z.lor x (u64 (Z.shiftl b s)), i + 1)
    else
      uvarint_loop_117 rest (i + 1)
        (Z.lor x (u64 (Z.shiftl (Z.land b 127) s))) (s + 7)
  end.

Definition uvarint_117 (buf : list Z) : Z * Z := uvarint_loop_117 buf 0 0 0.

(** binary.PutUvarint (varint.go), writing into a scratch array of [cap] bytes;
    returns the bytes [scratch[:n]].  Indexing past the array panics.
<<
	i := 0
	for x >= 0x80 {
		buf[i] = byte(x) | 0x80
		x >>= 7
		i++
	}
	buf[i] = byte(x)
	return i + 1
>> *)
Fixpoint put_uvarint (cap : nat) (x : Z) : res (list Z) :=
  match cap with
  | O => Panic
  | S cap' =>
    if 128 <=? x then
      let* rest := put_uvarint cap' (Z.shiftr x 7) in
      Ok (Z.lor (u8 x) 128 :: rest)
    else Ok [u8 x]
  end.

(** binary.MaxVarintLen32 / binary.MaxVarintLen64 *)
Definition MaxVarintLen32 : nat := 5.
Definition MaxVarintLen64 : nat := 10.

(** binary.Varint:
<<
	ux, n := Uvarint(buf)
	x := int64(ux >> 1)
	if ux&1 != 0 { x = ^x }
	return x, n
>> *)
Definition varint (buf : list Z) : Z * Z :=
  let '(ux, n) := uvarint buf in
  let x := i64 (Z.shiftr ux 1) in
  (if negb (Z.land ux 1 =? 0) then Z.lnot x else x, n).

(** binary.PutVarint:
<<
	ux := uint64(x) << 1
	if x < 0 { ux = ^ux }
	return PutUvarint(buf, ux)
>> *)
Definition put_varint (cap : nat) (x : Z) : res (list Z) :=
  let ux := u64 (Z.shiftl (u64 x) 1) in
  let ux := if x <? 0 then u64 (Z.lnot ux) else ux in
  put_uvarint cap ux.

(** binary.LittleEndian.Uint32: [_ = b[3]] bounds check, then the or of the
    shifted bytes. *)
Definition le_uint32 (b : list Z) : res Z :=
  match b with
  | b0 :: b1 :: b2 :: b3 :: _ =>
    Ok (Z.lor (Z.lor (Z.lor b0 (Z.shiftl b1 8)) (Z.shiftl b2 16)) (Z.shiftl b3 24))
  | _ => Panic
  end.

(** binary.LittleEndian.Uint64 *)
Definition le_uint64 (b : list Z) : res Z :=
  match b with
  | b0 :: b1 :: b2 :: b3 :: b4 :: b5 :: b6 :: b7 :: _ =>
    Ok (Z.lor (Z.lor (Z.lor (Z.lor (Z.lor (Z.lor (Z.lor
          b0 (Z.shiftl b1 8)) (Z.shiftl b2 16)) (Z.shiftl b3 24))
          (Z.shiftl b4 32)) (Z.shiftl b5 40)) (Z.shiftl b6 48)) (Z.shiftl b7 56))
  | _ => Panic
  end.

(** binary.LittleEndian.PutUint32 / PutUint64 into a scratch array of exactly
    4 / 8 bytes. *)
Definition put_le32 (v : Z) : list Z :=
  [u8 v; u8 (Z.shiftr v 8); u8 (Z.shiftr v 16); u8 (Z.shiftr v 24)].
Definition put_le64 (v : Z) : list Z :=
  [u8 v; u8 (Z.shiftr v 8); u8 (Z.shiftr v 16); u8 (Z.shiftr v 24);
   u8 (Z.shiftr v 32); u8 (Z.shiftr v 40); u8 (Z.shiftr v 48); u8 (Z.shiftr v 56)].
