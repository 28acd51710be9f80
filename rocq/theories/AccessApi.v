(** * The code as programs over single memory accesses

    The functions of offsets.go and zeropb.go, and the generated methods, with every
    access to a byte of an array, to a map or to a part of a struct as a step of its
    own (Access.v).  Local variables, scratch arrays and slice headers on the stack
    are not memory others can access.

    Simplifications: [copy] and the copying of [append] read all bytes before they
    write the first (they behave like memmove; which byte is accessed when in between
    makes no difference to which locations are accessed).  A map operation reads, or
    reads and writes, the whole map.  A loop of Decode or FindNextField is cut off
    after [length + 2 + more] iterations; a loop that gets there never ends (Fuel.v),
    so that all of it is covered by taking [more] large. *)
From Verif Require Export Access.
From Verif Require Import SpecShare.

Definition as_num (w : word) : Z := match w with Num z => z | _ => 0 end.
Definition as_slice (w : word) : option slice := match w with Hdr s => s | _ => None end.
Definition as_ref (w : word) : option nat := match w with Ptr r => r | _ => None end.
Definition as_map (w : word) : gmap Z Z := match w with Tbl m => m | _ => ∅ end.
Definition load_num (l : loc) : prog Z := Load l (fun w => ret (as_num w)).
Definition load_slice (l : loc) : prog (option slice) := Load l (fun w => ret (as_slice w)).
Definition load_ref (l : loc) : prog (option nat) := Load l (fun w => ret (as_ref w)).
Definition load_map (l : loc) : prog (gmap Z Z) := Load l (fun w => ret (as_map w)).
Definition store (l : loc) (w : word) : prog unit := Store l w (ret tt).
Definition new (kd : kind) (n : nat) : prog nat := New kd n ret.

(** The bytes [pos], [pos + 1], ... of array [a]. *)
Fixpoint c_read (a : nat) (pos : Z) (n : nat) : prog (list Z) :=
  match n with
  | O => ret []
  | S n => let! b := load_num (Byte a pos) in let! bs := c_read a (pos + 1) n in ret (b :: bs)
  end.
Fixpoint c_write (a : nat) (pos : Z) (bs : list Z) : prog unit :=
  match bs with
  | [] => ret tt
  | b :: bs => let! _ := store (Byte a pos) (Num b) in c_write a (pos + 1) bs
  end.
(** The first [n] bytes of a slice. *)
Definition c_bytes (s : option slice) (n : Z) : prog (list Z) :=
  match s with None => ret [] | Some s => c_read (sarr s) (soff s) (Z.to_nat n) end.
Definition c_src (v : src) (n : Z) : prog (list Z) :=
  match v with Scratch bs => ret (take (Z.to_nat n) bs) | View s => c_bytes s n end.

(** [copy(s[i:], v)] *)
Definition c_copy (s : option slice) (i : Z) (v : src) : prog Z :=
  let! d := Stop (h_from s i) in
  match d with
  | None => ret 0
  | Some d =>
    let n := Z.min (slen d) (src_len v) in
    let! bs := c_src v n in
    let! _ := c_write (sarr d) (soff d) bs in
    ret n
  end.

(** [append(s, v...)]; [grow] is the capacity of a new array, from the old capacity and
    the length needed. *)
Definition c_append (grow : Z -> Z -> Z) (s : option slice) (v : src) : prog (option slice) :=
  let need := hlen s + src_len v in
  let cap := match s with None => 0 | Some s => scap s end in
  if need <=? cap then
    match s with
    | None => ret None
    | Some s =>
      let! bs := c_src v (src_len v) in
      let! _ := c_write (sarr s) (soff s + slen s) bs in
      ret (Some (mkSl (sarr s) (soff s) need (scap s)))
    end
  else
    let extra := Z.to_nat (grow cap need - need) in
    let! a := new KArray (Z.to_nat need + extra) in
    let! old := c_bytes s (hlen s) in
    let! _ := c_write a 0 old in
    let! bs := c_src v (src_len v) in
    let! _ := c_write a (hlen s) bs in
    ret (Some (mkSl a 0 need (need + Z.of_nat extra))).

(** binary.Uvarint on the [n] bytes from [pos] on: it reads up to the first byte below
    128 (see Varint.v). *)
Fixpoint c_uvarint_loop (n : nat) (a : nat) (pos i x s : Z) : prog (Z * Z) :=
  match n with
  | O => ret (0, 0)
  | S n =>
    let! b := load_num (Byte a pos) in
    if b <? 128 then
      if (9 <? i) || ((i =? 9) && (1 <? b)) then ret (0, - (i + 1))
      else ret (Z.lor x (u64 (Z.shiftl b s)), i + 1)
    else c_uvarint_loop n a (pos + 1) (i + 1) (Z.lor x (u64 (Z.shiftl (Z.land b 127) s))) (s + 7)
  end.
Definition c_uvarint (s : option slice) : prog (Z * Z) :=
  match s with None => ret (0, 0) | Some s => c_uvarint_loop (Z.to_nat (slen s)) (sarr s) (soff s) 0 0 0 end.
(** binary.Varint (Varint.v) *)
Definition c_varint (s : option slice) : prog (Z * Z) :=
  let! (ux, n) := c_uvarint s in
  let x := i64 (Z.shiftr ux 1) in
  ret (if negb (Z.land ux 1 =? 0) then Z.lnot x else x, n).

(** ** offsets.go.  [n] is the length of the array, [o] the struct. *)

(** offsets.go:47-54 *)
Definition in_array (n : nat) (f : Z) : bool := (0 <=? f) && (f <? Z.of_nat n).
Definition c_offsets_get (n o : nat) (f : Z) : prog (Z * bool) :=
  if in_array n f then
    let! offset := load_num (Off o (Z.to_nat f)) in
    if negb (offset =? offsetInMap) then ret (offset, negb (offset =? offsetUnset))
    else
      let! r := load_ref (Ref o) in
      match r with
      | None => ret (0, true)
      | Some l => let! m := load_map (Table l) in ret (default 0 (m !! f), true)
      end
  else Stop Panic.

(** offsets.go:57-74 *)
Definition c_offsets_set (n o : nat) (f x : Z) : prog unit :=
  if x <=? offsetMaxInArray then
    if in_array n f then
      let! previous := load_num (Off o (Z.to_nat f)) in
      let! _ :=
        (if previous =? offsetInMap then
           let! r := load_ref (Ref o) in
           match r with
           | None => ret tt
           | Some l => let! m := load_map (Table l) in store (Table l) (Tbl (delete f m))
           end
         else ret tt) in
      store (Off o (Z.to_nat f)) (Num (u16 x))
    else Stop Panic
  else
    if in_array n f then
      let! _ := store (Off o (Z.to_nat f)) (Num offsetInMap) in
      let! r := load_ref (Ref o) in
      let! _ :=
        (match r with
         | None => let! l := new KMap 0 in store (Ref o) (Ptr (Some l))
         | Some _ => ret tt
         end) in
      let! r := load_ref (Ref o) in
      match r with
      | None => Stop Panic
      | Some l => let! m := load_map (Table l) in store (Table l) (Tbl (<[f := x]> m))
      end
    else Stop Panic.

(** offsets.go:77-86 *)
Fixpoint c_zero (k i o : nat) : prog unit :=
  match k with
  | O => ret tt
  | S k => let! _ := store (Off o i) (Num offsetUnset) in c_zero k (S i) o
  end.
Definition c_clear (n o : nat) : prog unit :=
  let! _ := c_zero n 0 o in
  let! r := load_ref (Ref o) in
  match r with
  | None => ret tt
  | Some l => let! m := load_map (Table l) in store (Table l) (Tbl ∅)
  end.

(** ** zeropb.go *)

(** zeropb.go:335-348 *)
Definition c_old_len (o : nat) (offset typ : Z) : prog Z :=
  if typ =? WireVarint then
    let! buf := load_slice (Buf o) in
    let! b := Stop (h_from buf offset) in
    let! (_, n) := c_uvarint b in ret n
  else if typ =? WireFixed32 then ret 4
  else if typ =? WireFixed64 then ret 8
  else if typ =? WireBytes then
    let! buf := load_slice (Buf o) in
    let! b := Stop (h_from buf offset) in
    let! (oldValLen, oldValLenLen) := c_uvarint b in
    ret (i64 (i64 oldValLen + oldValLenLen))
  else Stop Panic.

(** zeropb.go:369-374: [k] cells from [i] on. *)
Fixpoint c_adjust_array (k i o : nat) (fieldEnd removedBytes : Z) : prog unit :=
  match k with
  | O => ret tt
  | S k =>
    let! offset := load_num (Off o i) in
    let! _ :=
      (if negb (offset =? 65535) && (fieldEnd <? offset)
       then store (Off o i) (Num (u16 (offset - u16 removedBytes))) else ret tt) in
    c_adjust_array k (S i) o fieldEnd removedBytes
  end.

(** zeropb.go:375-381.  The order of the keys does not matter (C16). *)
Fixpoint c_adjust_keys (n o l : nat) (ks : list Z) (fieldEnd removedBytes : Z) : prog unit :=
  match ks with
  | [] => ret tt
  | k :: ks =>
    let! m := load_map (Table l) in
    let! _ :=
      match m !! k with
      | None => ret tt
      | Some offset => if fieldEnd <? offset then c_offsets_set n o k (u64 (offset - removedBytes)) else ret tt
      end in
    c_adjust_keys n o l ks fieldEnd removedBytes
  end.
Definition c_adjust_map (n o : nat) (fieldEnd removedBytes : Z) : prog unit :=
  let! r := load_ref (Ref o) in
  match r with
  | None => ret tt
  | Some l => let! m := load_map (Table l) in c_adjust_keys n o l ((map_to_list m).*1) fieldEnd removedBytes
  end.

(** [*buf = append( *buf, v...)] *)
Definition c_push (grow : Z -> Z -> Z) (o : nat) (v : src) : prog unit :=
  let! b := load_slice (Buf o) in
  let! b := c_append grow b v in
  store (Buf o) (Hdr b).

(** zeropb.go:382-388 *)
Definition c_set_new (grow : Z -> Z -> Z) (n o : nat) (fieldID : Z) (tagBytes valLen : list Z) (v : src) : prog unit :=
  let! _ := c_push grow o (Scratch tagBytes) in
  let! b := load_slice (Buf o) in
  let! _ := c_offsets_set n o fieldID (u64 (hlen b)) in
  let! _ := c_push grow o (Scratch valLen) in
  c_push grow o v.

(** zeropb.go:326-389 *)
Definition c_setSingle (grow : Z -> Z -> Z) (n o : nat) (fieldID typ : Z) (valLen : list Z) (v : src) : prog unit :=
  let tag := make_tag fieldID typ in
  let! tagBytes := Stop (put_uvarint MaxVarintLen64 tag) in
  let tagLen := zlen tagBytes in
  let! (offset, ok) := c_offsets_get n o fieldID in
  if ok then
    let! oldLen := c_old_len o offset typ in
    if oldLen =? zlen valLen + src_len v then
      let! buf := load_slice (Buf o) in
      let! k := c_copy buf offset (Scratch valLen) in
      let offset := u64 (offset + u64 k) in
      let! buf := load_slice (Buf o) in
      let! _ := c_copy buf offset v in
      ret tt
    else
      let fieldBegin := u64 (offset - u64 tagLen) in
      let fieldEnd := u64 (offset + u64 oldLen) in
      let! buf := load_slice (Buf o) in
      let! s := Stop (h_from buf fieldEnd) in
      let! _ := c_copy buf fieldBegin (View s) in
      let removedBytes := u64 (fieldEnd - fieldBegin) in
      let! buf := load_slice (Buf o) in
      let! buf := Stop (h_range buf 0 (u64 (hlen buf - removedBytes))) in
      let! _ := store (Buf o) (Hdr buf) in
      let! _ := c_adjust_array n 0 o fieldEnd removedBytes in
      let! _ := c_adjust_map n o fieldEnd removedBytes in
      c_set_new grow n o fieldID tagBytes valLen v
  else c_set_new grow n o fieldID tagBytes valLen v.

(** zeropb.go:391-405 *)
Definition c_appendSingle (grow : Z -> Z -> Z) (n o : nat) (fieldID typ : Z) (valLen : list Z) (v : src) : prog unit :=
  let tag := make_tag fieldID typ in
  let! tagBytes := Stop (put_uvarint MaxVarintLen64 tag) in
  let! _ := c_push grow o (Scratch tagBytes) in
  let! b := load_slice (Buf o) in
  let! (_, ok) := c_offsets_get n o fieldID in
  let! _ := (if ok : bool then ret tt else c_offsets_set n o fieldID (u64 (hlen b))) in
  let! _ := c_push grow o (Scratch valLen) in
  c_push grow o v.

(** zeropb.go:173-315 *)
Definition c_set (grow : Z -> Z -> Z) (T : ptype) (n o : nat) (f : Z) (v : pval) : prog unit :=
  let! (typ, valLen, val) := Stop (set_args T v) in
  c_setSingle grow n o f typ valLen (Scratch val).
(** zeropb.go:295-315, test.zeropb.go:192-195 *)
Definition c_set_view (grow : Z -> Z -> Z) (n o : nat) (f : Z) (s : option slice) : prog unit :=
  let! valLen := Stop (put_uvarint MaxVarintLen64 (u64 (hlen s))) in
  c_setSingle grow n o f WireBytes valLen (View s).
(** zeropb.go:319-324 *)
Definition c_append_bytes (grow : Z -> Z -> Z) (n o : nat) (f : Z) (v : src) : prog unit :=
  let! valLen := Stop (put_uvarint MaxVarintLen64 (u64 (src_len v))) in
  c_appendSingle grow n o f WireBytes valLen v.

(** zeropb.go:17-169: the getters. *)
Definition c_with_offset {A} (n o : nat) (f : Z) (dflt : A) (k : Z -> prog A) : prog A :=
  let! (offset, ok) := c_offsets_get n o f in
  if (ok : bool) then k offset else ret dflt.
Definition c_varint_at (n o : nat) (f : Z) (dflt : pval) (k : Z -> pval) : prog hval :=
  c_with_offset n o f (HVal dflt) (fun offset =>
    let! buf := load_slice (Buf o) in
    let! b := Stop (h_from buf offset) in
    let! (x, _) := c_uvarint b in ret (HVal (k x))).
Definition c_zigzag_at (n o : nat) (f : Z) (k : Z -> pval) : prog hval :=
  c_with_offset n o f (HVal (VNum 0)) (fun offset =>
    let! buf := load_slice (Buf o) in
    let! b := Stop (h_from buf offset) in
    let! (x, _) := c_varint b in ret (HVal (k x))).
Definition c_fixed_at (n o : nat) (f w : Z) (k : list Z -> res Z) : prog hval :=
  c_with_offset n o f (HVal (VNum 0)) (fun offset =>
    let! buf := load_slice (Buf o) in
    let! b := Stop (h_range buf offset (u64 (offset + w))) in
    let! bs := c_bytes b (hlen b) in
    let! x := Stop (k bs) in ret (HVal (VNum x))).
Definition c_slice_at (n o : nat) (f : Z) : prog (option (option slice)) :=
  c_with_offset n o f None (fun offset =>
    let! buf := load_slice (Buf o) in
    let! b := Stop (h_from buf offset) in
    let! (len, lenSize) := c_uvarint b in
    let offset := u64 (offset + u64 lenSize) in
    let! d := Stop (h_range buf offset (u64 (offset + len))) in
    ret (Some d)).
Definition c_get (T : ptype) (n o : nat) (f : Z) : prog hval :=
  match T with
  | PBool => c_varint_at n o f (VBool false) (fun x => VBool (0 <? x))
  | PInt32 => c_varint_at n o f (VNum 0) (fun x => VNum (i32 x))
  | PInt64 => c_varint_at n o f (VNum 0) (fun x => VNum (i64 x))
  | PUint32 => c_varint_at n o f (VNum 0) (fun x => VNum (u32 x))
  | PUint64 => c_varint_at n o f (VNum 0) (fun x => VNum x)
  | PSint32 => c_zigzag_at n o f (fun x => VNum (i32 x))
  | PSint64 => c_zigzag_at n o f (fun x => VNum x)
  | PFixed32 | PFloat => c_fixed_at n o f 4 le_uint32
  | PSfixed32 => c_fixed_at n o f 4 (fun b => let* x := le_uint32 b in Ok (i32 x))
  | PFixed64 | PDouble => c_fixed_at n o f 8 le_uint64
  | PSfixed64 => c_fixed_at n o f 8 (fun b => let* x := le_uint64 b in Ok (i64 x))
  | PString => let! s := c_slice_at n o f in ret (HStr (default None s))
  | PBytes => let! s := c_slice_at n o f in ret (HBy (default None s))
  end.

(** zeropb.go:493-511 *)
Definition c_fieldDataSize (typ : Z) (b : option slice) : prog Z :=
  if typ =? WireVarint then let! (_, size) := c_uvarint b in ret size
  else if typ =? WireFixed32 then ret 4
  else if typ =? WireFixed64 then ret 8
  else if typ =? WireBytes then
    let! (len, lenSize) := c_uvarint b in
    if lenSize =? 0 then ret 0 else ret (i64 (lenSize + i64 len))
  else Stop Panic.

(** zeropb.go:423-466 *)
Fixpoint c_decode_loop (fuel : nat) (n o : nat) (buf : option slice) (reps : list Z) (idx : Z) : prog (option error) :=
  match fuel with
  | O => Stop OutOfFuel
  | S fuel =>
    if idx =? hlen buf then ret None
    else if hlen buf <? idx then ret (Some ErrUnexpectedEOF)
    else
      let! b := Stop (h_from buf idx) in
      let! (tag, size) := c_uvarint b in
      if size =? 0 then ret (Some ErrUnexpectedEOF)
      else
        let idx := i64 (idx + size) in
        if hlen buf <=? idx then ret (Some ErrUnexpectedEOF)
        else
          let fieldID := i64 (Z.shiftr tag 3) in
          let typ := Z.land tag 7 in
          let! _ :=
            (if is_repeated reps fieldID then
               let! (_, ok) := c_offsets_get n o fieldID in
               if (ok : bool) then ret tt else c_offsets_set n o fieldID (u64 idx)
             else c_offsets_set n o fieldID (u64 idx)) in
          let! b := Stop (h_from buf idx) in
          let! s := c_fieldDataSize typ b in
          if s =? 0 then ret (Some ErrUnexpectedEOF)
          else c_decode_loop fuel n o buf reps (i64 (idx + s))
  end.
Definition loops (more : nat) (s : option slice) : nat := (more + S (S (Z.to_nat (hlen s))))%nat.
(** test.zeropb.go:39-42, zeropb.go:421-422 *)
Definition c_decode (more n o : nat) (reps : list Z) (s : option slice) : prog (option error) :=
  let! _ := store (Buf o) (Hdr s) in
  let! _ := c_clear n o in
  c_decode_loop (loops more s) n o s reps 0.

(** test.zeropb.go:44-50 *)
Definition c_reset (n o : nat) (s : option slice) : prog unit :=
  if 0 <? hlen s then Stop Panic
  else let! _ := store (Buf o) (Hdr s) in c_clear n o.

(** zeropb.go:411-417 *)
Definition c_iter (n o : nat) (f : Z) : prog (option slice) :=
  c_with_offset n o f None (fun offset => let! buf := load_slice (Buf o) in Stop (h_from buf offset)).

(** zeropb.go:480-489 *)
Fixpoint c_find_loop (fuel : nat) (buf : option slice) (field idx : Z) : prog (option Z) :=
  match fuel with
  | O => Stop OutOfFuel
  | S fuel =>
    if idx <? hlen buf then
      let! b := Stop (h_from buf idx) in
      let! (tag, size) := c_uvarint b in
      let idx := i64 (idx + size) in
      let f := i64 (Z.shiftr tag 3) in
      let typ := Z.land tag 7 in
      if f =? field then let! _ := Stop (h_from buf idx) in ret (Some idx)
      else
        let! b := Stop (h_from buf idx) in
        let! s := c_fieldDataSize typ b in
        c_find_loop fuel buf field (i64 (idx + s))
    else ret None
  end.
(** zeropb.go:472-491 *)
Definition c_find (more : nat) (it : option slice) (field : Z) : prog (option slice * option slice) :=
  match it with
  | None => ret (None, None)
  | Some _ =>
    let! (msgLen, lenSize) := c_uvarint it in
    let idx := i64 (lenSize + i64 msgLen) in
    let! msg := Stop (h_range it lenSize idx) in
    let! pos := c_find_loop (loops more it) it field idx in
    match pos with
    | None => ret (None, msg)
    | Some i => let! rest := Stop (h_from it i) in ret (rest, msg)
    end
  end.

(** ** Clients: the actions of SpecShare.v (see Share.v)

    [objs]: the structs of this goroutine, by type and number; [held]: the slices and
    strings in its variables. *)
Definition copy_struct (n o o2 : nat) : prog unit :=
  let! b := load_slice (Buf o) in
  let! _ := store (Buf o2) (Hdr b) in
  let! r := load_ref (Ref o) in
  let! _ := store (Ref o2) (Ptr r) in
  (fix go (k i : nat) : prog unit :=
     match k with
     | O => ret tt
     | S k => let! x := load_num (Off o i) in let! _ := store (Off o2 i) (Num x) in go k (S i)
     end) n 0%nat.

Record regs := mkRegs { objs : list (mtype * nat); held : list (option slice) }.
Definition hold (R : regs) (s : option slice) : regs := mkRegs (objs R) (held R ++ [s]).

Definition c_act (more : nat) (grow : Z -> Z -> Z) (R : regs) (a : act) : prog (seen * regs) :=
  match a with
  | ANew n reps =>
    let! o := new KStruct n in ret (SawNothing, mkRegs (objs R ++ [(mkMtype n reps, o)]) (held R))
  | ACopy i =>
    let! (mt, o) := Stop (of_opt (objs R !! i)) in
    let! o2 := new KStruct (alen mt) in
    let! _ := copy_struct (alen mt) o o2 in
    ret (SawNothing, mkRegs (objs R ++ [(mt, o2)]) (held R))
  | AMake bs spare =>
    let! a := new KArray (length bs + spare) in
    let! _ := c_write a 0 bs in
    let s := Some (mkSl a 0 (zlen bs) (zlen bs + Z.of_nat spare)) in
    ret (SawSlice s, hold R s)
  | AWrite k j b =>
    let! s := Stop (of_opt (held R !! k)) in
    match s with
    | None => Stop Panic
    | Some s => if (0 <=? j) && (j <? slen s)
                then let! _ := store (Byte (sarr s) (soff s + j)) (Num b) in ret (SawNothing, R) else Stop Panic
    end
  | AExtend k x =>
    let! s := Stop (of_opt (held R !! k)) in
    let! s := c_append grow s (Scratch x) in ret (SawSlice s, hold R s)
  | ACut k lo hi =>
    let! s := Stop (of_opt (held R !! k)) in
    let! s := Stop (h_range s lo hi) in ret (SawSlice s, hold R s)
  | ALook k =>
    let! s := Stop (of_opt (held R !! k)) in
    let! bs := c_bytes s (hlen s) in ret (SawBytes bs, R)
  | ASet i f T v =>
    let! (mt, o) := Stop (of_opt (objs R !! i)) in
    let! _ := c_set grow T (alen mt) o f v in ret (SawNothing, R)
  | ASetSlice i f k =>
    let! (mt, o) := Stop (of_opt (objs R !! i)) in
    let! s := Stop (of_opt (held R !! k)) in
    let! _ := c_set_view grow (alen mt) o f s in ret (SawNothing, R)
  | AAppend i f k =>
    let! (mt, o) := Stop (of_opt (objs R !! i)) in
    let! s := Stop (of_opt (held R !! k)) in
    let! _ := c_append_bytes grow (alen mt) o f (View s) in ret (SawNothing, R)
  | AGet i f T =>
    let! (mt, o) := Stop (of_opt (objs R !! i)) in
    let! v := c_get T (alen mt) o f in
    match v with
    | HVal v => ret (SawValue v, R)
    | HStr s => let s := option_map (fun s => mkSl (sarr s) (soff s) (slen s) (slen s)) s in ret (SawSlice s, hold R s)
    | HBy s => ret (SawSlice s, hold R s)
    end
  | AEncode i =>
    let! (mt, o) := Stop (of_opt (objs R !! i)) in
    let! b := load_slice (Buf o) in ret (SawSlice b, hold R b)
  | ADecode i k =>
    let! (mt, o) := Stop (of_opt (objs R !! i)) in
    let! s := Stop (of_opt (held R !! k)) in
    let! err := c_decode more (alen mt) o (reps mt) s in
    ret (SawError (match err with Some _ => true | None => false end), R)
  | AReset i k =>
    let! (mt, o) := Stop (of_opt (objs R !! i)) in
    let! s := Stop (of_opt (held R !! k)) in
    let! _ := c_reset (alen mt) o s in ret (SawNothing, R)
  | AIter i f =>
    let! (mt, o) := Stop (of_opt (objs R !! i)) in
    let! s := c_iter (alen mt) o f in ret (SawSlice s, hold R s)
  | ANext k f =>
    let! s := Stop (of_opt (held R !! k)) in
    let! (rest, msg) := c_find more s f in
    ret (SawSlice msg, mkRegs (objs R) (<[k := rest]> (held R) ++ [msg]))
  end.

(** A client: what it sees, recovering from every panic ([None]), and its variables in
    the end. *)
Fixpoint c_client (more : nat) (grow : Z -> Z -> Z) (R : regs) (acts : list act) : prog (list (option seen) * regs) :=
  match acts with
  | [] => ret ([], R)
  | a :: acts =>
    catch (c_act more grow R a) (fun r =>
      match r with
      | Ok (o, R) => let! (l, R) := c_client more grow R acts in ret (Some o :: l, R)
      | Panic => let! (l, R) := c_client more grow R acts in ret (None :: l, R)
      | PastLen => Stop PastLen
      | OutOfFuel => Stop OutOfFuel
      end)
  end.
