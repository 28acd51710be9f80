(** Generated by tools/mkgolden.py from /repo/golden; do not edit.
    The requests of the golden tests (golden/test.parsed, golden/raft.parsed)
    and the expected outputs (golden/testzeropb/test.zeropb.go,
    golden/raftzeropb/raft.zeropb.go). *)
From Verif Require Import Gen.

Definition test_request : request := mkReq ["test.proto"] [
  Some (mkFile (Some "test.proto") (Some "testzeropb") [
    Some (mkDesc (Some "TestMessage") [
      Some (mkField (Some "bool") (Some 1) (Some LABEL_OPTIONAL) (Some TYPE_BOOL) None);
      Some (mkField (Some "int32") (Some 2) (Some LABEL_OPTIONAL) (Some TYPE_INT32) None);
      Some (mkField (Some "int64") (Some 3) (Some LABEL_OPTIONAL) (Some TYPE_INT64) None);
      Some (mkField (Some "uint32") (Some 4) (Some LABEL_OPTIONAL) (Some TYPE_UINT32) None);
      Some (mkField (Some "uint64") (Some 5) (Some LABEL_OPTIONAL) (Some TYPE_UINT64) None);
      Some (mkField (Some "sint32") (Some 6) (Some LABEL_OPTIONAL) (Some TYPE_SINT32) None);
      Some (mkField (Some "sint64") (Some 7) (Some LABEL_OPTIONAL) (Some TYPE_SINT64) None);
      Some (mkField (Some "fixed32") (Some 8) (Some LABEL_OPTIONAL) (Some TYPE_FIXED32) None);
      Some (mkField (Some "fixed64") (Some 9) (Some LABEL_OPTIONAL) (Some TYPE_FIXED64) None);
      Some (mkField (Some "sfixed32") (Some 10) (Some LABEL_OPTIONAL) (Some TYPE_SFIXED32) None);
      Some (mkField (Some "sfixed64") (Some 11) (Some LABEL_OPTIONAL) (Some TYPE_SFIXED64) None);
      Some (mkField (Some "double") (Some 12) (Some LABEL_OPTIONAL) (Some TYPE_DOUBLE) None);
      Some (mkField (Some "float") (Some 13) (Some LABEL_OPTIONAL) (Some TYPE_FLOAT) None);
      Some (mkField (Some "string") (Some 14) (Some LABEL_OPTIONAL) (Some TYPE_STRING) None);
      Some (mkField (Some "byte_array") (Some 15) (Some LABEL_OPTIONAL) (Some TYPE_BYTES) None);
      Some (mkField (Some "enum") (Some 16) (Some LABEL_OPTIONAL) (Some TYPE_ENUM) (Some ".testzeropb.TestEnum"));
      Some (mkField (Some "message") (Some 17) (Some LABEL_OPTIONAL) (Some TYPE_MESSAGE) (Some ".testzeropb.TestMessage"));
      Some (mkField (Some "bools") (Some 18) (Some LABEL_REPEATED) (Some TYPE_BOOL) None);
      Some (mkField (Some "int32s") (Some 19) (Some LABEL_REPEATED) (Some TYPE_INT32) None);
      Some (mkField (Some "int64s") (Some 20) (Some LABEL_REPEATED) (Some TYPE_INT64) None);
      Some (mkField (Some "uint32s") (Some 21) (Some LABEL_REPEATED) (Some TYPE_UINT32) None);
      Some (mkField (Some "uint64s") (Some 22) (Some LABEL_REPEATED) (Some TYPE_UINT64) None);
      Some (mkField (Some "sint32s") (Some 23) (Some LABEL_REPEATED) (Some TYPE_SINT32) None);
      Some (mkField (Some "sint64s") (Some 24) (Some LABEL_REPEATED) (Some TYPE_SINT64) None);
      Some (mkField (Some "fixed32s") (Some 25) (Some LABEL_REPEATED) (Some TYPE_FIXED32) None);
      Some (mkField (Some "fixed64s") (Some 26) (Some LABEL_REPEATED) (Some TYPE_FIXED64) None);
      Some (mkField (Some "sfixed32s") (Some 27) (Some LABEL_REPEATED) (Some TYPE_SFIXED32) None);
      Some (mkField (Some "sfixed64s") (Some 28) (Some LABEL_REPEATED) (Some TYPE_SFIXED64) None);
      Some (mkField (Some "doubles") (Some 29) (Some LABEL_REPEATED) (Some TYPE_DOUBLE) None);
      Some (mkField (Some "floats") (Some 30) (Some LABEL_REPEATED) (Some TYPE_FLOAT) None);
      Some (mkField (Some "strings") (Some 31) (Some LABEL_REPEATED) (Some TYPE_STRING) None);
      Some (mkField (Some "byte_arrays") (Some 32) (Some LABEL_REPEATED) (Some TYPE_BYTES) None);
      Some (mkField (Some "enums") (Some 33) (Some LABEL_REPEATED) (Some TYPE_ENUM) (Some ".testzeropb.TestEnum"));
      Some (mkField (Some "messages") (Some 34) (Some LABEL_REPEATED) (Some TYPE_MESSAGE) (Some ".testzeropb.TestMessage"))])])].
Definition test_output : string :=
"// Code generated by protoc-gen-zeropb. DO NOT EDIT.

package testzeropb

import ""github.com/danhhz/zeropb""

type TestMessage struct {
  buf []byte
  offsets struct {
    a [35]uint16
    m map[int]uint64
  }
}

var repeatedFields_TestMessage = zeropb.RepeatedFields{
  18: struct{}{},
  19: struct{}{},
  20: struct{}{},
  21: struct{}{},
  22: struct{}{},
  23: struct{}{},
  24: struct{}{},
  25: struct{}{},
  26: struct{}{},
  27: struct{}{},
  28: struct{}{},
  29: struct{}{},
  30: struct{}{},
  31: struct{}{},
  32: struct{}{},
  33: struct{}{},
  34: struct{}{},
}

func (m *TestMessage) Encode() []byte {
  return m.buf
}

func (m *TestMessage) Decode(buf []byte) error {
  m.buf = buf
  return zeropb.Decode(m.buf, zeropb.WrapOffsets(m.offsets.a[:], &m.offsets.m), repeatedFields_TestMessage)
}

func (m *TestMessage) Reset(buf []byte) {
  if len(buf) > 0 {
    panic(`buf must be empty`)
  }
  m.buf = buf
  zeropb.WrapOffsets(m.offsets.a[:], &m.offsets.m).Clear()
}

func (m *TestMessage) Bool() bool {
  return zeropb.GetBool(m.buf, zeropb.WrapOffsets(m.offsets.a[:], &m.offsets.m), 1)
}

func (m *TestMessage) SetBool(x bool) {
  zeropb.SetBool(&m.buf, zeropb.WrapOffsets(m.offsets.a[:], &m.offsets.m), 1, x)
}

func (m *TestMessage) Int32() int32 {
  return zeropb.GetInt32(m.buf, zeropb.WrapOffsets(m.offsets.a[:], &m.offsets.m), 2)
}

func (m *TestMessage) SetInt32(x int32) {
  zeropb.SetInt32(&m.buf, zeropb.WrapOffsets(m.offsets.a[:], &m.offsets.m), 2, x)
}

func (m *TestMessage) Int64() int64 {
  return zeropb.GetInt64(m.buf, zeropb.WrapOffsets(m.offsets.a[:], &m.offsets.m), 3)
}

func (m *TestMessage) SetInt64(x int64) {
  zeropb.SetInt64(&m.buf, zeropb.WrapOffsets(m.offsets.a[:], &m.offsets.m), 3, x)
}

func (m *TestMessage) Uint32() uint32 {
  return zeropb.GetUint32(m.buf, zeropb.WrapOffsets(m.offsets.a[:], &m.offsets.m), 4)
}

func (m *TestMessage) SetUint32(x uint32) {
  zeropb.SetUint32(&m.buf, zeropb.WrapOffsets(m.offsets.a[:], &m.offsets.m), 4, x)
}

func (m *TestMessage) Uint64() uint64 {
  return zeropb.GetUint64(m.buf, zeropb.WrapOffsets(m.offsets.a[:], &m.offsets.m), 5)
}

func (m *TestMessage) SetUint64(x uint64) {
  zeropb.SetUint64(&m.buf, zeropb.WrapOffsets(m.offsets.a[:], &m.offsets.m), 5, x)
}

func (m *TestMessage) Sint32() int32 {
  return zeropb.GetZigZagInt32(m.buf, zeropb.WrapOffsets(m.offsets.a[:], &m.offsets.m), 6)
}

func (m *TestMessage) SetSint32(x int32) {
  zeropb.SetZigZagInt32(&m.buf, zeropb.WrapOffsets(m.offsets.a[:], &m.offsets.m), 6, x)
}

func (m *TestMessage) Sint64() int64 {
  return zeropb.GetZigZagInt64(m.buf, zeropb.WrapOffsets(m.offsets.a[:], &m.offsets.m), 7)
}

func (m *TestMessage) SetSint64(x int64) {
  zeropb.SetZigZagInt64(&m.buf, zeropb.WrapOffsets(m.offsets.a[:], &m.offsets.m), 7, x)
}

func (m *TestMessage) Fixed32() uint32 {
  return zeropb.GetFixedUint32(m.buf, zeropb.WrapOffsets(m.offsets.a[:], &m.offsets.m), 8)
}

func (m *TestMessage) SetFixed32(x uint32) {
  zeropb.SetFixedUint32(&m.buf, zeropb.WrapOffsets(m.offsets.a[:], &m.offsets.m), 8, x)
}

func (m *TestMessage) Fixed64() uint64 {
  return zeropb.GetFixedUint64(m.buf, zeropb.WrapOffsets(m.offsets.a[:], &m.offsets.m), 9)
}

func (m *TestMessage) SetFixed64(x uint64) {
  zeropb.SetFixedUint64(&m.buf, zeropb.WrapOffsets(m.offsets.a[:], &m.offsets.m), 9, x)
}

func (m *TestMessage) Sfixed32() int32 {
  return zeropb.GetFixedInt32(m.buf, zeropb.WrapOffsets(m.offsets.a[:], &m.offsets.m), 10)
}

func (m *TestMessage) SetSfixed32(x int32) {
  zeropb.SetFixedInt32(&m.buf, zeropb.WrapOffsets(m.offsets.a[:], &m.offsets.m), 10, x)
}

func (m *TestMessage) Sfixed64() int64 {
  return zeropb.GetFixedInt64(m.buf, zeropb.WrapOffsets(m.offsets.a[:], &m.offsets.m), 11)
}

func (m *TestMessage) SetSfixed64(x int64) {
  zeropb.SetFixedInt64(&m.buf, zeropb.WrapOffsets(m.offsets.a[:], &m.offsets.m), 11, x)
}

func (m *TestMessage) Double() float64 {
  return zeropb.GetFloat64(m.buf, zeropb.WrapOffsets(m.offsets.a[:], &m.offsets.m), 12)
}

func (m *TestMessage) SetDouble(x float64) {
  zeropb.SetFloat64(&m.buf, zeropb.WrapOffsets(m.offsets.a[:], &m.offsets.m), 12, x)
}

func (m *TestMessage) Float() float32 {
  return zeropb.GetFloat32(m.buf, zeropb.WrapOffsets(m.offsets.a[:], &m.offsets.m), 13)
}

func (m *TestMessage) SetFloat(x float32) {
  zeropb.SetFloat32(&m.buf, zeropb.WrapOffsets(m.offsets.a[:], &m.offsets.m), 13, x)
}

func (m *TestMessage) String() string {
  return zeropb.GetString(m.buf, zeropb.WrapOffsets(m.offsets.a[:], &m.offsets.m), 14)
}

func (m *TestMessage) SetString(x string) {
  zeropb.SetString(&m.buf, zeropb.WrapOffsets(m.offsets.a[:], &m.offsets.m), 14, x)
}

func (m *TestMessage) ByteArray() []byte {
  return zeropb.GetBytes(m.buf, zeropb.WrapOffsets(m.offsets.a[:], &m.offsets.m), 15)
}

func (m *TestMessage) SetByteArray(x []byte) {
  zeropb.SetBytes(&m.buf, zeropb.WrapOffsets(m.offsets.a[:], &m.offsets.m), 15, x)
}

func (m *TestMessage) Enum() uint32 {
  return zeropb.GetUint32(m.buf, zeropb.WrapOffsets(m.offsets.a[:], &m.offsets.m), 16)
}

func (m *TestMessage) SetEnum(x uint32) {
  zeropb.SetUint32(&m.buf, zeropb.WrapOffsets(m.offsets.a[:], &m.offsets.m), 16, x)
}

func (m *TestMessage) Message(x *TestMessage) (bool, error) {
  buf := zeropb.GetBytes(m.buf, zeropb.WrapOffsets(m.offsets.a[:], &m.offsets.m), 17)
  if buf == nil {
    return false, nil
  }
  return true, x.Decode(buf)
}

func (m *TestMessage) SetMessage(x TestMessage) {
  buf := x.Encode()
  zeropb.SetBytes(&m.buf, zeropb.WrapOffsets(m.offsets.a[:], &m.offsets.m), 17, buf)
}

type TestMessageTestMessageIterator []byte

func (i *TestMessageTestMessageIterator) Next(m *TestMessage) (bool, error) {
  var buf []byte
  *i, buf = zeropb.FindNextField((*i), 34)
  if buf == nil {
    return false, nil
  }
  return true, m.Decode(buf)
}

func (m *TestMessage) Messages() TestMessageTestMessageIterator {
  return TestMessageTestMessageIterator(zeropb.GetRepeatedNonPacked(m.buf, zeropb.WrapOffsets(m.offsets.a[:], &m.offsets.m), 34))
}

func (m *TestMessage) AppendToMessages(x TestMessage) {
  buf := x.Encode()
  zeropb.AppendBytes(&m.buf, zeropb.WrapOffsets(m.offsets.a[:], &m.offsets.m), 34, buf)
}

"%string.

Definition raft_request : request := mkReq ["raft.proto"] [
  Some (mkFile (Some "raft.proto") (Some "raftzeropb") [
    Some (mkDesc (Some "Entry") [
      Some (mkField (Some "Term") (Some 2) (Some LABEL_OPTIONAL) (Some TYPE_UINT64) None);
      Some (mkField (Some "Index") (Some 3) (Some LABEL_OPTIONAL) (Some TYPE_UINT64) None);
      Some (mkField (Some "Type") (Some 1) (Some LABEL_OPTIONAL) (Some TYPE_ENUM) (Some ".raftpb.EntryType"));
      Some (mkField (Some "Data") (Some 4) (Some LABEL_OPTIONAL) (Some TYPE_BYTES) None)]);
    Some (mkDesc (Some "SnapshotMetadata") [
      Some (mkField (Some "conf_state") (Some 1) (Some LABEL_OPTIONAL) (Some TYPE_MESSAGE) (Some ".raftpb.ConfState"));
      Some (mkField (Some "index") (Some 2) (Some LABEL_OPTIONAL) (Some TYPE_UINT64) None);
      Some (mkField (Some "term") (Some 3) (Some LABEL_OPTIONAL) (Some TYPE_UINT64) None)]);
    Some (mkDesc (Some "Snapshot") [
      Some (mkField (Some "data") (Some 1) (Some LABEL_OPTIONAL) (Some TYPE_BYTES) None);
      Some (mkField (Some "metadata") (Some 2) (Some LABEL_OPTIONAL) (Some TYPE_MESSAGE) (Some ".raftpb.SnapshotMetadata"))]);
    Some (mkDesc (Some "Message") [
      Some (mkField (Some "type") (Some 1) (Some LABEL_OPTIONAL) (Some TYPE_ENUM) (Some ".raftpb.MessageType"));
      Some (mkField (Some "to") (Some 2) (Some LABEL_OPTIONAL) (Some TYPE_UINT64) None);
      Some (mkField (Some "from") (Some 3) (Some LABEL_OPTIONAL) (Some TYPE_UINT64) None);
      Some (mkField (Some "term") (Some 4) (Some LABEL_OPTIONAL) (Some TYPE_UINT64) None);
      Some (mkField (Some "logTerm") (Some 5) (Some LABEL_OPTIONAL) (Some TYPE_UINT64) None);
      Some (mkField (Some "index") (Some 6) (Some LABEL_OPTIONAL) (Some TYPE_UINT64) None);
      Some (mkField (Some "entries") (Some 7) (Some LABEL_REPEATED) (Some TYPE_MESSAGE) (Some ".raftpb.Entry"));
      Some (mkField (Some "commit") (Some 8) (Some LABEL_OPTIONAL) (Some TYPE_UINT64) None);
      Some (mkField (Some "snapshot") (Some 9) (Some LABEL_OPTIONAL) (Some TYPE_MESSAGE) (Some ".raftpb.Snapshot"));
      Some (mkField (Some "reject") (Some 10) (Some LABEL_OPTIONAL) (Some TYPE_BOOL) None);
      Some (mkField (Some "rejectHint") (Some 11) (Some LABEL_OPTIONAL) (Some TYPE_UINT64) None);
      Some (mkField (Some "context") (Some 12) (Some LABEL_OPTIONAL) (Some TYPE_BYTES) None)]);
    Some (mkDesc (Some "HardState") [
      Some (mkField (Some "term") (Some 1) (Some LABEL_OPTIONAL) (Some TYPE_UINT64) None);
      Some (mkField (Some "vote") (Some 2) (Some LABEL_OPTIONAL) (Some TYPE_UINT64) None);
      Some (mkField (Some "commit") (Some 3) (Some LABEL_OPTIONAL) (Some TYPE_UINT64) None)]);
    Some (mkDesc (Some "ConfState") [
      Some (mkField (Some "nodes") (Some 1) (Some LABEL_REPEATED) (Some TYPE_UINT64) None);
      Some (mkField (Some "learners") (Some 2) (Some LABEL_REPEATED) (Some TYPE_UINT64) None)]);
    Some (mkDesc (Some "ConfChange") [
      Some (mkField (Some "ID") (Some 1) (Some LABEL_OPTIONAL) (Some TYPE_UINT64) None);
      Some (mkField (Some "Type") (Some 2) (Some LABEL_OPTIONAL) (Some TYPE_ENUM) (Some ".raftpb.ConfChangeType"));
      Some (mkField (Some "NodeID") (Some 3) (Some LABEL_OPTIONAL) (Some TYPE_UINT64) None);
      Some (mkField (Some "Context") (Some 4) (Some LABEL_OPTIONAL) (Some TYPE_BYTES) None)])])].
Definition raft_output : string :=
"// Code generated by protoc-gen-zeropb. DO NOT EDIT.

package raftzeropb

import ""github.com/danhhz/zeropb""

type Entry struct {
  buf []byte
  offsets struct {
    a [5]uint16
    m map[int]uint64
  }
}

var repeatedFields_Entry = zeropb.RepeatedFields{
}

func (m *Entry) Encode() []byte {
  return m.buf
}

func (m *Entry) Decode(buf []byte) error {
  m.buf = buf
  return zeropb.Decode(m.buf, zeropb.WrapOffsets(m.offsets.a[:], &m.offsets.m), repeatedFields_Entry)
}

func (m *Entry) Reset(buf []byte) {
  if len(buf) > 0 {
    panic(`buf must be empty`)
  }
  m.buf = buf
  zeropb.WrapOffsets(m.offsets.a[:], &m.offsets.m).Clear()
}

func (m *Entry) Term() uint64 {
  return zeropb.GetUint64(m.buf, zeropb.WrapOffsets(m.offsets.a[:], &m.offsets.m), 2)
}

func (m *Entry) SetTerm(x uint64) {
  zeropb.SetUint64(&m.buf, zeropb.WrapOffsets(m.offsets.a[:], &m.offsets.m), 2, x)
}

func (m *Entry) Index() uint64 {
  return zeropb.GetUint64(m.buf, zeropb.WrapOffsets(m.offsets.a[:], &m.offsets.m), 3)
}

func (m *Entry) SetIndex(x uint64) {
  zeropb.SetUint64(&m.buf, zeropb.WrapOffsets(m.offsets.a[:], &m.offsets.m), 3, x)
}

func (m *Entry) Type() uint32 {
  return zeropb.GetUint32(m.buf, zeropb.WrapOffsets(m.offsets.a[:], &m.offsets.m), 1)
}

func (m *Entry) SetType(x uint32) {
  zeropb.SetUint32(&m.buf, zeropb.WrapOffsets(m.offsets.a[:], &m.offsets.m), 1, x)
}

func (m *Entry) Data() []byte {
  return zeropb.GetBytes(m.buf, zeropb.WrapOffsets(m.offsets.a[:], &m.offsets.m), 4)
}

func (m *Entry) SetData(x []byte) {
  zeropb.SetBytes(&m.buf, zeropb.WrapOffsets(m.offsets.a[:], &m.offsets.m), 4, x)
}

type SnapshotMetadata struct {
  buf []byte
  offsets struct {
    a [4]uint16
    m map[int]uint64
  }
}

var repeatedFields_SnapshotMetadata = zeropb.RepeatedFields{
}

func (m *SnapshotMetadata) Encode() []byte {
  return m.buf
}

func (m *SnapshotMetadata) Decode(buf []byte) error {
  m.buf = buf
  return zeropb.Decode(m.buf, zeropb.WrapOffsets(m.offsets.a[:], &m.offsets.m), repeatedFields_SnapshotMetadata)
}

func (m *SnapshotMetadata) Reset(buf []byte) {
  if len(buf) > 0 {
    panic(`buf must be empty`)
  }
  m.buf = buf
  zeropb.WrapOffsets(m.offsets.a[:], &m.offsets.m).Clear()
}

func (m *SnapshotMetadata) ConfState(x *ConfState) (bool, error) {
  buf := zeropb.GetBytes(m.buf, zeropb.WrapOffsets(m.offsets.a[:], &m.offsets.m), 1)
  if buf == nil {
    return false, nil
  }
  return true, x.Decode(buf)
}

func (m *SnapshotMetadata) SetConfState(x ConfState) {
  buf := x.Encode()
  zeropb.SetBytes(&m.buf, zeropb.WrapOffsets(m.offsets.a[:], &m.offsets.m), 1, buf)
}

func (m *SnapshotMetadata) Index() uint64 {
  return zeropb.GetUint64(m.buf, zeropb.WrapOffsets(m.offsets.a[:], &m.offsets.m), 2)
}

func (m *SnapshotMetadata) SetIndex(x uint64) {
  zeropb.SetUint64(&m.buf, zeropb.WrapOffsets(m.offsets.a[:], &m.offsets.m), 2, x)
}

func (m *SnapshotMetadata) Term() uint64 {
  return zeropb.GetUint64(m.buf, zeropb.WrapOffsets(m.offsets.a[:], &m.offsets.m), 3)
}

func (m *SnapshotMetadata) SetTerm(x uint64) {
  zeropb.SetUint64(&m.buf, zeropb.WrapOffsets(m.offsets.a[:], &m.offsets.m), 3, x)
}

type Snapshot struct {
  buf []byte
  offsets struct {
    a [3]uint16
    m map[int]uint64
  }
}

var repeatedFields_Snapshot = zeropb.RepeatedFields{
}

func (m *Snapshot) Encode() []byte {
  return m.buf
}

func (m *Snapshot) Decode(buf []byte) error {
  m.buf = buf
  return zeropb.Decode(m.buf, zeropb.WrapOffsets(m.offsets.a[:], &m.offsets.m), repeatedFields_Snapshot)
}

func (m *Snapshot) Reset(buf []byte) {
  if len(buf) > 0 {
    panic(`buf must be empty`)
  }
  m.buf = buf
  zeropb.WrapOffsets(m.offsets.a[:], &m.offsets.m).Clear()
}

func (m *Snapshot) Data() []byte {
  return zeropb.GetBytes(m.buf, zeropb.WrapOffsets(m.offsets.a[:], &m.offsets.m), 1)
}

func (m *Snapshot) SetData(x []byte) {
  zeropb.SetBytes(&m.buf, zeropb.WrapOffsets(m.offsets.a[:], &m.offsets.m), 1, x)
}

func (m *Snapshot) Metadata(x *SnapshotMetadata) (bool, error) {
  buf := zeropb.GetBytes(m.buf, zeropb.WrapOffsets(m.offsets.a[:], &m.offsets.m), 2)
  if buf == nil {
    return false, nil
  }
  return true, x.Decode(buf)
}

func (m *Snapshot) SetMetadata(x SnapshotMetadata) {
  buf := x.Encode()
  zeropb.SetBytes(&m.buf, zeropb.WrapOffsets(m.offsets.a[:], &m.offsets.m), 2, buf)
}

type Message struct {
  buf []byte
  offsets struct {
    a [13]uint16
    m map[int]uint64
  }
}

var repeatedFields_Message = zeropb.RepeatedFields{
  7: struct{}{},
}

func (m *Message) Encode() []byte {
  return m.buf
}

func (m *Message) Decode(buf []byte) error {
  m.buf = buf
  return zeropb.Decode(m.buf, zeropb.WrapOffsets(m.offsets.a[:], &m.offsets.m), repeatedFields_Message)
}

func (m *Message) Reset(buf []byte) {
  if len(buf) > 0 {
    panic(`buf must be empty`)
  }
  m.buf = buf
  zeropb.WrapOffsets(m.offsets.a[:], &m.offsets.m).Clear()
}

func (m *Message) Type() uint32 {
  return zeropb.GetUint32(m.buf, zeropb.WrapOffsets(m.offsets.a[:], &m.offsets.m), 1)
}

func (m *Message) SetType(x uint32) {
  zeropb.SetUint32(&m.buf, zeropb.WrapOffsets(m.offsets.a[:], &m.offsets.m), 1, x)
}

func (m *Message) To() uint64 {
  return zeropb.GetUint64(m.buf, zeropb.WrapOffsets(m.offsets.a[:], &m.offsets.m), 2)
}

func (m *Message) SetTo(x uint64) {
  zeropb.SetUint64(&m.buf, zeropb.WrapOffsets(m.offsets.a[:], &m.offsets.m), 2, x)
}

func (m *Message) From() uint64 {
  return zeropb.GetUint64(m.buf, zeropb.WrapOffsets(m.offsets.a[:], &m.offsets.m), 3)
}

func (m *Message) SetFrom(x uint64) {
  zeropb.SetUint64(&m.buf, zeropb.WrapOffsets(m.offsets.a[:], &m.offsets.m), 3, x)
}

func (m *Message) Term() uint64 {
  return zeropb.GetUint64(m.buf, zeropb.WrapOffsets(m.offsets.a[:], &m.offsets.m), 4)
}

func (m *Message) SetTerm(x uint64) {
  zeropb.SetUint64(&m.buf, zeropb.WrapOffsets(m.offsets.a[:], &m.offsets.m), 4, x)
}

func (m *Message) LogTerm() uint64 {
  return zeropb.GetUint64(m.buf, zeropb.WrapOffsets(m.offsets.a[:], &m.offsets.m), 5)
}

func (m *Message) SetLogTerm(x uint64) {
  zeropb.SetUint64(&m.buf, zeropb.WrapOffsets(m.offsets.a[:], &m.offsets.m), 5, x)
}

func (m *Message) Index() uint64 {
  return zeropb.GetUint64(m.buf, zeropb.WrapOffsets(m.offsets.a[:], &m.offsets.m), 6)
}

func (m *Message) SetIndex(x uint64) {
  zeropb.SetUint64(&m.buf, zeropb.WrapOffsets(m.offsets.a[:], &m.offsets.m), 6, x)
}

type MessageEntryIterator []byte

func (i *MessageEntryIterator) Next(m *Entry) (bool, error) {
  var buf []byte
  *i, buf = zeropb.FindNextField((*i), 7)
  if buf == nil {
    return false, nil
  }
  return true, m.Decode(buf)
}

func (m *Message) Entries() MessageEntryIterator {
  return MessageEntryIterator(zeropb.GetRepeatedNonPacked(m.buf, zeropb.WrapOffsets(m.offsets.a[:], &m.offsets.m), 7))
}

func (m *Message) AppendToEntries(x Entry) {
  buf := x.Encode()
  zeropb.AppendBytes(&m.buf, zeropb.WrapOffsets(m.offsets.a[:], &m.offsets.m), 7, buf)
}

func (m *Message) Commit() uint64 {
  return zeropb.GetUint64(m.buf, zeropb.WrapOffsets(m.offsets.a[:], &m.offsets.m), 8)
}

func (m *Message) SetCommit(x uint64) {
  zeropb.SetUint64(&m.buf, zeropb.WrapOffsets(m.offsets.a[:], &m.offsets.m), 8, x)
}

func (m *Message) Snapshot(x *Snapshot) (bool, error) {
  buf := zeropb.GetBytes(m.buf, zeropb.WrapOffsets(m.offsets.a[:], &m.offsets.m), 9)
  if buf == nil {
    return false, nil
  }
  return true, x.Decode(buf)
}

func (m *Message) SetSnapshot(x Snapshot) {
  buf := x.Encode()
  zeropb.SetBytes(&m.buf, zeropb.WrapOffsets(m.offsets.a[:], &m.offsets.m), 9, buf)
}

func (m *Message) Reject() bool {
  return zeropb.GetBool(m.buf, zeropb.WrapOffsets(m.offsets.a[:], &m.offsets.m), 10)
}

func (m *Message) SetReject(x bool) {
  zeropb.SetBool(&m.buf, zeropb.WrapOffsets(m.offsets.a[:], &m.offsets.m), 10, x)
}

func (m *Message) RejectHint() uint64 {
  return zeropb.GetUint64(m.buf, zeropb.WrapOffsets(m.offsets.a[:], &m.offsets.m), 11)
}

func (m *Message) SetRejectHint(x uint64) {
  zeropb.SetUint64(&m.buf, zeropb.WrapOffsets(m.offsets.a[:], &m.offsets.m), 11, x)
}

func (m *Message) Context() []byte {
  return zeropb.GetBytes(m.buf, zeropb.WrapOffsets(m.offsets.a[:], &m.offsets.m), 12)
}

func (m *Message) SetContext(x []byte) {
  zeropb.SetBytes(&m.buf, zeropb.WrapOffsets(m.offsets.a[:], &m.offsets.m), 12, x)
}

type HardState struct {
  buf []byte
  offsets struct {
    a [4]uint16
    m map[int]uint64
  }
}

var repeatedFields_HardState = zeropb.RepeatedFields{
}

func (m *HardState) Encode() []byte {
  return m.buf
}

func (m *HardState) Decode(buf []byte) error {
  m.buf = buf
  return zeropb.Decode(m.buf, zeropb.WrapOffsets(m.offsets.a[:], &m.offsets.m), repeatedFields_HardState)
}

func (m *HardState) Reset(buf []byte) {
  if len(buf) > 0 {
    panic(`buf must be empty`)
  }
  m.buf = buf
  zeropb.WrapOffsets(m.offsets.a[:], &m.offsets.m).Clear()
}

func (m *HardState) Term() uint64 {
  return zeropb.GetUint64(m.buf, zeropb.WrapOffsets(m.offsets.a[:], &m.offsets.m), 1)
}

func (m *HardState) SetTerm(x uint64) {
  zeropb.SetUint64(&m.buf, zeropb.WrapOffsets(m.offsets.a[:], &m.offsets.m), 1, x)
}

func (m *HardState) Vote() uint64 {
  return zeropb.GetUint64(m.buf, zeropb.WrapOffsets(m.offsets.a[:], &m.offsets.m), 2)
}

func (m *HardState) SetVote(x uint64) {
  zeropb.SetUint64(&m.buf, zeropb.WrapOffsets(m.offsets.a[:], &m.offsets.m), 2, x)
}

func (m *HardState) Commit() uint64 {
  return zeropb.GetUint64(m.buf, zeropb.WrapOffsets(m.offsets.a[:], &m.offsets.m), 3)
}

func (m *HardState) SetCommit(x uint64) {
  zeropb.SetUint64(&m.buf, zeropb.WrapOffsets(m.offsets.a[:], &m.offsets.m), 3, x)
}

type ConfState struct {
  buf []byte
  offsets struct {
    a [3]uint16
    m map[int]uint64
  }
}

var repeatedFields_ConfState = zeropb.RepeatedFields{
  1: struct{}{},
  2: struct{}{},
}

func (m *ConfState) Encode() []byte {
  return m.buf
}

func (m *ConfState) Decode(buf []byte) error {
  m.buf = buf
  return zeropb.Decode(m.buf, zeropb.WrapOffsets(m.offsets.a[:], &m.offsets.m), repeatedFields_ConfState)
}

func (m *ConfState) Reset(buf []byte) {
  if len(buf) > 0 {
    panic(`buf must be empty`)
  }
  m.buf = buf
  zeropb.WrapOffsets(m.offsets.a[:], &m.offsets.m).Clear()
}

type ConfChange struct {
  buf []byte
  offsets struct {
    a [5]uint16
    m map[int]uint64
  }
}

var repeatedFields_ConfChange = zeropb.RepeatedFields{
}

func (m *ConfChange) Encode() []byte {
  return m.buf
}

func (m *ConfChange) Decode(buf []byte) error {
  m.buf = buf
  return zeropb.Decode(m.buf, zeropb.WrapOffsets(m.offsets.a[:], &m.offsets.m), repeatedFields_ConfChange)
}

func (m *ConfChange) Reset(buf []byte) {
  if len(buf) > 0 {
    panic(`buf must be empty`)
  }
  m.buf = buf
  zeropb.WrapOffsets(m.offsets.a[:], &m.offsets.m).Clear()
}

func (m *ConfChange) ID() uint64 {
  return zeropb.GetUint64(m.buf, zeropb.WrapOffsets(m.offsets.a[:], &m.offsets.m), 1)
}

func (m *ConfChange) SetID(x uint64) {
  zeropb.SetUint64(&m.buf, zeropb.WrapOffsets(m.offsets.a[:], &m.offsets.m), 1, x)
}

func (m *ConfChange) Type() uint32 {
  return zeropb.GetUint32(m.buf, zeropb.WrapOffsets(m.offsets.a[:], &m.offsets.m), 2)
}

func (m *ConfChange) SetType(x uint32) {
  zeropb.SetUint32(&m.buf, zeropb.WrapOffsets(m.offsets.a[:], &m.offsets.m), 2, x)
}

func (m *ConfChange) NodeID() uint64 {
  return zeropb.GetUint64(m.buf, zeropb.WrapOffsets(m.offsets.a[:], &m.offsets.m), 3)
}

func (m *ConfChange) SetNodeID(x uint64) {
  zeropb.SetUint64(&m.buf, zeropb.WrapOffsets(m.offsets.a[:], &m.offsets.m), 3, x)
}

func (m *ConfChange) Context() []byte {
  return zeropb.GetBytes(m.buf, zeropb.WrapOffsets(m.offsets.a[:], &m.offsets.m), 4)
}

func (m *ConfChange) SetContext(x []byte) {
  zeropb.SetBytes(&m.buf, zeropb.WrapOffsets(m.offsets.a[:], &m.offsets.m), 4, x)
}

"%string.
