(** * Tests of the checker of GoCheck.v on hand-written packages

    GoCheck.v is a specification: theorems about generated code say that its
    [package_ok] holds or fails.  These examples, in Go source text, pin down what it
    accepts and rejects, one rule of the language at a time.  (They are tests of
    a specification, not properties of the code.) *)
From Verif Require Import GoCheck.

Definition verdict (s : string) : option bool :=
  match parse s with Some g => Some (package_ok [g]) | None => None end.
Definition verdict2 (s1 s2 : string) : option bool :=
  match parse s1, parse s2 with Some f, Some g => Some (package_ok [f; g]) | _, _ => None end.

(** The texts on which the verdict is not [b]. *)
Definition off {A} (f : A -> option bool) (b : bool) (l : list A) : list A :=
  filter (fun s => f s <> Some b) l.

(** A package whose method M has the body [b], of result type int. *)
Definition with_body (b : string) : string :=
"package p
import `github.com/danhhz/zeropb`
type U struct { q []byte }
type L []byte
type T struct { buf []byte; n int; b bool; s string; e error; a [3]uint16; m map[int]uint64; offs zeropb.Offsets; u *U; r zeropb.RepeatedFields; i32 int32 }
var set = zeropb.RepeatedFields{ 1: struct{}{}, 7: struct{}{} }
func (u *U) Two(x int, y []byte) ([]byte, int) { return y, x }
func (u *U) None() { }
func (t *T) M(x []byte, k int) int {
" +:+ b +:+ "
}
".
Definition body (b : string) : option bool := verdict (with_body b).

(** Accepted bodies. *)
Example good_bodies : off (fun b => body b) true [
  "return 1"; "return k"; "return t.n"; "return len(x)"; "return len(t.buf)"; "t.n = 2147483647; return 0";
  "var y int; return y"; "var y int; y = 1; return y"; "y := t.n; return y"; "y := x; y = x[:]; return len(y)";
  "x = nil; t.buf = nil; t.u = nil; t.m = nil; t.e = nil; t.r = nil; return k";
  "t.b = true; t.b = false; t.s = `a`; return k";
  "if t == nil { return 1 }; return 0"; "if t.n > 0 { t.n = 0 }; return 0"; "if t.b { }; return 0";
  "if true { var y int; t.n = y }; var y int; return y";
  "var y []byte; var n int; y, n = t.u.Two(k, x); t.buf = y; return n"; "t.u.None(); return 0"; "t.offs.Clear(); return 0";
  "x, t.buf = zeropb.FindNextField(x, 1); return 0"; "x, x = zeropb.FindNextField(x, 1); return 0";
  "t.i32 = zeropb.GetInt32(t.buf, t.offs, 1); zeropb.SetInt32(&t.buf, t.offs, 1, t.i32); return 0";
  "t.e = zeropb.Decode(x, t.offs, set); return 0"; "t.e = zeropb.Decode(x, t.offs, t.r); return 0"; "t.e = zeropb.Decode(x, t.offs, nil); return 0";
  "t.offs = zeropb.WrapOffsets(t.a[:], &t.m); return 0"; "t.r = set; return 0";
  "panic(t.e); return 0"; "panic(`no`); return 0"; "y := L(x); x = y; return 0"; "y := &t.n; return *y"; "*t = *t; return 0";
  "*t.u = *t.u; t.u.q = x; return 0"; "var u U; u.None(); u.q = x; return 0"; "var len int; return len"; "return (k)" ] = [].
Proof. vm_cast_no_check (eq_refl (@nil string)). Qed.

(** Rejected bodies. *)
Example unused_variables : off (fun b => body b) false [
  "var y int; return 1"; "y := 1; return 1"; "y := k; return 1"; "var y int; y = 1; return 1"; "var y int; y = k; return 1";
  "y := x; y = x; return 1"; "y := x; if t.b { y = nil }; return 0"; "var y int; t.n = t.n; return t.n";
  "if true { var y int }; return 0"; "y := k; z := k; y = z; return z" ] = [].
Proof. vm_cast_no_check (eq_refl (@nil string)). Qed.

Example scopes : off (fun b => body b) false [
  "var y int; var y int; return y"; "x := k; return x"; "var t int; return t"; "if true { var y int; t.n = y }; return y";
  "return y"; "y = 1; return 1"; "return foo(k)"; "return foo.Bar(k)"; "return fmt.GetInt32(t.buf, t.offs, 1)"; "return T"; "return zeropb";
  "var zeropb int; zeropb = 1; t.i32 = zeropb.GetInt32(t.buf, t.offs, 1); return zeropb"; "var len int; return len(x)"; "var y Foo; return len(y)";
  "var y zeropb.Foo; return len(y)"; "var y foo.Offsets; y.Clear(); return 0"; "var y set; return len(y)"; "set(x); return 0" ] = [].
Proof. vm_cast_no_check (eq_refl (@nil string)). Qed.

Example wrong_types : off (fun b => body b) false [
  "return t.b"; "return nil"; "return true"; "return `a`"; "return x"; "return t.i32"; "return t"; "return *t"; "return 2147483648";
  "t.n = nil; return 0"; "t.b = nil; return 0"; "t.a = nil; return 0"; "t.s = nil; return 0"; "t.offs = nil; return 0"; "*t = nil; return 0"; "*t.u = nil; return 0";
  "t.n = true; return 0"; "t.b = 1; return 0"; "t.s = 1; return 0"; "t.n = `a`; return 0"; "t.b = `a`; return 0"; "t.s = true; return 0"; "x = 1; return 0"; "t.i32 = true; return 0";
  "t.e = x; return 0"; "x = t.a; return 0"; "t.u = t; return 0"; "t.u = *t.u; return 0"; "t.m = t.r; return 0"; "t.offs = t.r; return 0"; "t.i32 = t.n; return 0"; "t.s = x; return 0";
  "t.n = 2147483648; return 0"; "t.n = 4294967296; return 0"; "var y L; var z L; y = z; t.n = y; return 0" ] = [].
Proof. vm_cast_no_check (eq_refl (@nil string)). Qed.

Example not_variables : off (fun b => body b) false [ "x[:] = nil; return 0"; "t.a[:] = nil; return 0"; "t.buf[:] = x; return 0"; "y := &x[:]; x = *y; return 0"; "y := &t.a[:]; t.a = *y; return 0" ] = [].
Proof. vm_cast_no_check (eq_refl (@nil string)). Qed.

(** A number at the end of the text. *)
Example lex_end : lex L0 false "0" = Some [TNum 0; Semi] /\ lex L0 false "7" = Some [TNum 7; Semi] /\ lex L0 false "a" = Some [word "a"; Semi].
Proof. vm_compute. auto. Qed.

Example returns : off (fun b => body b) false [
  ""; "t.n = 1"; "return"; "return 1, 1"; "return t.u.Two(k, x)"; "return t.u.None()"; "if t.b { return 1 }"; "return 1; t.n = 1"; "return 1; return t.b; return 1" ] = [].
Proof. vm_cast_no_check (eq_refl (@nil string)). Qed.

Example calls : off (fun b => body b) false [
  "x, k = t.u.Two(k); return 0"; "x, k = t.u.Two(); return 0"; "x, k = t.u.Two(k, x, x); return 0"; "x, k = t.u.Two(x, k); return 0"; "x, k = t.u.Two(k, nil, nil); return 0";
  "k, x = t.u.Two(k, x); return 0"; "x = t.u.Two(k, x); return 0"; "x, k, k = t.u.Two(k, x); return 0"; "x, k = x; return 0"; "t.n = t.u.None(); return 0"; "t.u.None(k); return 0";
  "t.u.Three(); return 0"; "t.n.None(); return 0"; "t.buf.None(); return 0"; "t.offs.Set(1, 2); return 0"; "t.offs.Clear(1); return 0"; "t.r.Clear(); return 0"; "t.n = t.offs.Clear(); return 0";
  "zeropb.Foo(x); return 0"; "zeropb.SetInt32(t.buf, t.offs, 1, t.i32); return 0"; "zeropb.SetInt32(&t.buf, t.offs, 1, t.n); return 0"; "zeropb.SetInt32(&t.buf, t.offs, t.i32, t.i32); return 0";
  "t.e = zeropb.Decode(x, t.offs, t.m); return 0"; "t.offs = zeropb.WrapOffsets(t.a, &t.m); return 0"; "t.offs = zeropb.WrapOffsets(t.a[:], t.m); return 0";
  "t.n = zeropb.GetInt32(t.buf, t.offs, 1); return 0"; "x = zeropb.FindNextField(x, 1); return 0"; "t.n(); return 0"; "t.M(x); return 0"; "1(); return 0"; "len(x)(); return 0" ] = [].
Proof. vm_cast_no_check (eq_refl (@nil string)). Qed.

Example statements : off (fun b => body b) false [
  "t.n; return 0"; "x; return 0"; "1; return 0"; "len(x); return 0"; "L(x); return 0"; "*t; return 0"; "nil; return 0"; "t == nil; return 0"; "panic(); return 0"; "panic(nil); return 0"; "panic(t.u.None()); return 0";
  "len(x) = 1; return 0"; "1 = k; return 0"; "nil = x; return 0"; "true = t.b; return 0"; "t.M(x, k) = 1; return 0"; "set = nil; T = x; return 0"; "t.n := 1; return 0"; "x, y := t.u.Two(k, x); return 0"; "y := t.u.Two(k, x); return 0";
  "y := nil; x = y; return 0"; "t.n, t.n = 1; return 0"; "if t.n { }; return 0"; "if 1 { }; return 0"; "if nil { }; return 0"; "if x { }; return 0"; "if t.b { return x }; return 0"; "if t.b { t.n = x }; return 0"; "if foo { }; return 0" ] = [].
Proof. vm_cast_no_check (eq_refl (@nil string)). Qed.

Example operators : off (fun b => body b) false [
  "if t.n == nil { }; return 0"; "if t.b == nil { }; return 0"; "if t.a == nil { }; return 0"; "if *t == nil { }; return 0"; "if nil == nil { }; return 0"; "if t.offs == nil { }; return 0";
  "if t.b > 1 { }; return 0"; "if x > 1 { }; return 0"; "if t.n > nil { }; return 0"; "if t.n > 2147483648 { }; return 0"; "t.n = t.n > 1; return 0";
  "return *k"; "return *x"; "return **t"; "x = &t.buf; return 0"; "y := &len(x); return *y"; "y := &1; return *y"; "y := &nil; return *y"; "t.n = k[:]; return 0"; "t.n = t.m[:]; return 0"; "return t.zz"; "return x.n"; "return k.n"; "return nil.n"; "return t.u.n"; "return len(k)"; "return len(t.m)"; "return len(t)"; "return len(nil)"; "return len(x, x)"; "return len()";
  "y := L(k); return len(y)"; "y := L(t.a); return len(y)"; "y := U(x); t.u = &y; return 0"; "y := zeropb.L(x); return len(y)" ] = [].
Proof. vm_cast_no_check (eq_refl (@nil string)). Qed.

(** Declarations. *)
Definition decls (b : string) : option bool := verdict ("package p; import `github.com/danhhz/zeropb`; type O struct { o zeropb.Offsets }; " +:+ b).
Definition plain (b : string) : option bool := verdict ("package p; " +:+ b).

Example good_decls : off (fun b => decls b) true [
  ""; "type A struct { }"; "type A struct { x int; y *A }"; "type A []A"; "type A map[int]*O"; "type A [0]int"; "type A [5]struct { x int }"; "type int struct { }"; "type nil struct { }";
  "var s = zeropb.RepeatedFields{ }"; "var s = map[int]struct{}{ 1: struct{}{}, 2: struct{}{} }"; "type A struct { x int }; func (a *A) X() { }"; "type A struct { }; func (a *A) x(b int) { }; func (a *O) x(b int) { }";
  "type A struct { }; func (a *A) f() { a.f() }"; "type A struct { }; func (a *A) f(b *A) *A { return b }"; "type A []byte; func (a *A) f() { }"; "type A struct { }; type string []byte; func (a *A) f(b string) []byte { return b }" ] = [].
Proof. vm_cast_no_check (eq_refl (@nil string)). Qed.

Example bad_decls : off (fun b => decls b) false [
  "type A struct { }; type A struct { }"; "type O struct { }"; "type A struct { }; var A = zeropb.RepeatedFields{ }"; "type _ struct { }"; "type init struct { }"; "type A int"; "type A O"; "type A zeropb.Offsets"; "type A struct { x B }"; "type A struct { x A }"; "type A [2]A"; "type A struct { x [2]O }"; "type A []B"; "type A *B"; "type A [2]B"; "type A map[int]B"; "type A map[B]int"; "type A map[O]int"; "type A map[[]byte]int";
  "type A struct { x int; x int }"; "type A struct { x int; y int; x []byte }"; "type A struct { x struct { y int; y int } }"; "type A [1]zeropb.Foo"; "type A []foo.Offsets"; "type zeropb struct { }"; "var zeropb = map[int]struct{}{ }"; "type nil struct { }; type A struct { x []nil1 }";
  "var s = zeropb.RepeatedFields{ 1: struct{}{}, 2: struct{}{}, 1: struct{}{} }"; "var s = zeropb.RepeatedFields{ 2147483648: struct{}{} }"; "var s = zeropb.Offsets{ }"; "var s = map[int]int{ }"; "var s = map[string]struct{}{ 1: struct{}{} }"; "var s = Foo{ }"; "var s = map[int]struct{x int}{ }"; "var s = O{ }";
  "type A struct { x int }; func (a *A) x() { }"; "type A struct { x int; y int }; func (a *A) y() { }"; "type A struct { }; func (a *A) x() { }; func (b *A) x(c int) { }"; "func (a *A) x() { }"; "func (a *int) x() { }"; "func (a *zeropb.Offsets) x() { }"; "type A struct { }; func (a A) x() { }"; "type A *int; func (a *A) x() { }";
  "type A struct { }; func (a *A) x(a int) { }"; "type A struct { }; func (a *A) x(b int, b int) { }"; "type A struct { }; func (a *A) x(b B) { }"; "type A struct { }; func (a *A) x() B { return nil }"; "type A struct { }; func (a *A) x() int { }"; "type A struct { }; func (a *A) x() (int, int) { return 1 }";
  "type A struct { }; func (a *A) x() { return 1 }"; "type A struct { }; type string []byte; func (a *A) f(b string) []byte { return `x` }"; "type A struct { }; type nil struct { }; func (a *A) f() []byte { return nil }"; "type A struct { }; type len struct { }; func (a *A) f(b []byte) int { return len(b) }"; "type A struct { }; type panic struct { }; func (a *A) f(b []byte) { panic(b) }"; "type A struct { }; type true struct { }; func (a *A) f() bool { return true }"; "type A []byte; type panic []byte; func (a *A) f(b []byte) { panic(b) }" ] = [].
Proof. vm_cast_no_check (eq_refl (@nil string)). Qed.

(** Packages and imports. *)
Example good_packages :
  off (fun s => verdict s) true [
    "package p"; "package p; type A struct { x int }"; "package p; import `github.com/danhhz/zeropb`; type A struct { x map[int]zeropb.Offsets }"; "package p; import `github.com/danhhz/zeropb`; type A [2]zeropb.Offsets"; "package p; import `github.com/danhhz/zeropb`; type A []*zeropb.Offsets";
    "package p; import `github.com/danhhz/zeropb`; var s = zeropb.RepeatedFields{ }"; "package p; import `github.com/danhhz/zeropb`; type A struct { }; func (a *A) f(o zeropb.Offsets) { }"; "package p; import `github.com/danhhz/zeropb`; type A struct { }; func (a *A) f() zeropb.Offsets { panic(`a`); return a.f() }";
    "package p; import `github.com/danhhz/zeropb`; type A struct { x []byte }; func (a *A) f() { a.x, a.x = zeropb.FindNextField(a.x, 1) }"; "package p; import `github.com/danhhz/zeropb`; type A struct { x []byte }; func (a *A) f() []byte { if true { return a.f(); var o zeropb.Offsets; o.Clear(); a.x, a.x = zeropb.FindNextField(a.x, 1) }; return nil }" ] = [] /\
  verdict2 "package p; type A struct { x *B }; func (b *B) y() { b.x = b.x }" "package p; type B struct { x *A }; func (a *A) y() { a.x.y() }" = Some true /\
  verdict2 "package p; import `github.com/danhhz/zeropb`; type A [2]zeropb.Offsets" "package p; import `github.com/danhhz/zeropb`; type B [2]zeropb.Offsets" = Some true.
Proof. split; [|split]; vm_compute; reflexivity. Qed.

Example bad_packages :
  package_ok [] = false /\
  off (fun s => verdict s) false [
    "package main"; "package _"; "package p; import `github.com/danhhz/zeropb`"; "package p; import `github.com/danhhz/zeropb`; type A struct { x int }"; "package p; import `github.com/danhhz/zeropb`; type A struct { x map[int]int; y []int; z [2]int; p *int }; func (a *A) f(b int) int { var c int; return c }";
    "package p; type A struct { x zeropb.Offsets }"; "package p; import `fmt`; type A struct { x fmt.Stringer }"; "package p; import `github.com/danhhz/zeropb2`; type A struct { x zeropb.Offsets }"; "package p; import `github.com/danhhz/zeropb`; import `github.com/danhhz/zeropb`; type A struct { x zeropb.Offsets }"; "package p; import `github.com/danhhz/zeropb`; import `fmt`; type A struct { x zeropb.Offsets }";
    "package p; type A struct { x []byte }; func (a *A) f() { a.x, a.x = zeropb.FindNextField(a.x, 1) }" ] = [] /\
  off (fun p => verdict2 p.1 p.2) false [
    ("package p", "package q"); ("package p; type A struct { }", "package p; type A struct { }"); ("package p; type A struct { }; func (a *A) f() { }", "package p; func (a *A) f() { }"); ("package p; import `github.com/danhhz/zeropb`; type A [2]zeropb.Offsets", "package p; type B [2]zeropb.Offsets");
    ("package p; import `github.com/danhhz/zeropb`; type A [2]zeropb.Offsets", "package p; type zeropb struct { }"); ("package p; import `github.com/danhhz/zeropb`", "package p; import `github.com/danhhz/zeropb`; type B [2]zeropb.Offsets"); ("package p", "package main"); ("package p", "package p; type A []B") ] = [].
Proof. split; [|split]; vm_compute; reflexivity. Qed.

(** Helpers on what the parser does not produce (negative constants), and parts of
    rules that whole packages do not reach one by one. *)
Example constants :
  fits (- 2 ^ 31) (TU "int") = true /\ fits (- 2 ^ 31 - 1) (TU "int") = false /\ fits (2 ^ 31 - 1) (TU "int") = true /\ fits (2 ^ 31) (TU "int") = false /\
  fits 1 (TU "string") = false /\ fits 1 (TN "int") = false /\ fits 1 (TPtr (TU "int")) = false.
Proof. repeat split. Qed.
Example uses_of : off (fun s => Some (uses "y" s)) true [SReturn [EInt 1; EId "y"]; SDefine [EId "z"] [EInt 1; EId "y"]; SIf (EId "y") []; SIf (EId "z") [SExpr (EId "z"); SExpr (EId "y")]; SAssign [EId "z"] [EId "y"];
     SAssign [ESel (EId "y") "f"] [EInt 1]; SAssign [EId "z"; EDeref (EId "y")] [EInt 1]; SExpr (ECall (EId "f") [EInt 1; EId "y"]); SExpr (ECall (ESel (EId "y") "f") []); SExpr (EBin OpEq (EId "y") (EInt 1)); SExpr (EBin OpGt (EInt 1) (EId "y")); SExpr (EAll (EId "y")); SExpr (EAddr (EId "y"))] = [] /\
  off (fun s => Some (uses "y" s)) false [SReturn []; SReturn [EInt 1; ELit "y"]; SDefine [EId "y"] [EInt 1]; SIf (EId "z") []; SIf (EId "z") [SAssign [EId "y"] [EInt 1]]; SAssign [EId "y"; EId "y"] [EId "z"]; SAssign [ESel (EId "z") "y"] [EInt 1]; SExpr (ECall (EId "f") [EInt 1; EId "z"]); SExpr (ECall (ESel (EId "f") "y") []); SExpr (EBin OpEq (EId "z") (EInt 1)); SVar "y" (GName "y")] = [].
Proof. split; vm_compute; reflexivity. Qed.
Example type_uses_of : off (fun g => Some (type_uses "p" g)) true [GQual "p" "x"; GPtr (GQual "p" "x"); GSlice (GQual "p" "x"); GArr 2 (GQual "p" "x"); GMapOf (GQual "p" "x") (GName "y"); GMapOf (GName "y") (GQual "p" "x"); GStruct [("a", GName "y"); ("b", GQual "p" "x")]] = [] /\
  off (fun g => Some (type_uses "p" g)) false [GName "p"; GQual "q" "p"; GPtr (GName "p"); GMapOf (GName "p") (GName "p"); GStruct []; GStruct [("p", GName "p")]] = [].
Proof. split; vm_compute; reflexivity. Qed.
Example equal_types :
  off (fun t => Some (ty_eqb t t)) true [TU "int"; TN "A"; TZ "Offsets"; TPtr (TU "int"); TSlice (TN "A"); TArr 3 (TU "int"); TMap (TU "int") (TN "A"); TStruct []; TStruct [("x", TU "int"); ("y", TN "A")]] = [] /\
  off (fun p => Some (ty_eqb p.1 p.2)) false [(TU "int", TU "bool"); (TU "A", TN "A"); (TN "A", TZ "A"); (TPtr (TU "int"), TSlice (TU "int")); (TPtr (TU "int"), TPtr (TU "bool")); (TSlice (TU "int"), TSlice (TU "bool")); (TArr 3 (TU "int"), TArr 4 (TU "int")); (TArr 3 (TU "int"), TArr 3 (TU "bool"));
     (TMap (TU "int") (TU "int"), TMap (TU "int") (TU "bool")); (TMap (TU "int") (TU "int"), TMap (TU "bool") (TU "int")); (TStruct [], TStruct [("x", TU "int")]); (TStruct [("x", TU "int")], TStruct []); (TStruct [("x", TU "int")], TStruct [("y", TU "int")]); (TStruct [("x", TU "int")], TStruct [("x", TU "bool")]); (TStruct [("x", TU "int"); ("y", TU "int")], TStruct [("x", TU "int"); ("z", TU "int")])] = [].
Proof. split; vm_compute; reflexivity. Qed.
