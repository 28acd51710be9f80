(** * Properties C58, C59: memory safety on arbitrary input; strings *)
From Verif Require Import Heap HeapApi Core HeapFacts HeapSet HeapExec HeapRead HeapThms HeapAlloc HeapStable HeapSafe Demo P_Heap P_Mem2.
From stdpp Require Import fin_maps gmap.
#[local] Open Scope Z_scope.

(** ** C58 *)

(** [R] is any set of memory cells.  If every buffer the clients hold or pass to
    Decode lies, with its capacity, inside [R] ([reader_in], [rcall_in]), then,
    whatever the bytes are (malformed messages, wrong wire types, failed decodes),
    every slice and string any accessor ever returns exists and lies inside [R]
    ([ranswer_in]). *)
Theorem C58_contained R σ ts sch ans r :
  Forall (reader_in σ R) ts -> Forall (fun p => rcall_in σ R p.2) sch ->
  rrun σ ts sch = (ans, r) -> Forall (fun p => ranswer_in σ R p.2) ans.
Proof. apply rrun_in. Qed.

(** ... and no answer (nor whether a call panics or never returns) depends on any
    byte outside [R]. *)
Theorem C58_noninterference R σ1 σ2 ts sch :
  agree_on R σ1 σ2 -> Forall (reader_in σ1 R) ts -> Forall (fun p => rcall_in σ1 R p.2) sch ->
  (rrun σ1 ts sch).1 = (rrun σ2 ts sch).1 /\ ending (rrun σ1 ts sch).2 = ending (rrun σ2 ts sch).2.
Proof. intros H1 H2 H3. apply (rrun_agree R sch σ1 σ2 ts H1 H2 H3). Qed.

(** Two buffers in one array, the first is the message of C28_leak_refuted (its
    string field is cut) with a capacity of 4: the accessor panics instead of
    reaching the second. *)
Definition cut_mem (x : Z) : mem := mkMem {[ 0%nat := [18; 5; 104; 201; x; x; x; x] ]} ∅.
Definition cut_region : nat -> Z -> Prop := fun a j => a = 0%nat /\ 0 <= j < 4.
Definition cut_reader : reader := mkReader [mkH None (replicate 8 0) None] [].
Definition cut_sch : list (nat * rcall) := [(0%nat, RDecode 0 demo_mt (Some (mkSl 0 0 3 4))); (0%nat, REncode 0); (0%nat, RGet 0 PString 2)].
Example C58_case :
  agree_on cut_region (cut_mem 1) (cut_mem 2) /\
  reader_in (cut_mem 1) cut_region cut_reader /\ Forall (fun p => rcall_in (cut_mem 1) cut_region p.2) cut_sch /\
  rrun (cut_mem 1) [cut_reader] cut_sch = ([(0%nat, RErr (Some ErrUnexpectedEOF)); (0%nat, RSlice (Some (mkSl 0 0 3 4)))], Panic).
Proof.
  assert (Hg : given (cut_mem 1) cut_region (Some (mkSl 0 0 3 4))).
  { split; [|intros a j [-> H]; cbn in H; split; [done|lia]].
    exists [18; 5; 104; 201; 1; 1; 1; 1]. split; [reflexivity|]. unfold zlen. cbn [soff slen scap length]. lia. }
  split_and!.
  - split_and!; [done|done| |].
    + intros a. unfold cut_mem, mkMem. cbn [arrs]. destruct (decide (a = 0%nat)) as [->|Hne]; [rewrite !lookup_singleton; done|].
      rewrite !lookup_singleton_ne by done. done.
    + intros a j [-> Hj]. unfold cell, arr_of, cut_mem, mkMem. cbn [arrs]. rewrite !lookup_singleton. cbn [from_option id].
      assert (j = 0 \/ j = 1 \/ j = 2 \/ j = 3) as [->|[->|[->| ->]]] by lia; reflexivity.
  - split; [|constructor]. repeat constructor; cbn; done.
  - repeat (apply Forall_cons; split); try apply Forall_nil; cbn; done.
  - vm_compute. reflexivity.
Qed.

(** ** C59: strings are values *)

(** A string returned by GetString keeps its value under every schedule of reads
    and under every sequence of mutations of structs whose buffers do not overlap
    this message's.  Missing: mutations of the message itself, see C51 and below. *)
Theorem C59_string_partial σ h f d :
  hwf σ h -> h_get PString σ h f = Ok (HStr d) ->
  (forall ts sch ans σ', rrun σ ts sch = (ans, Ok σ') -> sbytes σ' d = sbytes σ d) /\
  (forall grow h2 ms σ' h2', hwf σ h2 -> apart (h_buf h) (h_buf h2) -> h_muts grow σ h2 ms = Ok (σ', h2') ->
     sbytes σ' d = sbytes σ d).
Proof.
  intros Hwf E. split.
  - intros ts sch ans σ' Hr. apply sbytes_arrs. eapply rrun_arrs; eauto.
  - intros grow h2 ms σ' h2' Hwf2 Hap Hm.
    assert (Hd : given σ (in_window (h_buf h)) d).
    { apply (h_get_given (in_window (h_buf h)) σ h PString f (HStr d)); [|done]. split; [apply Hwf|done]. }
    destruct Hd as [Hs Hin]. destruct (C31_own_buffer_only _ _ _ _ _ _ Hwf2 Hm) as (_ & _ & _ & Hk).
    apply Hk; [done|]. intros a j H1 H2. apply (Hap a j); [apply Hin; done|done].
Qed.

(** What does not hold: Go strings are immutable.  The string "hi" read from a
    message built with two setters becomes "yo" when the field is set again. *)
Theorem C59_string_mutates_refuted :
  exists σ h d σ' h',
    hwf σ h /\ history demo_mt demo_sc held_os (abs σ h) /\
    h_get PString σ h 2 = Ok (HStr d) /\ sbytes σ d = [104; 105] /\
    h_set tight PString σ h 2 (VString [121; 111]) = Ok (σ', h') /\ sbytes σ' d = [121; 111].
Proof.
  exists held_put.1, held_put.2. eexists _, _, _. split; [apply held_hist|]. split; [apply held_hist|].
  split; [vm_compute; reflexivity|]. split; [vm_compute; reflexivity|]. split; [vm_compute; reflexivity|]. vm_compute. reflexivity.
Qed.

(** The string of the demo message, while another message is mutated. *)
Example C59_case :
  hwf demo_σ demo_h /\ (exists d, h_get PString demo_σ demo_h 2 = Ok (HStr d) /\ sbytes demo_σ d = [104; 105]) /\
  exists h2, hwf demo_σ h2 /\ apart (h_buf demo_h) (h_buf h2) /\
    exists σ' h2', h_muts tight demo_σ h2 [MSet PInt32 1 (VNum 7); MSet PString 2 (VString [1; 2; 3])] = Ok (σ', h2').
Proof.
  split; [apply demo_abs|]. split.
  { eexists. split; [vm_compute; reflexivity|]. vm_compute. reflexivity. }
  exists (mkH (Some (mkSl 5 0 0 4)) (replicate 8 0) None).
  assert (Hb : h_buf demo_h = Some (mkSl 6 0 33 40)) by (vm_compute; reflexivity).
  split_and!.
  - split_and!; [|done|done]. exists [1; 2; 3; 4]. split; [vm_compute; reflexivity|]. unfold zlen. cbn. lia.
  - rewrite Hb. intros a j [-> _] [H _]. discriminate.
  - eexists _, _. vm_compute. reflexivity.
Qed.

Print Assumptions C58_contained.
Print Assumptions C58_noninterference.
Print Assumptions C59_string_partial.
Print Assumptions C59_string_mutates_refuted.
