(** * C88: parcels passed over channels *)
From Verif Require Import GoBase Heap HeapFacts SpecPos SpecShare Share SpecRecover Recover RecoverFacts P_Recover.
From Verif Require Import AccessFacts AccessApi AccessMem AccessObj AccessSet AccessRun SpecGo AccessFork AccessRule AccessGo AccessCase Spec.
From Verif Require Import P_Go LockFacts SpecFork ForkJoin P_Fork SpecHand HandFacts P_Hand SpecChan.
From Verif Require Import Access.

Lemma mine_app g L L' : mine g (L ++ L') = mine g L ++ mine g L'.
Proof. unfold mine. rewrite List.filter_app, map_app. reflexivity. Qed.
Lemma mine_one g g' e : mine g [(g', e)] = if Nat.eqb g' g then [e] else [].
Proof. unfold mine. cbn. destruct (Nat.eqb g' g); reflexivity. Qed.
Lemma has_app b h h' i : has b (h ++ h') i = has (has b h i) h' i.
Proof. unfold has. apply foldl_app. Qed.
Lemma calls_on_app i L L' : calls_on i (L ++ L') = calls_on i L ++ calls_on i L'.
Proof. unfold calls_on. rewrite map_app, concat_app. reflexivity. Qed.
Lemma seen_on_app i L L' : seen_on i (L ++ L') = seen_on i L ++ seen_on i L'.
Proof. unfold seen_on. rewrite map_app, concat_app. reflexivity. Qed.
Lemma upd_eq {A} (f : nat -> A) k x : upd f k x k = x.
Proof. unfold upd. rewrite Nat.eqb_refl. reflexivity. Qed.
Lemma upd_ne {A} (f : nat -> A) k x j : j <> k -> upd f k x j = f j.
Proof. intros H. unfold upd. destruct (Nat.eqb_spec j k); [contradiction|reflexivity]. Qed.

Lemma mine_other g g' L e : g' <> g -> mine g (L ++ [(g', e)]) = mine g L.
Proof. intros H. rewrite mine_app, mine_one. destruct (Nat.eqb_spec g' g); [contradiction|]. apply app_nil_r. Qed.
Lemma mine_self g L e : mine g (L ++ [(g, e)]) = mine g L ++ [e].
Proof. rewrite mine_app, mine_one, Nat.eqb_refl. reflexivity. Qed.
Inductive place := At (g : nat) | In_chan (c : nat).
Section net.
Context (more : nat) (grow : Z -> Z -> Z) (R0 : regs) (G0 : heap) (rts : list rights) (start : list nat) (carries : nat -> nat -> Prop) (gs : nat -> strategy).
Notation n := (length (objs R0)).
Notation m := (length (held R0)).
Context (Hlen : length start = length rts) (Hk : keeps n m rts start carries gs).

(** The parcels of C87 that a state of the net is. *)
Record stands (at_ : nat -> place) (w : net) (bs : list parcel) : Prop := {
  st_steps : hsteps more grow R0 G0 (G0, untouched R0 rts) (n_mem w, bs);
  st_rule : map rule bs = rts;
  st_log : forall i b, bs !! i = Some b -> begun b = calls_on i (n_log w) /\ known b = seen_on i (n_log w);
  st_has : forall g i, has (given start g i) (mine g (n_log w)) i = true <-> (i < length bs)%nat /\ at_ i = At g;
  st_chan : forall c i R, In (i, R) (n_chan w c) -> at_ i = In_chan c /\ exists b, bs !! i = Some b /\ now b = Free R;
  st_once : forall c, NoDup (map fst (n_chan w c));
  st_runs : forall g i p, n_runs w g = Some (i, p) -> at_ i = At g /\ exists b, bs !! i = Some b /\ now b = Taken p;
  st_idle : forall g i, at_ i = At g -> (i < length bs)%nat -> (forall p, n_runs w g <> Some (i, p)) -> exists b, bs !! i = Some b /\ now b = Free (n_vars w g i);
  st_there : forall c i, at_ i = In_chan c -> (i < length bs)%nat -> exists R, In (i, R) (n_chan w c);
  st_carries : forall c i R, In (i, R) (n_chan w c) -> carries c i;
  st_feasible : forall g, match n_runs w g with
    | None => feasible carries (gs g) (mine g (n_log w))
    | Some (i, _) => exists h acts, mine g (n_log w) = h ++ [Begun i acts] /\ gs g h = Some (Exec i acts) /\ feasible carries (gs g) h
    end }.

Lemma stands_start : stands (fun i => At (default 0%nat (start !! i))) (net_start G0 R0) (untouched R0 rts).
Proof using Hlen.
  assert (HL : length (untouched R0 rts) = length start) by (unfold untouched; rewrite map_length; congruence).
  assert (HU : forall i b, untouched R0 rts !! i = Some b -> begun b = [] /\ known b = [] /\ now b = Free R0).
  { intros i b Hb. unfold untouched in Hb. rewrite list_lookup_fmap in Hb. destruct (rts !! i); [|discriminate Hb]. injection Hb as <-. auto. }
  constructor; cbn [net_start n_mem n_log n_vars n_runs n_chan].
  - constructor.
  - unfold untouched. rewrite map_map. apply map_id.
  - intros i b Hb. destruct (HU _ _ Hb) as (-> & -> & _). auto.
  - intros g i. unfold has, given. cbn. rewrite HL. destruct (start !! i) as [g'|] eqn:E; cbn [default].
    + pose proof (lookup_lt_Some _ _ _ E). destruct (Nat.eqb_spec g' g) as [->|Hne]; [tauto|]. split; [discriminate|intros [_ [= H1]]; contradiction].
    + apply lookup_ge_None in E. split; [discriminate|lia].
  - intros c i R [].
  - intros c. constructor.
  - discriminate.
  - intros g i _ Hi _. destruct (lookup_lt_is_Some_2 _ _ Hi) as [b Hb]. exists b. split; [exact Hb|]. exact (proj2 (proj2 (HU _ _ Hb))).
  - intros c i E. discriminate E.
  - intros c i R [].
  - intros g. constructor.
Qed.

Lemma has_other g g' L e i : g' <> g -> has (given start g i) (mine g (L ++ [(g', e)])) i = has (given start g i) (mine g L) i.
Proof. intros H. rewrite mine_app, mine_one. destruct (Nat.eqb_spec g' g); [contradiction|]. rewrite app_nil_r. reflexivity. Qed.
Lemma has_self g L e i : has (given start g i) (mine g (L ++ [(g, e)])) i =
  match e with Got _ j => if Nat.eqb j i then true else has (given start g i) (mine g L) i | Sent _ j => if Nat.eqb j i then false else has (given start g i) (mine g L) i | _ => has (given start g i) (mine g L) i end.
Proof. rewrite mine_app, mine_one, Nat.eqb_refl, has_app. reflexivity. Qed.

Lemma stands_access at_ G L V X Q bs g i p G' p' rt done l : stands at_ (mkNet G L V X Q) bs -> X g = Some (i, p) -> tstep G p G' p' ->
  bs !! i = Some (mkParcel rt done l (Taken p)) -> stands at_ (mkNet G' L V (upd X g (Some (i, p'))) Q) (<[i := mkParcel rt done l (Taken p')]> bs).
Proof using.
  intros S HX St Hb. destruct S as [S1 S2 S3 S4 S5 S6 S7 S8 S11 S9 S10]. cbn [n_mem n_log n_vars n_runs n_chan] in *.
  destruct (S7 _ _ _ HX) as (Hat & _). pose proof (lookup_lt_Some _ _ _ Hb) as Hlt.
  constructor; cbn [n_mem n_log n_vars n_runs n_chan].
  - eapply hsteps_step; [exact S1|]. eapply h_access; eassumption.
  - rewrite <- S2. eapply insert_rule; [exact Hb|reflexivity].
  - intros j b' Hb'. destruct (decide (j = i)) as [->|Hij].
    + rewrite list_lookup_insert in Hb' by exact Hlt. injection Hb' as <-. exact (S3 _ _ Hb).
    + rewrite list_lookup_insert_ne in Hb' by congruence. exact (S3 _ _ Hb').
  - intros g' j. rewrite insert_length. apply S4.
  - intros c j R' Hin. destruct (S5 _ _ _ Hin) as (E & b' & Hb' & Hn'). split; [exact E|]. exists b'. split; [|exact Hn']. rewrite list_lookup_insert_ne; [exact Hb'|].
    intros <-. rewrite Hat in E. discriminate E.
  - exact S6.
  - intros g' j p0 Hp. destruct (decide (g' = g)) as [->|Hgg].
    + rewrite upd_eq in Hp. injection Hp as <- <-. split; [exact Hat|]. eexists. split; [apply list_lookup_insert; exact Hlt|reflexivity].
    + rewrite upd_ne in Hp by exact Hgg. destruct (S7 _ _ _ Hp) as (E & b' & Hb' & Hn'). split; [exact E|]. exists b'. split; [|exact Hn']. rewrite list_lookup_insert_ne; [exact Hb'|].
      intros <-. rewrite Hat in E. injection E as E. congruence.
  - intros g' j E Hj HN. rewrite insert_length in Hj. destruct (decide (j = i)) as [->|Hij].
    + rewrite Hat in E. injection E as <-. exfalso. eapply HN. rewrite upd_eq. reflexivity.
    + rewrite list_lookup_insert_ne by congruence. apply (S8 _ _ E Hj). intros p0 Hp. destruct (decide (g' = g)) as [->|Hgg]; [rewrite HX in Hp; congruence|].
      eapply HN. rewrite upd_ne by exact Hgg. exact Hp.
  - intros c j E Hj. rewrite insert_length in Hj. exact (S11 _ _ E Hj).
  - exact S9.
  - intros g'. pose proof (S10 g') as HF. destruct (decide (g' = g)) as [->|Hgg]; [rewrite HX in HF; rewrite upd_eq; exact HF|rewrite upd_ne by exact Hgg; exact HF].
Qed.
Lemma stands_step at_ w bs w' : stands at_ w bs -> nstep more grow gs w w' -> exists at_' bs', stands at_' w' bs'.
Proof using Hk.
  intros S St. destruct S as [S1 S2 S3 S4 S5 S6 S7 S8 S11 S9 S10].
  assert (HK : forall i b, bs !! i = Some b -> rts !! i = Some (rule b)) by (intros i b Hb; rewrite <- S2, list_lookup_fmap, Hb; reflexivity).
  destruct St as [G L V X Q g c i R q HX Hg HQ|G L V X Q g c i HX Hg|G L V X Q g i acts HX Hg|G L V X Q g i p G' p' HX St|G L V X Q g i l R HX];
    cbn [n_mem n_log n_vars n_runs n_chan] in *.
  - (* receive *)
    assert (HI : In (i, R) (Q c)) by (apply (Permutation_in _ (Permutation_sym HQ)); left; reflexivity).
    assert (HT : forall x, In x q -> In x (Q c)) by (intros x Hx; apply (Permutation_in _ (Permutation_sym HQ)); right; exact Hx).
    destruct (S5 c i R HI) as (Hat & b & Hb & Hn). pose proof (lookup_lt_Some _ _ _ Hb) as Hlt.
    pose proof (S6 c) as HND. rewrite (Permutation_map fst HQ) in HND. cbn [map fst] in HND. apply NoDup_cons in HND as [HNI HND].
    exists (upd at_ i (At g)), bs. constructor; cbn [n_mem n_log n_vars n_runs n_chan]; [exact S1|exact S2| | | | | | | | |].
    + intros j b' Hb'. rewrite calls_on_app, seen_on_app. cbn. rewrite !app_nil_r. exact (S3 _ _ Hb').
    + intros g' j. destruct (decide (g = g')) as [<-|Hgg].
      * rewrite has_self. destruct (Nat.eqb_spec i j) as [<-|Hij]; [rewrite upd_eq; tauto|]. rewrite upd_ne by congruence. apply S4.
      * rewrite has_other by exact Hgg. rewrite S4. destruct (decide (j = i)) as [->|Hij]; [rewrite upd_eq, Hat; split; intros [_ E]; [discriminate E|injection E as E; contradiction]|rewrite upd_ne by exact Hij; reflexivity].
    + intros c' j R' Hin. destruct (decide (j = i)) as [->|Hij].
      * exfalso. destruct (decide (c' = c)) as [->|Hcc].
        -- rewrite upd_eq in Hin. apply HNI. apply elem_of_list_In. apply in_map_iff. exists (i, R'). auto.
        -- rewrite upd_ne in Hin by exact Hcc. destruct (S5 _ _ _ Hin) as [E _]. rewrite Hat in E. injection E as E. congruence.
      * rewrite upd_ne by exact Hij. apply S5. destruct (decide (c' = c)) as [->|Hcc]; [rewrite upd_eq in Hin; exact (HT _ Hin)|rewrite upd_ne in Hin by exact Hcc; exact Hin].
    + intros c'. destruct (decide (c' = c)) as [->|Hcc]; [rewrite upd_eq; exact HND|rewrite upd_ne by exact Hcc; apply S6].
    + intros g' j p Hp. destruct (S7 _ _ _ Hp) as (E & Hx). split; [|exact Hx]. destruct (decide (j = i)) as [->|Hij]; [rewrite Hat in E; discriminate E|rewrite upd_ne by exact Hij; exact E].
    + intros g' j E Hj HN. destruct (decide (j = i)) as [->|Hij].
      * rewrite upd_eq in E. injection E as <-. exists b. split; [exact Hb|]. rewrite upd_eq, upd_eq. exact Hn.
      * rewrite upd_ne in E by exact Hij. destruct (S8 _ _ E Hj HN) as (b' & Hb' & Hn'). exists b'. split; [exact Hb'|].
        destruct (decide (g' = g)) as [->|Hgg]; [rewrite upd_eq, upd_ne by exact Hij; exact Hn'|rewrite upd_ne by exact Hgg; exact Hn'].
    + intros c' j E Hj. destruct (decide (j = i)) as [->|Hij]; [rewrite upd_eq in E; discriminate E|]. rewrite upd_ne in E by exact Hij. destruct (S11 _ _ E Hj) as (R' & Hin).
      destruct (decide (c' = c)) as [->|Hcc]; [rewrite upd_eq|rewrite upd_ne by exact Hcc; eauto]. apply (Permutation_in _ HQ) in Hin. destruct Hin as [[= -> ->]|Hin]; [contradiction|eauto].
    + intros c' j R' Hin. destruct (decide (c' = c)) as [->|Hcc]; [rewrite upd_eq in Hin; apply (S9 c j R'); exact (HT _ Hin)|rewrite upd_ne in Hin by exact Hcc; exact (S9 _ _ _ Hin)].
    + intros g'. pose proof (S10 g') as HF. destruct (decide (g = g')) as [<-|Hgg]; [|rewrite mine_other by exact Hgg; exact HF].
      rewrite HX in HF |- *. rewrite mine_self. apply f_got; [exact HF|exact Hg|]. exact (S9 c i R HI).
  - (* send *)
    pose proof (S10 g) as HF0. rewrite HX in HF0. destruct (Hk _ _ _ HF0 Hg) as [Hh Hca]. apply S4 in Hh as [Hlt Hat].
    destruct (S8 _ _ Hat Hlt) as (b & Hb & Hn); [intros p; rewrite HX; discriminate|].
    exists (upd at_ i (In_chan c)), bs. constructor; cbn [n_mem n_log n_vars n_runs n_chan]; [exact S1|exact S2| | | | | | | | |].
    + intros j b' Hb'. rewrite calls_on_app, seen_on_app. cbn. rewrite !app_nil_r. exact (S3 _ _ Hb').
    + intros g' j. destruct (decide (g = g')) as [<-|Hgg].
      * rewrite has_self. destruct (Nat.eqb_spec i j) as [<-|Hij]; [rewrite upd_eq; split; [discriminate|intros [_ E]; discriminate E]|]. rewrite upd_ne by congruence. apply S4.
      * rewrite has_other by exact Hgg. rewrite S4. destruct (decide (j = i)) as [->|Hij]; [rewrite upd_eq, Hat; split; intros [_ E]; [injection E as E; contradiction|discriminate E]|rewrite upd_ne by exact Hij; reflexivity].
    + assert (Hold : forall c' j R', In (j, R') (Q c') -> j <> i).
      { intros c' j R' Hin ->. destruct (S5 _ _ _ Hin) as [E _]. rewrite Hat in E. discriminate E. }
      intros c' j R' Hin. destruct (decide (c' = c)) as [->|Hcc].
      * rewrite upd_eq in Hin. apply in_app_iff in Hin as [Hin|[[= <- <-]|[]]].
        -- rewrite upd_ne by (eapply Hold, Hin). exact (S5 _ _ _ Hin).
        -- rewrite upd_eq. split; [reflexivity|]. exists b. auto.
      * rewrite upd_ne in Hin by exact Hcc. rewrite upd_ne by (eapply Hold, Hin). exact (S5 _ _ _ Hin).
    + intros c'. destruct (decide (c' = c)) as [->|Hcc]; [rewrite upd_eq|rewrite upd_ne by exact Hcc; apply S6].
      rewrite map_app. apply NoDup_app. split_and!; [apply S6| |repeat constructor; intros H; inversion H].
      intros x Hx Hy. apply elem_of_list_In in Hx. apply elem_of_list_In in Hy. destruct Hy as [<-|[]]. apply in_map_iff in Hx as ([j R'] & E & Hin). cbn in E. subst j.
      destruct (S5 _ _ _ Hin) as [E _]. rewrite Hat in E. discriminate E.
    + intros g' j p Hp. destruct (S7 _ _ _ Hp) as (E & Hx). split; [|exact Hx]. destruct (decide (j = i)) as [->|Hij]; [|rewrite upd_ne by exact Hij; exact E].
      rewrite Hat in E. injection E as <-. rewrite HX in Hp. discriminate Hp.
    + intros g' j E Hj HN. destruct (decide (j = i)) as [->|Hij]; [rewrite upd_eq in E; discriminate E|]. rewrite upd_ne in E by exact Hij. exact (S8 _ _ E Hj HN).
    + intros c' j E Hj. destruct (decide (j = i)) as [->|Hij].
      * rewrite upd_eq in E. injection E as <-. exists (V g i). rewrite upd_eq. apply in_app_iff. right. left. reflexivity.
      * rewrite upd_ne in E by exact Hij. destruct (S11 _ _ E Hj) as (R' & Hin). exists R'. destruct (decide (c' = c)) as [->|Hcc]; [rewrite upd_eq; apply in_app_iff; auto|rewrite upd_ne by exact Hcc; exact Hin].
    + intros c' j R' Hin. destruct (decide (c' = c)) as [->|Hcc]; [|rewrite upd_ne in Hin by exact Hcc; exact (S9 _ _ _ Hin)].
      rewrite upd_eq in Hin. apply in_app_iff in Hin as [Hin|[[= <- <-]|[]]]; [exact (S9 _ _ _ Hin)|exact Hca].
    + intros g'. pose proof (S10 g') as HF. destruct (decide (g = g')) as [<-|Hgg]; [|rewrite mine_other by exact Hgg; exact HF].
      rewrite HX in HF |- *. rewrite mine_self. apply f_sent; [exact HF|exact Hg].
  - (* a section begins *)
    pose proof (S10 g) as HF0. rewrite HX in HF0. destruct (Hk _ _ _ HF0 Hg) as [Hh Hfo]. apply S4 in Hh as [Hlt Hat].
    destruct (S8 _ _ Hat Hlt) as ([rt done l h] & Hb & Hn); [intros p; rewrite HX; discriminate|]. cbn in Hn. subst h. specialize (Hfo rt (HK _ _ Hb)).
    exists at_, (<[i := mkParcel rt (done ++ acts) l (Taken (c_client more grow (V g i) acts))]> bs). constructor; cbn [n_mem n_log n_vars n_runs n_chan].
    + eapply hsteps_step; [exact S1|]. eapply h_take; eassumption.
    + rewrite <- S2. eapply insert_rule; [exact Hb|reflexivity].
    + intros j b' Hb'. rewrite calls_on_app, seen_on_app. cbn. rewrite !app_nil_r. destruct (decide (j = i)) as [->|Hij].
      * rewrite list_lookup_insert in Hb' by exact Hlt. injection Hb' as <-. cbn. rewrite Nat.eqb_refl. destruct (S3 _ _ Hb) as [<- <-]. auto.
      * rewrite list_lookup_insert_ne in Hb' by congruence. destruct (Nat.eqb_spec i j); [congruence|]. rewrite app_nil_r. exact (S3 _ _ Hb').
    + intros g' j. rewrite insert_length. destruct (decide (g = g')) as [<-|Hgg]; [rewrite has_self|rewrite has_other by exact Hgg]; apply S4.
    + intros c j R' Hin. destruct (S5 _ _ _ Hin) as (E & b' & Hb' & Hn'). split; [exact E|]. exists b'. split; [|exact Hn']. rewrite list_lookup_insert_ne; [exact Hb'|].
      intros <-. rewrite Hat in E. discriminate E.
    + exact S6.
    + intros g' j p Hp. destruct (decide (g' = g)) as [->|Hgg].
      * rewrite upd_eq in Hp. injection Hp as <- <-. split; [exact Hat|]. eexists. split; [apply list_lookup_insert; exact Hlt|reflexivity].
      * rewrite upd_ne in Hp by exact Hgg. destruct (S7 _ _ _ Hp) as (E & b' & Hb' & Hn'). split; [exact E|]. exists b'. split; [|exact Hn']. rewrite list_lookup_insert_ne; [exact Hb'|].
        intros <-. rewrite Hat in E. injection E as E. congruence.
    + intros g' j E Hj HN. rewrite insert_length in Hj. destruct (decide (j = i)) as [->|Hij].
      * rewrite Hat in E. injection E as <-. exfalso. eapply HN. rewrite upd_eq. reflexivity.
      * rewrite list_lookup_insert_ne by congruence. apply (S8 _ _ E Hj). intros p Hp. destruct (decide (g' = g)) as [->|Hgg]; [rewrite HX in Hp; discriminate Hp|].
        eapply HN. rewrite upd_ne by exact Hgg. exact Hp.
    + intros c j E Hj. rewrite insert_length in Hj. exact (S11 _ _ E Hj).
    + exact S9.
    + intros g'. pose proof (S10 g') as HF. destruct (decide (g' = g)) as [->|Hgg].
      * rewrite HX in HF. rewrite upd_eq, mine_self. eauto.
      * rewrite upd_ne by exact Hgg. rewrite mine_other by congruence. exact HF.
  - (* an access *)
    destruct (S7 _ _ _ HX) as (Hat & [rt done l h] & Hb & Hn). cbn in Hn. subst h.
    exists at_, (<[i := mkParcel rt done l (Taken p')]> bs). eapply stands_access; try eassumption. constructor; assumption.
  - (* a section ends *)
    destruct (S7 _ _ _ HX) as (Hat & [rt done l0 h] & Hb & Hn). cbn in Hn. subst h. pose proof (lookup_lt_Some _ _ _ Hb) as Hlt.
    exists at_, (<[i := mkParcel rt done (l0 ++ l) (Free R)]> bs). constructor; cbn [n_mem n_log n_vars n_runs n_chan].
    + eapply hsteps_step; [exact S1|]. eapply h_give; eassumption.
    + rewrite <- S2. eapply insert_rule; [exact Hb|reflexivity].
    + intros j b' Hb'. rewrite calls_on_app, seen_on_app. cbn. rewrite !app_nil_r. destruct (decide (j = i)) as [->|Hij].
      * rewrite list_lookup_insert in Hb' by exact Hlt. injection Hb' as <-. cbn. rewrite Nat.eqb_refl. destruct (S3 _ _ Hb) as [<- <-]. auto.
      * rewrite list_lookup_insert_ne in Hb' by congruence. destruct (Nat.eqb_spec i j); [congruence|]. rewrite app_nil_r. exact (S3 _ _ Hb').
    + intros g' j. rewrite insert_length. destruct (decide (g = g')) as [<-|Hgg]; [rewrite has_self|rewrite has_other by exact Hgg]; apply S4.
    + intros c j R' Hin. destruct (S5 _ _ _ Hin) as (E & b' & Hb' & Hn'). split; [exact E|]. exists b'. split; [|exact Hn']. rewrite list_lookup_insert_ne; [exact Hb'|].
      intros <-. rewrite Hat in E. discriminate E.
    + exact S6.
    + intros g' j p0 Hp. destruct (decide (g' = g)) as [->|Hgg]; [rewrite upd_eq in Hp; discriminate Hp|].
      rewrite upd_ne in Hp by exact Hgg. destruct (S7 _ _ _ Hp) as (E & b' & Hb' & Hn'). split; [exact E|]. exists b'. split; [|exact Hn']. rewrite list_lookup_insert_ne; [exact Hb'|].
      intros <-. rewrite Hat in E. injection E as E. congruence.
    + intros g' j E Hj HN. rewrite insert_length in Hj. destruct (decide (j = i)) as [->|Hij].
      * rewrite Hat in E. injection E as <-. eexists. split; [apply list_lookup_insert; exact Hlt|]. rewrite upd_eq, upd_eq. reflexivity.
      * rewrite list_lookup_insert_ne by congruence. destruct (S8 _ _ E Hj) as (b' & Hb' & Hn').
        { intros p Hp. destruct (decide (g' = g)) as [->|Hgg]; [congruence|]. eapply HN. rewrite upd_ne by exact Hgg. exact Hp. }
        exists b'. split; [exact Hb'|]. destruct (decide (g' = g)) as [->|Hgg]; [rewrite upd_eq, upd_ne by exact Hij; exact Hn'|rewrite upd_ne by exact Hgg; exact Hn'].
    + intros c j E Hj. rewrite insert_length in Hj. exact (S11 _ _ E Hj).
    + exact S9.
    + intros g'. pose proof (S10 g') as HF. destruct (decide (g' = g)) as [->|Hgg].
      * rewrite HX in HF. rewrite upd_eq, mine_self. destruct HF as (h & acts & E & Hg & HF). rewrite E, <- app_assoc. cbn [app]. apply f_saw; assumption.
      * rewrite upd_ne by exact Hgg. rewrite mine_other by congruence. exact HF.
Qed.
Lemma stands_all w : net_steps more grow gs (net_start G0 R0) w -> exists at_ bs, stands at_ w bs.
Proof using Hk Hlen.
  intros H. remember (net_start G0 R0) as w0 eqn:E. induction H as [w|w1 w2 w3 _ IH St]; [subst w; eexists _, _; apply stands_start|].
  destruct (IH E) as (at_ & bs & S). eapply stands_step; eassumption.
Qed.

(** The sections being executed can go on as their programs say. *)
Lemma stands_back at_ w bs ps : stands at_ w bs -> Forall2 matches bs ps -> forall c, csteps (n_mem w, ps) c ->
  exists w' bs', net_steps more grow gs w w' /\ stands at_ w' bs' /\ n_mem w' = c.1 /\ Forall2 matches bs' c.2.
Proof using.
  intros S Hm c Hs. remember (n_mem w, ps) as c0 eqn:E0. induction Hs as [c|c1 c2 c3 _ IH St].
  - subst c. exists w, bs. split_and!; [constructor|exact S|reflexivity|exact Hm].
  - destruct (IH E0) as (w1 & bs1 & H1 & S1 & E1 & Hm1). clear IH. destruct St as [H qs i q H' q' Hq St]. cbn [fst snd] in *.
    destruct (Forall2_lookup_r _ _ _ _ _ Hm1 Hq) as ([rt done l [R1|p]] & Hb & Hbm); cbn in Hbm.
    { subst q. inversion St. }
    destruct (same_step _ _ _ _ _ _ (same_sym _ _ _ Hbm) St) as (p' & St' & Hs').
    destruct w1 as [G1 L V X Q]. cbn [n_mem] in E1. subst G1.
    assert (Hg : exists g, X g = Some (i, p)).
    { pose proof (lookup_lt_Some _ _ _ Hb) as Hlt. destruct (at_ i) as [g|c] eqn:Hat.
      - destruct (X g) as [[i' p2]|] eqn:HX.
        + destruct (decide (i' = i)) as [->|Hne].
          * destruct (st_runs _ _ _ S1 g i p2 HX) as (_ & b & Hb2 & Hn). rewrite Hb in Hb2. injection Hb2 as <-. cbn in Hn. injection Hn as <-. eauto.
          * destruct (st_idle _ _ _ S1 g i Hat Hlt) as (b & Hb2 & Hn); [intros p3; cbn; rewrite HX; congruence|]. rewrite Hb in Hb2. injection Hb2 as <-. discriminate Hn.
        + destruct (st_idle _ _ _ S1 g i Hat Hlt) as (b & Hb2 & Hn); [intros p3; cbn; rewrite HX; congruence|]. rewrite Hb in Hb2. injection Hb2 as <-. discriminate Hn.
      - destruct (st_there _ _ _ S1 c i Hat Hlt) as (R' & Hin). destruct (st_chan _ _ _ S1 _ _ _ Hin) as (_ & b & Hb2 & Hn). rewrite Hb in Hb2. injection Hb2 as <-. discriminate Hn. }
    destruct Hg as [g HX]. exists (mkNet H' L V (upd X g (Some (i, p'))) Q), (<[i := mkParcel rt done l (Taken p')]> bs1). split_and!.
    + eapply net_steps_step; [exact H1|]. eapply s_access; eassumption.
    + eapply stands_access; eassumption.
    + reflexivity.
    + apply Forall2_insert; [exact Hm1|]. cbn. exact (same_sym _ _ _ Hs').
Qed.
End net.

Section prog.
Context (more : nat) (grow : Z -> Z -> Z) (setup : list act) (obs : seen_in) (R : regs) (G : heap) (rts : list rights) (start : list nat) (carries : nat -> nat -> Prop) (gs : nat -> strategy).
Context (Hs : csteps (∅, [c_client more grow no_regs setup]) (G, [Stop (Ok (obs, R))])).
Context (Hd : divided R G rts) (Hlen : length start = length rts) (Hk : keeps (length (objs R)) (length (held R)) rts start carries gs).

(** A program that keeps to the rule has no race and touches no memory that does not
    exist; no section panics; every parcel is at one place, with a goroutine or in a channel;
    memory that belongs to no parcel is unchanged; all sections can come to their ends. *)
Theorem C88_passed_on w : net_steps more grow gs (net_start G R) w ->
  ~ net_race w /\ ~ net_wild w /\
  (forall g i, n_runs w g <> Some (i, Stop Panic)) /\
  (forall g g' i, has (given start g i) (mine g (n_log w)) i = true -> has (given start g' i) (mine g' (n_log w)) i = true -> g = g') /\
  (forall c i R', In (i, R') (n_chan w c) -> forall g, has (given start g i) (mine g (n_log w)) i = false) /\
  (forall c, NoDup (map fst (n_chan w c))) /\
  (forall c c' i R1 R2, In (i, R1) (n_chan w c) -> In (i, R2) (n_chan w c') -> c = c') /\
  (forall i, (i < length rts)%nat -> (exists g, has (given start g i) (mine g (n_log w)) i = true) \/ exists c R', In (i, R') (n_chan w c)) /\
  (forall owner, (forall kd id, owner (Made kd id) = None) -> (forall i rt, rts !! i = Some rt -> grants owner i R G rt) ->
     forall l x, G !! l = Some x -> owner l = None -> n_mem w !! l = Some x) /\
  exists w', net_steps more grow gs w w' /\ forall g i p, n_runs w' g = Some (i, p) -> exists r, p = Stop r.
Proof using Hs Hd Hlen Hk.
  intros H. destruct (stands_all more grow R G rts start carries gs Hlen Hk w H) as (at_ & bs & HS). pose proof HS as [S1 S2 S3 S4 S5 S6 S7 S8 S11 S9 S10].
  destruct (C87_handed_over more grow setup obs R G rts Hs Hd _ _ S1) as (A & B & _ & C & D & _).
  assert (HB : forall g i p, n_runs w g = Some (i, p) -> map busy bs !! i = Some p).
  { intros g i p Hp. destruct (S7 _ _ _ Hp) as (_ & b & Hb & Hn). rewrite list_lookup_fmap, Hb. cbn. unfold busy. rewrite Hn. reflexivity. }
  split_and!.
  - intros (g & g' & i & i' & p & q & l & w1 & w2 & Hne & Hp & Hq & Np & Nq & Hw). apply A. exists i, i', p, q, l, w1, w2. split_and!; eauto.
    intros <-. destruct (S7 _ _ _ Hp) as [E1 _]. destruct (S7 _ _ _ Hq) as [E2 _]. rewrite E1 in E2. injection E2 as E2. contradiction.
  - intros (g & i & p & l & b & Hp & Np & Hl). apply B. exists i, p, l, b. eauto.
  - intros g i Hp. destruct (S7 _ _ _ Hp) as (_ & b & Hb & Hn). exact (C _ _ Hb Hn).
  - intros g g' i H1 H2. apply S4 in H1 as [_ H1]. apply S4 in H2 as [_ H2]. rewrite H1 in H2. injection H2 as H2. exact H2.
  - intros c i R' Hin g. destruct (has _ _ i) eqn:E; [|reflexivity]. apply S4 in E as [_ E]. destruct (S5 _ _ _ Hin) as [E2 _]. rewrite E in E2. discriminate E2.
  - exact S6.
  - intros c c' i R1 R2 H1 H2. destruct (S5 _ _ _ H1) as [E1 _]. destruct (S5 _ _ _ H2) as [E2 _]. rewrite E1 in E2. injection E2 as E2. exact E2.
  - intros i Hi. rewrite <- S2, map_length in Hi. destruct (at_ i) as [g|c] eqn:E; [left; exists g; apply S4; auto|right; exists c; exact (S11 _ _ E Hi)].
  - intros owner Ho Hg. apply D; [exact Ho|]. rewrite S2. exact Hg.
  - destruct (hand_sim more grow setup obs R G rts Hs Hd _ S1) as ((ps & Hc & Hm) & (owner & Ho & Hg) & Hf). cbn [fst snd] in *.
    assert (Hc' : csteps (G, map (fun t => c_client more grow R (todo t)) (map whole bs)) (n_mem w, ps)) by (rewrite map_map; exact Hc).
    destruct (C77_goroutines more grow setup obs R G owner (map whole bs) Hs Ho (tasks_ok R G owner bs Hf Hg) _ ps Hc') as (_ & _ & _ & _ & G2 & ps2 & E1 & E2).
    destruct (stands_back more grow R G rts start carries gs at_ w bs ps HS Hm _ E1) as (w' & bs' & Hw & HS' & _ & Hm'). exists w'. split; [exact Hw|].
    intros g i p Hp. destruct (st_runs _ _ _ _ _ _ _ _ _ _ _ HS' g i p Hp) as (_ & b & Hb & Hn). cbn [snd] in Hm'.
    destruct (Forall2_lookup_l _ _ _ _ _ Hm' Hb) as (q & Hq & Hbm). pose proof (Forall_lookup_1 _ _ _ _ E2 Hq) as Hfin.
    unfold matches in Hbm. rewrite Hn in Hbm. destruct Hbm; [eauto|destruct Hfin..].
Qed.

(** What was seen on a parcel, by whomever, and what it holds, is what the specified
    machine shows for the beginning and the calls on it, in the order of the events. *)
Theorem C88_specified w i R' rt : net_steps more grow gs (net_start G R) w -> rts !! i = Some rt -> rests start w i R' ->
  exists l e, recovers sh_empty (setup ++ calls_on i (n_log w)) l e /\
    match e with
    | Goes St _ => l = obs ++ seen_on i (n_log w) /\ held R' = sh_held St /\
        (forall k s, sees (length (held R)) rt k -> held R' !! k = Some s -> bytes_at (n_mem w) s (bytes_in (sh_arr St) s)) /\
        (forall j mt o, uses (length (objs R)) rt j -> objs R' !! j = Some (mt, o) -> exists ob, sh_objs St !! j = Some ob /\
           n_mem w !! Buf o = Some (Hdr (o_buf ob)) /\ bytes_at (n_mem w) (o_buf ob) (pbytes (state_of (sh_arr St) ob)))
    | Panics | Loops => False
    | Open => exists l2, obs ++ seen_on i (n_log w) = l ++ l2
    end.
Proof using Hs Hd Hlen Hk.
  intros H Hrt HR. destruct (stands_all more grow R G rts start carries gs Hlen Hk w H) as (at_ & bs & [S1 S2 S3 S4 S5 S6 S7 S8 S11 S9 S10]).
  assert (Hb : exists b, bs !! i = Some b /\ now b = Free R').
  { destruct HR as [[c Hin]|(g & Hh & <- & HX)]; [exact (proj2 (S5 _ _ _ Hin))|]. apply S4 in Hh as [Hlt Hat]. exact (S8 _ _ Hat Hlt HX). }
  destruct Hb as (b & Hb & Hn). destruct (S3 _ _ Hb) as [E1 E2].
  assert (Er : rule b = rt) by (rewrite <- S2, list_lookup_fmap, Hb in Hrt; injection Hrt as Hrt; exact Hrt).
  rewrite <- E1, <- E2, <- Er. exact (C87_specified more grow setup obs R G rts Hs Hd _ _ _ _ _ S1 Hb Hn).
Qed.
End prog.

Lemma list_by_index {A B} (f : A -> B) (g : nat -> B) (l : list A) : (forall i a, l !! i = Some a -> f a = g i) -> map f l = map g (seq 0 (length l)).
Proof.
  revert g. induction l as [|a l IH]; intros g H; [reflexivity|]. cbn [map length seq]. f_equal; [exact (H 0%nat a eq_refl)|].
  rewrite <- seq_shift, map_map. apply IH. intros i x Hx. exact (H (S i) x Hx).
Qed.
(** When all parcels are at rest and the goroutines have been waited for, the program goes on with the variables of all
    parcels, as after the calls on the first parcel, then those on the second, ... (C86). *)
Theorem C88_then more grow prog obs G R rts start carries gs w Rs : executed more grow prog obs G R -> divided R G rts -> length start = length rts ->
  keeps (length (objs R)) (length (held R)) rts start carries gs -> net_steps more grow gs (net_start G R) w ->
  length Rs = length rts -> (forall i R', Rs !! i = Some R' -> rests start w i R' /\ Forall (advances_own (length (held R))) (calls_on i (n_log w))) ->
  executed more grow
    (prog ++ in_turn (length (objs R)) (length (held R)) 0 0 (map (fun i => calls_on i (n_log w)) (seq 0 (length rts))) Rs)
    (obs ++ concat (map (fun i => seen_on i (n_log w)) (seq 0 (length rts)))) (n_mem w) (joined R Rs).
Proof.
  intros Hx Hd Hlen Hk H HL HR. destruct (stands_all more grow R G rts start carries gs Hlen Hk w H) as (at_ & bs & [S1 S2 S3 S4 S5 S6 S7 S8 S11 S9 S10]).
  assert (HB : length bs = length rts) by (rewrite <- S2, map_length; reflexivity).
  rewrite <- HB, <- (list_by_index begun) by (intros i b Hb; exact (proj1 (S3 _ _ Hb))). rewrite <- (list_by_index known) by (intros i b Hb; exact (proj2 (S3 _ _ Hb))).
  assert (HF : forall i b, bs !! i = Some b -> exists R', Rs !! i = Some R' /\ now b = Free R' /\ Forall (advances_own (length (held R))) (begun b)).
  { intros i b Hb. destruct (lookup_lt_is_Some_2 Rs i) as [R' HR']; [rewrite HL, <- HB; exact (lookup_lt_Some _ _ _ Hb)|]. exists R'. split; [exact HR'|].
    destruct (HR _ _ HR') as [Hr Ha]. rewrite (proj1 (S3 _ _ Hb)). split; [|exact Ha].
    assert (Hb' : exists b, bs !! i = Some b /\ now b = Free R').
    { destruct Hr as [[c Hin]|(g & Hh & <- & HX)]; [exact (proj2 (S5 _ _ _ Hin))|]. apply S4 in Hh as [Hlt Hat]. exact (S8 _ _ Hat Hlt HX). }
    destruct Hb' as (b' & Hb' & Hn). rewrite Hb in Hb'. injection Hb' as <-. exact Hn. }
  eapply C87_then; [exact Hx|exact Hd|exact S1| |].
  - apply list_eq. intros i. rewrite !list_lookup_fmap. destruct (bs !! i) as [b|] eqn:Eb.
    + destruct (HF _ _ Eb) as (R' & -> & Hn & _). cbn. rewrite Hn. reflexivity.
    + apply lookup_ge_None in Eb. rewrite (lookup_ge_None_2 Rs) by lia. reflexivity.
  - apply Forall_lookup_2. intros i b Hb. destruct (HF _ _ Hb) as (_ & _ & _ & Ha). exact Ha.
Qed.

(** ** A case

    The parcels of C87_case: each goroutine works on its own, while the other does, then
    sends it to the other and works on what it gets. *)
Definition chan_A : list act := [AGet 0 2 PString; ASet 1 1 PUint64 (VNum 7)].
Definition chan_B : list act := [AGet 0 1 PUint64; ASet 2 2 PBytes (VBytes (Some [9; 9; 9; 9; 9; 9; 9; 9; 9; 9]))].
Definition chan_A2 : list act := [AGet 1 1 PUint64; ANew 3 []; ADecode 3 0; ASet 1 1 PUint64 (VNum 300)].
Definition chan_B2 : list act := [AEncode 2; ALook 1].
Definition chan_gs (g : nat) : strategy := fun h =>
  match g, h with
  | 0%nat, [] => Some (Exec 0 chan_A)
  | 0%nat, [_; _] => Some (Send 0 0)
  | 0%nat, [_; _; _] => Some (Recv 1)
  | 0%nat, [_; _; _; Got _ i] => Some (Exec i chan_B2)
  | 1%nat, [] => Some (Exec 1 chan_B)
  | 1%nat, [_; _] => Some (Recv 0)
  | 1%nat, [_; _; Got _ i] => Some (Send 1 1)
  | 1%nat, [_; _; Got _ i; _] => Some (Exec i chan_A2)
  | _, _ => None
  end.
Definition chan_carries (c i : nat) : Prop := c = i.
Lemma chan_feasible0 h : feasible chan_carries (chan_gs 0) h ->
  h = [] \/ (exists l, h = [Begun 0 chan_A; Saw 0 l]) \/ (exists l, h = [Begun 0 chan_A; Saw 0 l; Sent 0 0]) \/
  (exists l, h = [Begun 0 chan_A; Saw 0 l; Sent 0 0; Got 1 1]) \/ (exists l l', h = [Begun 0 chan_A; Saw 0 l; Sent 0 0; Got 1 1; Begun 1 chan_B2; Saw 1 l']).
Proof.
  induction 1 as [|h c i _ IH E Hc|h c i _ IH E|h i acts l _ IH E]; [tauto|..];
    destruct IH as [->|[(l0 & ->)|[(l0 & ->)|[(l0 & ->)|(l0 & l1 & ->)]]]]; cbn in E; try discriminate E;
    ((injection E as <- <-) || (injection E as <-)); try (unfold chan_carries in Hc; subst); cbn [app]; eauto 10.
Qed.
Lemma chan_feasible1 h : feasible chan_carries (chan_gs 1) h ->
  h = [] \/ (exists l, h = [Begun 1 chan_B; Saw 1 l]) \/ (exists l, h = [Begun 1 chan_B; Saw 1 l; Got 0 0]) \/
  (exists l, h = [Begun 1 chan_B; Saw 1 l; Got 0 0; Sent 1 1]) \/ (exists l l', h = [Begun 1 chan_B; Saw 1 l; Got 0 0; Sent 1 1; Begun 0 chan_A2; Saw 0 l']).
Proof.
  induction 1 as [|h c i _ IH E Hc|h c i _ IH E|h i acts l _ IH E]; [tauto|..];
    destruct IH as [->|[(l0 & ->)|[(l0 & ->)|[(l0 & ->)|(l0 & l1 & ->)]]]]; cbn in E; try discriminate E;
    ((injection E as <- <-) || (injection E as <-)); try (unfold chan_carries in Hc; subst); cbn [app]; eauto 10.
Qed.
Lemma chan_follows i rt : hand_rts !! i = Some rt ->
  (i = 0%nat -> Forall (follows (length (objs go_R)) (length (held go_R)) rt) (chan_A ++ chan_A2)) /\
  (i = 1%nat -> Forall (follows (length (objs go_R)) (length (held go_R)) rt) (chan_B ++ chan_B2)).
Proof.
  assert (EO : length (objs go_R) = 3%nat) by (vm_compute; reflexivity). assert (EH : length (held go_R) = 1%nat) by (vm_compute; reflexivity). rewrite EO, EH. clear.
  intros E. split; intros ->; injection E as <-; cbn [app chan_A chan_A2 chan_B chan_B2];
    ((repeat apply Forall_cons_2); [cbn; unfold uses, sees, writes; cbn; intuition lia..|apply Forall_nil_2]).
Qed.
Lemma chan_keeps : keeps (length (objs go_R)) (length (held go_R)) hand_rts [0; 1]%nat chan_carries chan_gs.
Proof.
  intros g h x Hf E. destruct g as [|[|g]]; [| |destruct h; discriminate E].
  - destruct (chan_feasible0 h Hf) as [->|[(l & ->)|[(l & ->)|[(l & ->)|(l & l' & ->)]]]]; cbn in E; try discriminate E; injection E as <-.
    + split; [reflexivity|]. intros rt Hrt. exact (proj1 (proj1 (Forall_app _ _ _) (proj1 (chan_follows _ _ Hrt) eq_refl))).
    + split; reflexivity.
    + exact Logic.I.
    + split; [reflexivity|]. intros rt Hrt. exact (proj2 (proj1 (Forall_app _ _ _) (proj2 (chan_follows _ _ Hrt) eq_refl))).
  - destruct (chan_feasible1 h Hf) as [->|[(l & ->)|[(l & ->)|[(l & ->)|(l & l' & ->)]]]]; cbn in E; try discriminate E; injection E as <-.
    + split; [reflexivity|]. intros rt Hrt. exact (proj1 (proj1 (Forall_app _ _ _) (proj2 (chan_follows _ _ Hrt) eq_refl))).
    + exact Logic.I.
    + split; reflexivity.
    + split; [reflexivity|]. intros rt Hrt. exact (proj2 (proj1 (Forall_app _ _ _) (proj1 (chan_follows _ _ Hrt) eq_refl))).
Qed.

Inductive ncmd := Do (g : nat) | NGo (g k : nat) | Fin (g : nat).
Section drive.
Context (gs : nat -> strategy).
Definition ndrive1 (c : ncmd) (w : net) : option net :=
  let '(mkNet G L V X Q) := w in
  match c with
  | Do g =>
    match X g, gs g (mine g L) with
    | None, Some (Recv c) => match Q c with (i, R) :: q => Some (mkNet G (L ++ [(g, Got c i)]) (upd V g (upd (V g) i R)) X (upd Q c q)) | [] => None end
    | None, Some (Send c i) => Some (mkNet G (L ++ [(g, Sent c i)]) V X (upd Q c (Q c ++ [(i, V g i)])))
    | None, Some (Exec i acts) => Some (mkNet G (L ++ [(g, Begun i acts)]) V (upd X g (Some (i, c_client 10 go_grow (V g i) acts))) Q)
    | _, _ => None
    end
  | NGo g k =>
    match X g with
    | Some (i, p) => match accesses go_al k G p with Some (G', p') => Some (mkNet G' L V (upd X g (Some (i, p'))) Q) | None => None end
    | None => None
    end
  | Fin g =>
    match X g with
    | Some (i, p) => match run go_al ∅ G p with Some (Ok (l, R), G') => Some (mkNet G' (L ++ [(g, Saw i l)]) (upd V g (upd (V g) i R)) (upd X g None) Q) | _ => None end
    | None => None
    end
  end.
Fixpoint ndrive (cs : list ncmd) (w : net) : option net :=
  match cs with [] => Some w | c :: cs => match ndrive1 c w with Some w => ndrive cs w | None => None end end.
(** Equal but for how the functions are written. *)
Definition alike (w w' : net) : Prop :=
  n_mem w = n_mem w' /\ n_log w = n_log w' /\ n_vars w = n_vars w' /\ n_chan w = n_chan w' /\ forall g, n_runs w g = n_runs w' g.
Lemma net_tsteps G p G' p' : tsteps G p G' p' -> forall L V X Q g i w, X g = Some (i, p) ->
  net_steps 10 go_grow gs w (mkNet G L V X Q) -> exists X', X' g = Some (i, p') /\ (forall j, j <> g -> X' j = X j) /\ net_steps 10 go_grow gs w (mkNet G' L V X' Q).
Proof.
  induction 1 as [H p|H p H1 p1 H2 p2 St T IH]; intros L V X Q g i w HX Hw; [eauto|].
  destruct (IH L V (upd X g (Some (i, p1))) Q g i w) as (X' & E1 & E2 & E3); [apply upd_eq|eapply net_steps_step; [exact Hw|]; eapply s_access; eassumption|].
  exists X'. split; [exact E1|]. split; [|exact E3]. intros j Hj. rewrite E2 by exact Hj. apply upd_ne, Hj.
Qed.
Lemma ndrive1_ok c w0 w w1 w' : ndrive1 c w = Some w1 -> alike w w' -> net_steps 10 go_grow gs w0 w' ->
  exists w1', alike w1 w1' /\ net_steps 10 go_grow gs w0 w1'.
Proof.
  destruct w as [G L V X Q], w' as [G' L' V' X' Q']. intros E (E1 & E2 & E3 & E4 & E5) Hw. cbn [n_mem n_log n_vars n_chan n_runs] in *. subst G' L' V' Q'.
  destruct c as [g|g k|g]; cbn [ndrive1] in E; pose proof (E5 g) as Eg; destruct (X g) as [[i p]|]; try discriminate E; symmetry in Eg.
  - destruct (gs g (mine g L)) as [[c|c i|i acts]|] eqn:Hg; try discriminate E.
    + destruct (Q c) as [|[i R] q] eqn:HQ; [discriminate E|]. injection E as <-. eexists. split; [|eapply net_steps_step; [exact Hw|eapply s_recv; [eassumption|eassumption|rewrite HQ; reflexivity]]]. repeat split; auto.
    + injection E as <-. eexists. split; [|eapply net_steps_step; [exact Hw|eapply s_send; eassumption]]. repeat split; auto.
    + injection E as <-. eexists. split; [|eapply net_steps_step; [exact Hw|eapply s_exec; eassumption]]. repeat split; auto.
      intros j. cbn. destruct (decide (j = g)) as [->|Hj]; [rewrite !upd_eq; reflexivity|rewrite !upd_ne by exact Hj; apply E5].
  - destruct (accesses go_al k G p) as [[G' p']|] eqn:EA; [|discriminate E]. injection E as <-.
    destruct (net_tsteps _ _ _ _ (accesses_tsteps _ _ _ _ _ _ EA) L V X' Q g i w0 Eg Hw) as (X2 & H1 & H2 & H3). eexists. split; [|exact H3]. repeat split; auto.
    intros j. cbn. destruct (decide (j = g)) as [->|Hj]; [rewrite upd_eq; auto|rewrite upd_ne, H2 by exact Hj; apply E5].
  - destruct (run go_al ∅ G p) as [[[[l R]| | |] G']|] eqn:EA; try discriminate E. injection E as <-.
    destruct (net_tsteps _ _ _ _ (run_tsteps _ _ _ _ _ EA) L V X' Q g i w0 Eg Hw) as (X2 & H1 & H2 & H3).
    eexists. split; [|eapply net_steps_step; [exact H3|eapply s_end; exact H1]]. repeat split; auto.
    intros j. cbn. destruct (decide (j = g)) as [->|Hj]; [rewrite !upd_eq; auto|rewrite !upd_ne, H2 by exact Hj; apply E5].
Qed.
Lemma ndrive_ok cs : forall w0 w w1 w', ndrive cs w = Some w1 -> alike w w' -> net_steps 10 go_grow gs w0 w' ->
  exists w1', alike w1 w1' /\ net_steps 10 go_grow gs w0 w1'.
Proof.
  induction cs as [|c cs IH]; intros w0 w w1 w' E Ha Hw; cbn [ndrive] in E; [injection E as <-; eauto|].
  destruct (ndrive1 c w) as [w2|] eqn:E2; [|discriminate E]. destruct (ndrive1_ok _ _ _ _ _ E2 Ha Hw) as (w2' & Ha2 & Hw2). exact (IH _ _ _ _ E Ha2 Hw2).
Qed.
Lemma alike_refl w : alike w w.
Proof. repeat split. Qed.
End drive.

Definition chan_cmds : list ncmd :=
  [Do 0; NGo 0 4; Do 1; NGo 1 6; Fin 0; Do 0; NGo 1 5; Fin 1; Do 1; Do 1; Do 1; NGo 1 3; Do 0; Do 0; NGo 0 1; Fin 1; Fin 0].
Definition chan_end : net := match ndrive chan_gs chan_cmds (net_start go_G go_R) with Some w => w | None => net_start ∅ no_regs end.
Example C88_case :
  divided go_R go_G hand_rts /\ keeps (length (objs go_R)) (length (held go_R)) hand_rts [0; 1]%nat chan_carries chan_gs /\
  (exists w, alike chan_end w /\ net_steps 10 go_grow chan_gs (net_start go_G go_R) w) /\
  map (fun e => match snd e with Begun i acts => (fst e, i, length acts, true) | Got _ i | Sent _ i => (fst e, i, 0%nat, true) | Saw i l => (fst e, i, length l, false) end) (n_log chan_end) =
    [(0, 0, 2, true); (1, 1, 2, true); (0, 0, 2, false); (0, 0, 0, true); (1, 1, 2, false); (1, 0, 0, true); (1, 1, 0, true); (1, 0, 4, true); (0, 1, 0, true);
     (0, 1, 2, true); (1, 0, 4, false); (0, 1, 2, false)]%nat /\
  calls_on 0 (n_log chan_end) = chan_A ++ chan_A2 /\ calls_on 1 (n_log chan_end) = chan_B ++ chan_B2 /\
  seen_on 0 (n_log chan_end) = [Some (SawSlice (Some (mkSl 0 4 2 2))); Some SawNothing; Some (SawValue (VNum 7)); Some SawNothing; Some (SawError false); Some SawNothing] /\
  seen_on 1 (n_log chan_end) = [Some (SawValue (VNum 5)); Some SawNothing; Some (SawSlice (Some (mkSl 3 0 12 32))); Some (SawBytes [18; 10; 9; 9; 9; 9; 9; 9; 9; 9; 9; 9])] /\
  exists R', rests [0; 1]%nat chan_end 0 R'.
Proof.
  split; [exact hand_divided|]. split; [exact chan_keeps|]. split.
  - assert (H : match ndrive chan_gs chan_cmds (net_start go_G go_R) with Some _ => true | None => false end = true) by (vm_compute; reflexivity).
    pose proof (fun w => ndrive_ok chan_gs chan_cmds (net_start go_G go_R) (net_start go_G go_R) w (net_start go_G go_R)) as HD.
    unfold chan_end. destruct (ndrive chan_gs chan_cmds (net_start go_G go_R)) as [w|]; [|discriminate H]. exact (HD w eq_refl (alike_refl _) (net_steps_refl _ _ _ _)).
  - split_and!; [vm_compute; reflexivity..|]. eexists. right. exists 1%nat. split_and!; [vm_compute; reflexivity|reflexivity|].
    assert (H : match n_runs chan_end 1 with None => true | Some _ => false end = true) by (vm_compute; reflexivity).
    intros p. destruct (n_runs chan_end 1); [discriminate H|discriminate].
Qed.

(** A goroutine that goes on with a parcel it has sent races with the one that gets it. *)
Definition bad_gs (g : nat) : strategy := fun h =>
  match g, h with
  | 0%nat, [] => Some (Send 0 0)
  | 0%nat, [_] => Some (Exec 0 [ASet 1 1 PUint64 (VNum 7)])
  | 1%nat, [] => Some (Recv 0)
  | 1%nat, [Got _ i] => Some (Exec i [AGet 1 1 PUint64])
  | _, _ => None
  end.
Definition race_at (k j : nat) : bool :=
  match ndrive bad_gs [Do 0; Do 1; Do 0; Do 1; NGo 0 k; NGo 1 j] (net_start go_G go_R) with
  | Some w => match n_runs w 0%nat, n_runs w 1%nat with
    | Some (_, p), Some (_, q) => match next p, next q with Some (l, w1), Some (l', w2) => bool_decide (l = l') && (w1 || w2) | _, _ => false end
    | _, _ => false
    end
  | None => false
  end.
Lemma race_at_ok k j : race_at k j = true -> exists w, net_steps 10 go_grow bad_gs (net_start go_G go_R) w /\ net_race w.
Proof.
  unfold race_at. pose proof (fun w => ndrive_ok bad_gs [Do 0; Do 1; Do 0; Do 1; NGo 0 k; NGo 1 j] (net_start go_G go_R) (net_start go_G go_R) w (net_start go_G go_R)) as HD.
  destruct (ndrive bad_gs _ _) as [w|]; [|discriminate]. destruct (HD w eq_refl (alike_refl _) (net_steps_refl _ _ _ _)) as (w' & (_ & _ & _ & _ & E) & Hw). clear HD.
  destruct (n_runs w 0%nat) as [[i p]|] eqn:E0; [|discriminate]. destruct (n_runs w 1%nat) as [[i' q]|] eqn:E1; [|discriminate].
  destruct (next p) as [[l w1]|] eqn:Np; [|discriminate]. destruct (next q) as [[l' w2]|] eqn:Nq; [|discriminate].
  intros H. apply andb_true_iff in H as [H1 H2]. apply bool_decide_eq_true in H1 as <-. apply orb_true_iff in H2. exists w'. split; [exact Hw|].
  exists 0%nat, 1%nat, i, i', p, q, l, w1, w2. rewrite <- !E. split_and!; auto.
Qed.
Example C88_sent : exists w, net_steps 10 go_grow bad_gs (net_start go_G go_R) w /\ net_race w.
Proof. apply (race_at_ok 6 1). vm_compute. reflexivity. Qed.

Print Assumptions C88_passed_on.
Print Assumptions C88_specified.
Print Assumptions C88_then.
Print Assumptions C88_case.
Print Assumptions C88_sent.
