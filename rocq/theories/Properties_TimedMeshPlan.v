(** C51: a protocol with a timetable can be executed in time.

    The machine is that of Session.v, Mesh.v and TimedMesh.v; timetables and real time are defined in
    TimedMeshPlan.v. *)
From Coq Require Import ZArith Bool Lia List.
From Verif Require Import Types Wiring Session Mesh MeshGlobal Timed TimedProofs TimedMesh TimedMeshProofs Global
  Properties_Mesh Properties_Global Properties_TimedMesh TimedMeshPlan TimedMeshPlanProofs.
Import ListNotations.
Open Scope nat_scope.

(** There is a run of all roles from the beginning to the end: all operations happen in the order of one real
    time, between the beginning and the end of the timetable; every role starts its clocks when it enters a
    round and never otherwise; every role keeps all its windows; nobody crashes or gives up waiting; all roles
    end with Ok and hold nothing. *)
Theorem timetable_runs : forall n labels P W BW cs N pick base plan,
  wf_protocol n labels P -> timetable n labels P W BW cs N pick base plan ->
  exists now tr st v,
    on_clock heap_ops n (branches P n) BW labels now cs cs (base 0) (tstart n (proj n (first_round P)) W) tr st v /\
    punctual heap_ops n (branches P n) BW labels now (tstart n (proj n (first_round P)) W) tr st /\
    (v <= base (S N))%Z /\
    forall p, 1 <= p <= n -> tresult st p = Some ROk /\ t_trash (tm_thr (ts_thr st p)) = [].
Proof.
  intros n labels P W BW cs N pick base plan wf timed.
  destruct (plan_runs n labels P W BW cs N pick base plan wf timed) as (now & tr & st & v & H1 & H2 & H3 & H4).
  exists now, tr, st, v. split; [exact H1|]. split; [exact H2|]. split; [exact H3|].
  intros p Hp. destruct (H4 p Hp) as [E1 E2]. unfold tresult. rewrite E1. auto.
Qed.
Print Assumptions timetable_runs.

(** ** Example: three roles, a choice, two clocks, one of which is restarted *)

Definition relay : protocol :=
  Protocol ([Msg3 1 2 7], GChoose 2 0)
    (fun b l => match l with 0 => ([Msg3 2 3 8; Msg3 3 1 9; Msg3 2 3 8], GEnd) | _ => ([], GEnd) end).
Example relay_wf : wf_protocol 3 ask_labels relay.
Proof.
  split; [lia|]. split; [split; [repeat constructor; cbn; lia|cbn; unfold ask_labels; lia]|].
  intros b [|l] H; (split; [|exact I]); repeat constructor; cbn; lia.
Qed.

(** Windows on clocks a = 97 and b = 98; the second one restarts clock a; 32 restarts nothing. *)
Definition in10 : window := Window 97 0 true 10 true 32.
Definition after2 : window := Window 97 2 false 5 true 97.
Definition between : window := Window 98 4 true 9 false 32.
Definition soon : window := Window 97 0 true 3 true 32.
Definition secs (t : Z) : Z := (t * second)%Z.
Definition relay_plan (g : nat) : list entry :=
  match g with
  | 0 => [Entry (Msg3 1 2 7) in10 (secs 1) (secs 2)]
  | _ => [Entry (Msg3 2 3 8) after2 (secs 5) (secs 6); Entry (Msg3 3 1 9) between (secs 6) (secs 7);
          Entry (Msg3 2 3 8) soon (secs 7) (secs 8)]
  end.
Definition relay_base (g : nat) : Z := match g with 0 => 0%Z | 1 => secs 2 | _ => secs 8 end.
Definition relay_W (p : nat) : list (list window) :=
  match p with 1 => [[in10; free_window]; []] | 2 => [[in10; free_window]; [free_window]] | _ => [[]; [free_window]] end.
Definition relay_BW (b l p : nat) : list (list window) :=
  match p with 1 => [[]; [between]] | 2 => [[]; [after2; soon]] | _ => [[between]; [after2; soon]] end.

Example relay_timetable : timetable 3 ask_labels relay relay_W relay_BW (fun _ => [97; 98]) 1 (fun _ => 0) relay_base relay_plan.
Proof.
  assert (two : forall g, g <= 1 -> g = 0 \/ g = 1) by (intros; lia).
  constructor.
  - reflexivity.
  - intros g H. assert (g = 0) as -> by lia. exists 2, 0. split; [reflexivity|unfold ask_labels; lia].
  - intros g H. destruct (two g H) as [->| ->]; reflexivity.
  - intros g H. destruct (two g H) as [->| ->]; vm_compute; discriminate.
  - intros g H. destruct (two g H) as [->| ->]; vm_compute; intuition discriminate.
  - intros g e H Hin. destruct (two g H) as [->| ->]; cbn in Hin; intuition (subst; vm_compute; discriminate).
  - intros g e H Hin. destruct (two g H) as [->| ->]; cbn in Hin; intuition (subst; vm_compute; discriminate).
  - intros g e p H Hin _. destruct (two g H) as [->| ->]; cbn in Hin; intuition (subst; cbn; tauto).
  - intros p Hp. assert (p = 1 \/ p = 2 \/ p = 3) as [->|[->| ->]] by lia; reflexivity.
  - intros g p c b H Hp E. assert (g = 0) as -> by lia. assert (p = 1 \/ p = 2 \/ p = 3) as [->|[->| ->]] by lia; reflexivity.
Qed.
Example relay_runs : exists now tr st v,
  on_clock heap_ops 3 (branches relay 3) relay_BW ask_labels now (fun _ => [97; 98]) (fun _ => [97; 98]) 0%Z (tstart 3 (proj 3 (first_round relay)) relay_W) tr st v /\
  (v <= secs 8)%Z /\ (tresult st 1, tresult st 2, tresult st 3) = (Some ROk, Some ROk, Some ROk).
Proof.
  destruct (timetable_runs _ _ _ _ _ _ _ _ _ _ relay_wf relay_timetable) as (now & tr & st & v & H1 & _ & H3 & H4).
  exists now, tr, st, v. split; [exact H1|]. split; [exact H3|].
  destruct (H4 1 ltac:(lia)) as [-> _], (H4 2 ltac:(lia)) as [-> _], (H4 3 ltac:(lia)) as [-> _]. reflexivity.
Qed.
