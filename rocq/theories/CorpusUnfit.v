(** Protocols of tests/checking_mod that no mesh of the library can run: see Properties_Corpus.v. The types of the role that
    chooses are those given to [checker_concat!]. Model only. *)
From Coq Require Import List.
From Verif Require Import Types Session Mesh Proto.
Import ListNotations.

(** tests/checking_mod/complex/alternating_bit.rs. Roles: 1 = A, 2 = B. Payloads: 0 = D0, 1 = A0, 2 = D1, 3 = A1. Choice
    0: A chooses (Branches0BfromA, :62-66): 0 = End, 1 = Start, 2 = Stop. Choice 1: B chooses (Branches1AfromB, :43-47): 0
    = End, 1 = Looping, 2 = Extend. Choice 2: B chooses (Branches2AfromB, :51-55): 0 = End, 1 = Looping, 2 = Extend. *)
Definition alternating_bit : proto := mkproto
  [
    (* A: EndpointAFull, :74 *) ([Snd (PChoice 0 2) End], SBroadcast);
    (* B: EndpointBFull, :85 *) ([Rcv (PChoice 0 2) End], SRole 1 SEnd)
  ]
  [[
    (* 0.0 End *) [
      (* A: EndpointAEnd, :71 *) ([End], SEnd);
      (* B: :63 *) ([End], SEnd)];
    (* 0.1 Start *) [
      (* A: EndpointAStart, :72 *) ([Snd (PVal 0) (Rcv (PChoice 1 1) End)], SRole 2 (SRole 2 SEnd));
      (* B: :64 *) ([Rcv (PVal 0) (Snd (PVal 1) (Snd (PChoice 1 1) End))], SRole 1 (SRole 1 SBroadcast))];
    (* 0.2 Stop *) [
      (* A: EndpointAStop, :73 *) ([End], SEnd);
      (* B: :65 *) ([Rcv (PVal 2) End], SRole 1 SEnd)]
  ];  [
    (* 1.0 End *) [
      (* A: :44 *) ([End], SEnd);
      (* B: EndpointBEnd1, :77 *) ([End], SEnd)];
    (* 1.1 Looping *) [
      (* A: :45 *) ([Rcv (PVal 3) (Snd (PVal 0) (Rcv (PChoice 1 1) End))], SRole 2 (SRole 2 (SRole 2 SEnd)));
      (* B: EndpointBLooping1, :78-79 *) ([Rcv (PVal 0) (Snd (PVal 1) (Snd (PChoice 1 1) End))], SRole 1 (SRole 1 SBroadcast))];
    (* 1.2 Extend *) [
      (* A: :46 *) ([Rcv (PVal 1) (Snd (PVal 2) (Rcv (PChoice 2 1) End))], SRole 2 (SRole 2 (SRole 2 SEnd)));
      (* B: EndpointBExtend1, :80-81 *) ([Rcv (PVal 2) (Snd (PVal 3) (Rcv (PChoice 0 2) End))], SRole 1 (SRole 1 (SRole 1 SEnd)))]
  ];  [
    (* 2.0 End *) [
      (* A: :52 *) ([End], SEnd);
      (* B: EndpointBEnd2, :82 *) ([End], SEnd)];
    (* 2.1 Looping *) [
      (* A: :53 *) ([Rcv (PVal 1) (Snd (PVal 2) (Rcv (PChoice 2 1) End))], SRole 2 (SRole 2 (SRole 2 SEnd)));
      (* B: EndpointBLooping2, :83 *) ([End], SEnd)];
    (* 2.2 Extend *) [
      (* A: :54 *) ([Rcv (PVal 3) (Snd (PChoice 0 2) End)], SRole 2 SBroadcast);
      (* B: EndpointBExtend2, :84 *) ([End], SEnd)]
  ]].

(** tests/checking_mod/complex/async_paper_ext_rev_sync.rs. Roles: 1 = C, 2 = M, 3 = S. Payloads: 0 = Req, 1 = Data, 2 =
    Okay, 3 = Log, 4 = Error, 5 = Ko. Choice 0: C chooses (Branches0MfromC, :56-59, Branches0SfromC, :72-77): 0 = End, 1 =
    Looping. Choice 1: S chooses (Branches1CfromS, :47-51, Branches1MfromS, :63-67): 0 = Okay, 1 = Error, 2 = Ko. *)
Definition async_paper_ext_rev_sync : proto := mkproto
  [
    (* C: EndpointCFull, :105 *) ([Snd (PChoice 0 2) End; Snd (PChoice 0 3) End], SBroadcast);
    (* M: EndpointMFull, :98 *) ([Rcv (PChoice 0 2) End; End], SRole 1 SEnd);
    (* S: EndpointSFull, :95 *) ([Rcv (PChoice 0 3) End; End], SRole 1 SEnd)
  ]
  [[
    (* 0.0 End *) [
      (* C: EndpointCEnd, :101 *) ([End; End], SEnd);
      (* M: :57 *) ([End; End], SEnd);
      (* S: :73 *) ([End; End], SEnd)];
    (* 0.1 Looping *) [
      (* C: EndpointCLooping, :102-103 *) ([End; Snd (PVal 0) (Snd (PVal 1) (Rcv (PChoice 1 1) End))], SRole 3 (SRole 3 (SRole 3 SEnd)));
      (* M: :58 *) ([End; Rcv (PChoice 1 2) End], SRole 3 SEnd);
      (* S: :74-76 *) ([Rcv (PVal 0) (Snd (PChoice 1 1) End); Snd (PChoice 1 2) End], SRole 1 SBroadcast)]
  ];  [
    (* 1.0 Okay *) [
      (* C: :48 *) ([End; Rcv (PVal 2) End], SRole 3 SEnd);
      (* M: :64 *) ([End; End], SEnd);
      (* S: EndpointSOkay, :85-90 *) ([Snd (PVal 2) (Rcv (PVal 1) End); Rcv (PVal 3) End], SRole 1 (SRole 1 (SRole 2 SEnd)))];
    (* 1.1 Error *) [
      (* C: :49 *) ([End; Rcv (PVal 4) End], SRole 3 SEnd);
      (* M: :65 *) ([End; Snd (PVal 3) End], SRole 3 SEnd);
      (* S: EndpointSError, :91 *) ([End; End], SEnd)];
    (* 1.2 Ko *) [
      (* C: :50 *) ([Snd (PChoice 0 2) End; Rcv (PVal 5) (Snd (PChoice 0 3) End)], SRole 3 SBroadcast);
      (* M: :66 *) ([Rcv (PChoice 0 2) End; End], SRole 1 SEnd);
      (* S: EndpointSKo, :92-93 *) ([Snd (PVal 5) (Rcv (PVal 1) (Rcv (PChoice 0 3) End)); End], SRole 1 (SRole 1 (SRole 1 SEnd)))]
  ]].

(** tests/checking_mod/complex/cloud_system.rs. Roles: 1 = A, 2 = B, 3 = C, 4 = D. Payloads: 0 = Connect, 1 = SyncAccess,
    2 = Setup, 3 = Access, 4 = SyncLogout, 5 = SyncLog, 6 = Logout, 7 = Log. Choice 0: A chooses (Branches0BfromA, :57-60,
    Branches0CfromA, :80-83, Branches0DfromA, :103-106): 0 = End, 1 = Connect. Choice 1: A chooses (Branches1BfromA,
    :64-75, Branches1CfromA, :87-98, Branches1DfromA, :110-113): 0 = Looping, 1 = Logging. *)
Definition cloud_system : proto := mkproto
  [
    (* A: EndpointAFull, :140-141 *) ([Snd (PChoice 0 2) End; Snd (PChoice 0 3) End; Snd (PChoice 0 4) End], SBroadcast);
    (* B: EndpointBFull, :144 *) ([Rcv (PChoice 0 2) End; End; End], SRole 1 SEnd);
    (* C: EndpointCFull, :147 *) ([Rcv (PChoice 0 3) End; End; End], SRole 1 SEnd);
    (* D: EndpointDFull, :150 *) ([Rcv (PChoice 0 4) End; End; End], SRole 1 SEnd)
  ]
  [[
    (* 0.0 End *) [
      (* A: EndpointAEnd, :118 *) ([End; End; End], SEnd);
      (* B: :58 *) ([End; End; End], SEnd);
      (* C: :81 *) ([End; End; End], SEnd);
      (* D: :104 *) ([End; End; End], SEnd)];
    (* 0.1 Connect *) [
      (* A: EndpointAConnect, :119-125 *) ([Snd (PChoice 1 2) End; Snd (PVal 0) (Rcv (PVal 1) (Snd (PChoice 1 3) End)); Snd (PChoice 1 4) End], SRole 3 (SRole 3 SBroadcast));
      (* B: :59 *) ([Rcv (PChoice 1 2) End; Rcv (PVal 2) End; End], SRole 3 (SRole 1 SEnd));
      (* C: :82 *) ([Rcv (PVal 0) (Rcv (PChoice 1 3) End); End; End], SRole 1 (SRole 1 SEnd));
      (* D: :105 *) ([Rcv (PChoice 1 4) End; End; End], SRole 1 SEnd)]
  ];  [
    (* 1.0 Looping *) [
      (* A: EndpointALooping, :126-132 *) ([Snd (PVal 3) (Snd (PChoice 1 2) End); Snd (PChoice 1 3) End; Snd (PChoice 1 4) End], SRole 2 SBroadcast);
      (* B: :65 *) ([Rcv (PVal 3) (Rcv (PChoice 1 2) End); End; End], SRole 1 (SRole 1 SEnd));
      (* C: :88 *) ([Rcv (PChoice 1 3) End; End; End], SRole 1 SEnd);
      (* D: :111 *) ([Rcv (PChoice 1 3) End; End; End], SRole 1 SEnd)];
    (* 1.1 Logging *) [
      (* A: EndpointALogging, :133-139 *) ([Snd (PVal 4) (Rcv (PVal 5) (Snd (PChoice 0 2) End)); Snd (PVal 6) (Snd (PChoice 0 3) End); Snd (PChoice 0 4) End], SRole 3 (SRole 2 (SRole 2 SBroadcast)));
      (* B: :66-74 *) ([Rcv (PVal 4) (Snd (PVal 5) (Rcv (PChoice 0 2) End)); End; Snd (PVal 7) End], SRole 1 (SRole 4 (SRole 1 (SRole 1 SEnd))));
      (* C: :89-97 *) ([Snd (PVal 1) (Rcv (PVal 6) (Rcv (PChoice 0 3) End)); Snd (PVal 2) End; End], SRole 2 (SRole 1 (SRole 1 (SRole 1 SEnd))));
      (* D: :112 *) ([Rcv (PChoice 0 4) End; Rcv (PVal 7) End; End], SRole 2 (SRole 1 SEnd))]
  ]].

(** tests/checking_mod/complex/inf_snd_rcv.rs. Roles: 1 = A, 2 = B. Payloads: 0 = i32, 1 = i64. Choice 0: B chooses
    (Branches0AfromB, :41-45): 0 = End, 1 = Looping, 2 = Extend. Choice 1: B chooses (Branches1AfromB, :49-53): 0 = End, 1
    = Looping, 2 = Extend. *)
Definition inf_snd_rcv : proto := mkproto
  [
    (* A: EndpointAFull, :63 *) ([Rcv (PChoice 0 1) End], SRole 2 SEnd);
    (* B: EndpointBFull, :72 *) ([Snd (PChoice 0 1) End], SBroadcast)
  ]
  [[
    (* 0.0 End *) [
      (* A: :42 *) ([End], SEnd);
      (* B: EndpointBEnd0, :66 *) ([End], SEnd)];
    (* 0.1 Looping *) [
      (* A: :43 *) ([Snd (PVal 0) (Rcv (PChoice 0 1) End)], SRole 2 (SRole 2 SEnd));
      (* B: EndpointBLooping0, :67 *) ([Snd (PVal 0) (Snd (PChoice 0 1) End)], SRole 1 SBroadcast)];
    (* 0.2 Extend *) [
      (* A: :44 *) ([Snd (PVal 1) (Rcv (PChoice 1 1) End)], SRole 2 (SRole 2 SEnd));
      (* B: EndpointBExtend0, :68 *) ([Snd (PVal 1) (Snd (PChoice 1 1) End)], SRole 1 SBroadcast)]
  ];  [
    (* 1.0 End *) [
      (* A: :50 *) ([End], SEnd);
      (* B: EndpointBEnd1, :69 *) ([End], SEnd)];
    (* 1.1 Looping *) [
      (* A: :51 *) ([Rcv (PVal 0) (Rcv (PChoice 1 1) End)], SRole 2 (SRole 2 SEnd));
      (* B: EndpointBLooping1, :70 *) ([Rcv (PVal 0) (Snd (PChoice 1 1) End)], SRole 1 SBroadcast)];
    (* 1.2 Extend *) [
      (* A: :52 *) ([Rcv (PVal 1) End], SRole 2 SEnd);
      (* B: EndpointBExtend1, :71 *) ([Rcv (PVal 1) End], SRole 1 SEnd)]
  ]].

(** All of them: tests/checking_mod/complex. *)
Definition unfit : list proto := [alternating_bit; async_paper_ext_rev_sync; cloud_system; inf_snd_rcv].
