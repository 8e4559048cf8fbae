(** The protocols written out in examples/ and tests/ of the repository, as tables of types. Each was transcribed from the file
    named first; the files named last declare the same types up to the names of payloads, branches and roles, the constants of
    [SendTimed] and [RecvTimed] (examples/atmp, examples/rate_based_atmp, tests/baking_atmp_mod) left out. Model only. *)
From Coq Require Import List.
From Verif Require Import Types Session Mesh Proto.
Import ListNotations.

(** examples/mpst/calculator.rs. Roles: 1 = C, 2 = S. Payloads: 0 = i32. Choice 0: C chooses (Branching0fromCtoS, :20-23):
    0 = Sum, 1 = Diff. The same types: examples/ampst/calculator.rs, examples/atmp/calculator.rs. *)
Definition calculator : proto := mkproto
  [
    (* C: EndpointC, :27-28 *) ([Snd (PVal 0) (Snd (PVal 0) (Snd (PChoice 0 2) End))], SRole 2 (SRole 2 SBroadcast));
    (* S: EndpointS, :33-37 *) ([Rcv (PVal 0) (Rcv (PVal 0) (Rcv (PChoice 0 2) End))], SRole 1 (SRole 1 (SRole 1 SEnd)))
  ]
  [[
    (* 0.0 Sum *) [
      (* C: EndpointCSum, :29 *) ([Rcv (PVal 0) End], SRole 2 SEnd);
      (* S: :21 *) ([Snd (PVal 0) End], SRole 1 SEnd)];
    (* 0.1 Diff *) [
      (* C: EndpointCDiff, :30 *) ([Rcv (PVal 0) End], SRole 2 SEnd);
      (* S: :22 *) ([Snd (PVal 0) End], SRole 1 SEnd)]
  ]].

(** examples/mpst/circuit_breaker.rs. Roles: 1 = Api, 2 = Controller, 3 = Storage, 4 = User. Payloads: 0 = i32. Choice 0:
    Controller chooses (Branching0fromCtoA, :17-43, Branching0fromCtoS, :52-72, Branching0fromCtoU, :76-96): 0 = Up, 1 =
    Down, 2 = Close. The same types: examples/basic/circuit_breaker.rs, examples/ampst/circuit_breaker.rs,
    examples/atmp/circuit_breaker.rs. *)
Definition circuit_breaker : proto := mkproto
  [
    (* Api: EndpointApiInit, :108-114 *) ([Rcv (PVal 0) (Snd (PVal 0) (Rcv (PChoice 0 1) End)); End; Rcv (PVal 0) End], SRole 2 (SRole 4 (SRole 2 (SRole 2 SEnd))));
    (* Controller: EndpointControllerInit, :140-146 *) ([Snd (PVal 0) (Rcv (PVal 0) (Snd (PChoice 0 1) End)); Snd (PVal 0) (Rcv (PVal 0) (Snd (PChoice 0 3) End)); Snd (PChoice 0 4) End], SRole 3 (SRole 1 (SRole 3 (SRole 1 SBroadcast))));
    (* Storage: EndpointStorageInit, :151-157 *) ([End; Rcv (PVal 0) (Snd (PVal 0) (Rcv (PChoice 0 3) End)); End], SRole 2 (SRole 2 (SRole 2 SEnd)));
    (* User: EndpointUserInit, :160-166 *) ([Snd (PVal 0) End; Rcv (PChoice 0 4) End; End], SRole 1 (SRole 2 SEnd))
  ]
  [[
    (* 0.0 Up *) [
      (* Api: :18-30 *) ([Rcv (PVal 0) (Snd (PVal 0) (Rcv (PChoice 0 1) End)); Snd (PVal 0) (Rcv (PVal 0) End); Snd (PVal 0) (Rcv (PVal 0) End)], SRole 2 (SRole 3 (SRole 3 (SRole 4 (SRole 4 (SRole 2 (SRole 2 SEnd)))))));
      (* Controller: EndpointControllerUp, :124-130 *) ([Snd (PVal 0) (Rcv (PVal 0) (Snd (PChoice 0 1) End)); Snd (PChoice 0 3) End; Snd (PChoice 0 4) End], SRole 1 (SRole 1 SBroadcast));
      (* Storage: :53-61 *) ([Rcv (PVal 0) (Snd (PVal 0) End); Rcv (PChoice 0 3) End; End], SRole 1 (SRole 1 (SRole 2 SEnd)));
      (* User: :77-85 *) ([Rcv (PVal 0) (Snd (PVal 0) End); Rcv (PChoice 0 4) End; End], SRole 1 (SRole 1 (SRole 2 SEnd)))];
    (* 0.1 Down *) [
      (* Api: :31-39 *) ([Rcv (PVal 0) (Snd (PVal 0) (Rcv (PChoice 0 1) End)); End; Snd (PVal 0) (Rcv (PVal 0) End)], SRole 2 (SRole 4 (SRole 4 (SRole 2 (SRole 2 SEnd)))));
      (* Controller: EndpointControllerDown, :117-123 *) ([Snd (PVal 0) (Rcv (PVal 0) (Snd (PChoice 0 1) End)); Snd (PVal 0) (Snd (PChoice 0 3) End); Snd (PChoice 0 4) End], SRole 1 (SRole 3 (SRole 1 SBroadcast)));
      (* Storage: :62-70 *) ([End; Rcv (PVal 0) (Rcv (PChoice 0 3) End); End], SRole 2 (SRole 2 SEnd));
      (* User: :86-94 *) ([Rcv (PVal 0) (Snd (PVal 0) End); Rcv (PChoice 0 4) End; End], SRole 1 (SRole 1 (SRole 2 SEnd)))];
    (* 0.2 Close *) [
      (* Api: :40-42 *) ([Rcv (PVal 0) End; End; Snd (PVal 0) End], SRole 2 (SRole 4 SEnd));
      (* Controller: EndpointControllerClose, :131-132 *) ([Snd (PVal 0) End; Snd (PVal 0) End; End], SRole 1 (SRole 3 SEnd));
      (* Storage: :71 *) ([End; Rcv (PVal 0) End; End], SRole 2 SEnd);
      (* User: :95 *) ([Rcv (PVal 0) End; End; End], SRole 1 SEnd)]
  ]].

(** examples/mpst/distributed_calculators.rs. Roles: 1 = Calculator1, 2 = Calculator2, 3 = Server. Payloads: 0 =
    ProcesData2, 1 = Complete, 2 = Data1, 3 = ProcesData3, 4 = Data2, 5 = Stop. Choice 0: Server chooses
    (BranchingFromServertoCalculator1, :42-59, BranchingFromServertoCalculator2, :70-87): 0 = Data, 1 = Stop. The same
    types: examples/ampst/distributed_calculators.rs, examples/atmp/distributed_calculators.rs. *)
Definition distributed_calculators : proto := mkproto
  [
    (* Calculator1: Endpoint0Calculator1, :101-102 *) ([End; Rcv (PChoice 0 1) End], SRole 3 SEnd);
    (* Calculator2: Endpoint0Calculator2, :105-106 *) ([End; Rcv (PChoice 0 2) End], SRole 3 SEnd);
    (* Server: Endpoint0Server, :109-114 *) ([Snd (PChoice 0 1) End; Snd (PChoice 0 2) End], SBroadcast)
  ]
  [[
    (* 0.0 Data *) [
      (* Calculator1: :43-50 *) ([Rcv (PVal 0) (Snd (PVal 1) End); Rcv (PVal 2) (Snd (PVal 3) (Rcv (PChoice 0 1) End))], SRole 3 (SRole 2 (SRole 3 (SRole 2 (SRole 3 SEnd)))));
      (* Calculator2: :71-78 *) ([Snd (PVal 0) (Rcv (PVal 1) End); Rcv (PVal 4) (Rcv (PVal 1) (Rcv (PChoice 0 2) End))], SRole 3 (SRole 1 (SRole 3 (SRole 1 (SRole 3 SEnd)))));
      (* Server: Endpoint1ServerData, :115-120 *) ([Snd (PVal 2) (Rcv (PVal 3) (Snd (PChoice 0 1) End)); Snd (PVal 4) (Snd (PVal 1) (Snd (PChoice 0 2) End))], SRole 1 (SRole 2 (SRole 1 (SRole 2 SBroadcast))))];
    (* 0.1 Stop *) [
      (* Calculator1: :51-58 *) ([End; Rcv (PVal 5) End], SRole 3 SEnd);
      (* Calculator2: :79-86 *) ([End; Rcv (PVal 5) End], SRole 3 SEnd);
      (* Server: Endpoint1ServerStop, :121-126 *) ([Snd (PVal 5) End; Snd (PVal 5) End], SRole 1 (SRole 2 SEnd))]
  ]].

(** examples/mpst/dns_fowler.rs. Roles: 1 = Data, 2 = Handler, 3 = Regional. Payloads: 0 = FindNearestZone, 1 =
    ZoneDataRequest, 2 = ZoneDataResponse, 3 = ZoneResponse, 4 = InvalidZone, 5 = Received. Choice 0: Regional chooses
    (Branching0fromRegionalToData, :29-46, Branching0fromRegionalToHandler, :50-67): 0 = Loops, 1 = Invalid. The same
    types: examples/mpst/dns_fowler_checking.rs, examples/ampst/dns_fowler.rs, examples/ampst/dns_fowler_checking.rs. *)
Definition dns_fowler : proto := mkproto
  [
    (* Data: EndpointData, :72 *) ([End; Rcv (PChoice 0 1) End], SRole 3 SEnd);
    (* Handler: EndpointHandler, :75-80 *) ([End; Snd (PVal 0) (Rcv (PChoice 0 2) End)], SRole 3 (SRole 3 SEnd));
    (* Regional: EndpointRegional, :91-96 *) ([Snd (PChoice 0 1) End; Rcv (PVal 0) (Snd (PChoice 0 2) End)], SRole 2 SBroadcast)
  ]
  [[
    (* 0.0 Loops *) [
      (* Data: :30-37 *) ([Rcv (PVal 1) (Snd (PVal 2) End); Rcv (PChoice 0 1) End], SRole 2 (SRole 2 (SRole 3 SEnd)));
      (* Handler: :51-58 *) ([Snd (PVal 1) (Rcv (PVal 2) End); Rcv (PVal 3) (Snd (PVal 0) (Rcv (PChoice 0 2) End))], SRole 3 (SRole 1 (SRole 1 (SRole 3 (SRole 3 SEnd)))));
      (* Regional: EndpointRegionalLoops, :85-90 *) ([Snd (PChoice 0 1) End; Snd (PVal 3) (Rcv (PVal 0) (Snd (PChoice 0 2) End))], SRole 2 (SRole 2 SBroadcast))];
    (* 0.1 Invalid *) [
      (* Data: :38-45 *) ([Rcv (PVal 4) (Snd (PVal 5) End); End], SRole 2 (SRole 2 SEnd));
      (* Handler: :59-66 *) ([Snd (PVal 4) (Rcv (PVal 5) End); Rcv (PVal 4) End], SRole 3 (SRole 1 (SRole 1 SEnd)));
      (* Regional: EndpointRegionalInvalid, :83-84 *) ([End; Snd (PVal 4) End], SRole 2 SEnd)]
  ]].

(** examples/mpst/dns_imai.rs. Roles: 1 = Client, 2 = Other, 3 = Server. Payloads: 0 = i32, 1 = (i32, i32), 2 = (). Choice
    0: Server chooses (Branching0fromServerToClient, :21-24, Branching0fromServerToOther, :27-37): 0 = Dummy, 1 = Query.
    The same types: examples/ampst/dns_imai.rs. *)
Definition dns_imai : proto := mkproto
  [
    (* Client: EndpointClient, :41-46 *) ([End; Snd (PVal 0) (Rcv (PChoice 0 1) End)], SRole 3 (SRole 3 SEnd));
    (* Other: EndpointOther, :49-50 *) ([End; Rcv (PChoice 0 2) End], SRole 3 SEnd);
    (* Server: EndpointServer, :65-70 *) ([Rcv (PVal 0) (Snd (PChoice 0 1) End); Snd (PChoice 0 2) End], SRole 1 SBroadcast)
  ]
  [[
    (* 0.0 Dummy *) [
      (* Client: :22 *) ([End; Rcv (PVal 1) End], SRole 3 SEnd);
      (* Other: :28 *) ([End; Rcv (PVal 2) End], SRole 3 SEnd);
      (* Server: EndpointDummy, :59-64 *) ([Snd (PVal 1) End; Snd (PVal 2) End], SRole 2 (SRole 1 SEnd))];
    (* 0.1 Query *) [
      (* Client: :23 *) ([End; Rcv (PVal 1) End], SRole 3 SEnd);
      (* Other: :29-36 *) ([End; Rcv (PVal 1) (Snd (PVal 1) End)], SRole 3 (SRole 3 SEnd));
      (* Server: EndpointQuery, :53-58 *) ([Snd (PVal 1) End; Snd (PVal 1) (Rcv (PVal 1) End)], SRole 2 (SRole 2 (SRole 1 SEnd)))]
  ]].

(** examples/mpst/fib.rs. Roles: 1 = A, 2 = B. Payloads: 0 = i64. Choice 0: A chooses (Branching0fromAtoB, :20-23): 0 =
    More, 1 = Done. The same types: examples/ampst/fib.rs, examples/atmp/fib.rs,
    examples/ping_pong_save/ping_pong_baking_ampst_1.rs, examples/ping_pong_save/ping_pong_baking_atmp_1.rs,
    examples/ping_pong_save/ping_pong_baking_mpst_1.rs, examples/ping_pong_save/ping_pong_mpst_1.rs. *)
Definition fib : proto := mkproto
  [
    (* A: EndpointA, :27 *) ([Snd (PChoice 0 2) End], SBroadcast);
    (* B: EndpointB, :30 *) ([Rcv (PChoice 0 2) End], SRole 1 SEnd)
  ]
  [[
    (* 0.0 More *) [
      (* A: EndpointAMore, :28-29 *) ([Snd (PVal 0) (Rcv (PVal 0) (Snd (PChoice 0 2) End))], SRole 2 (SRole 2 SBroadcast));
      (* B: :21 *) ([Rcv (PVal 0) (Snd (PVal 0) (Rcv (PChoice 0 2) End))], SRole 1 (SRole 1 (SRole 1 SEnd)))];
    (* 0.1 Done *) [
      (* A: as used after :40 *) ([End], SEnd);
      (* B: :22 *) ([End], SEnd)]
  ]].

(** examples/mpst/http.rs. Roles: 1 = Client, 2 = ProxyOne, 3 = ProxyTwo, 4 = Server. Payloads: 0 = OpenTCPConnection, 1 =
    Fail, 2 = Success, 3 = RequestGet, 4 = RequestPut, 5 = RequestPost, 6 = Close, 7 = Response200, 8 = Response404, 9 =
    Response418. Choice 0: Server chooses (OpenTCPConnectionByServerToClient, :218-237,
    OpenTCPConnectionByServerToProxyOne, :240-259, OpenTCPConnectionByServerToProxyTwo, :262-281): 0 = Fail, 1 = Success.
    Choice 1: Client chooses (RequestByClientToProxyOne, :81-118, RequestByClientToProxyTwo, :121-158,
    RequestByClientToServer, :161-198): 0 = RequestGet, 1 = RequestPut, 2 = RequestPost, 3 = Close. Choice 2: Server
    chooses (ResponseByServerToClient, :285-313, ResponseByServerToProxyOne, :316-344, ResponseByServerToProxyTwo,
    :347-375): 0 = Response200, 1 = Response404, 2 = Response418. The same types: examples/ampst/http.rs,
    examples/atmp/http.rs, examples/atmp/non_feasible.rs. *)
Definition http : proto := mkproto
  [
    (* Client: EndpointClient, :389-395 *) ([Snd (PVal 0) End; End; Rcv (PChoice 0 1) End], SRole 2 (SRole 4 SEnd));
    (* ProxyOne: EndpointProxyOne, :433-439 *) ([Rcv (PVal 0) End; Snd (PVal 0) End; Rcv (PChoice 0 2) End], SRole 1 (SRole 3 (SRole 4 SEnd)));
    (* ProxyTwo: EndpointProxyTwo, :450-456 *) ([End; Rcv (PVal 0) End; Snd (PVal 0) (Rcv (PChoice 0 3) End)], SRole 2 (SRole 4 (SRole 4 SEnd)));
    (* Server: EndpointServer, :467-473 *) ([Snd (PChoice 0 1) End; Snd (PChoice 0 2) End; Rcv (PVal 0) (Snd (PChoice 0 3) End)], SRole 3 SBroadcast)
  ]
  [[
    (* 0.0 Fail *) [
      (* Client: :219-227 *) ([Rcv (PVal 1) End; End; End], SRole 2 SEnd);
      (* ProxyOne: :241-249 *) ([Snd (PVal 1) End; Rcv (PVal 1) End; End], SRole 3 (SRole 1 SEnd));
      (* ProxyTwo: :263-271 *) ([End; Snd (PVal 1) End; Rcv (PVal 1) End], SRole 4 (SRole 2 SEnd));
      (* Server: EndpointServerFail, :475-476 *) ([End; End; Snd (PVal 1) End], SRole 3 SEnd)];
    (* 0.1 Success *) [
      (* Client: :228-236 *) ([Rcv (PVal 2) (Snd (PChoice 1 2) End); Snd (PChoice 1 3) End; Snd (PChoice 1 4) End], SRole 2 SBroadcast);
      (* ProxyOne: :250-258 *) ([Snd (PVal 2) (Rcv (PChoice 1 2) End); Rcv (PVal 2) End; End], SRole 3 (SRole 1 (SRole 1 SEnd)));
      (* ProxyTwo: :272-280 *) ([Rcv (PChoice 1 3) End; Snd (PVal 2) End; Rcv (PVal 2) End], SRole 4 (SRole 2 (SRole 1 SEnd)));
      (* Server: EndpointServerSuccess, :478-484 *) ([Rcv (PChoice 1 4) End; End; Snd (PVal 2) End], SRole 3 (SRole 1 SEnd))]
  ];  [
    (* 1.0 RequestGet *) [
      (* Client: EndpointClientRequestGet, :408-414 *) ([Snd (PVal 3) End; End; Rcv (PChoice 2 1) End], SRole 2 (SRole 4 SEnd));
      (* ProxyOne: :82-90 *) ([Rcv (PVal 3) End; Snd (PVal 3) End; Rcv (PChoice 2 2) End], SRole 1 (SRole 3 (SRole 4 SEnd)));
      (* ProxyTwo: :122-130 *) ([End; Rcv (PVal 3) End; Snd (PVal 3) (Rcv (PChoice 2 3) End)], SRole 2 (SRole 4 (SRole 4 SEnd)));
      (* Server: :162-170 *) ([Snd (PChoice 2 1) End; Snd (PChoice 2 2) End; Rcv (PVal 3) (Snd (PChoice 2 3) End)], SRole 3 SBroadcast)];
    (* 1.1 RequestPut *) [
      (* Client: EndpointClientRequestPut, :416-422 *) ([Snd (PVal 4) End; End; Rcv (PChoice 2 1) End], SRole 2 (SRole 4 SEnd));
      (* ProxyOne: :91-99 *) ([Rcv (PVal 4) End; Snd (PVal 4) End; Rcv (PChoice 2 2) End], SRole 1 (SRole 3 (SRole 4 SEnd)));
      (* ProxyTwo: :131-139 *) ([End; Rcv (PVal 4) End; Snd (PVal 4) (Rcv (PChoice 2 3) End)], SRole 2 (SRole 4 (SRole 4 SEnd)));
      (* Server: :171-179 *) ([Snd (PChoice 2 1) End; Snd (PChoice 2 2) End; Rcv (PVal 4) (Snd (PChoice 2 3) End)], SRole 3 SBroadcast)];
    (* 1.2 RequestPost *) [
      (* Client: EndpointClientRequestPost, :424-430 *) ([Snd (PVal 5) End; End; Rcv (PChoice 2 1) End], SRole 2 (SRole 4 SEnd));
      (* ProxyOne: :100-108 *) ([Rcv (PVal 5) End; Snd (PVal 5) End; Rcv (PChoice 2 2) End], SRole 1 (SRole 3 (SRole 4 SEnd)));
      (* ProxyTwo: :140-148 *) ([End; Rcv (PVal 5) End; Snd (PVal 5) (Rcv (PChoice 2 3) End)], SRole 2 (SRole 4 (SRole 4 SEnd)));
      (* Server: :180-188 *) ([Snd (PChoice 2 1) End; Snd (PChoice 2 2) End; Rcv (PVal 5) (Snd (PChoice 2 3) End)], SRole 3 SBroadcast)];
    (* 1.3 Close *) [
      (* Client: EndpointClientClose, :405-406 *) ([Snd (PVal 6) End; End; End], SRole 2 SEnd);
      (* ProxyOne: :109-117 *) ([Rcv (PVal 6) End; Snd (PVal 6) End; End], SRole 1 (SRole 3 SEnd));
      (* ProxyTwo: :149-157 *) ([End; Rcv (PVal 6) End; Snd (PVal 6) End], SRole 2 (SRole 4 SEnd));
      (* Server: :189-197 *) ([End; End; Rcv (PVal 6) End], SRole 3 SEnd)]
  ];  [
    (* 2.0 Response200 *) [
      (* Client: :286-294 *) ([Rcv (PVal 7) (Snd (PChoice 1 2) End); Snd (PChoice 1 3) End; Snd (PChoice 1 4) End], SRole 2 SBroadcast);
      (* ProxyOne: :317-325 *) ([Snd (PVal 7) (Rcv (PChoice 1 2) End); Rcv (PVal 7) End; End], SRole 3 (SRole 1 (SRole 1 SEnd)));
      (* ProxyTwo: :348-356 *) ([Rcv (PChoice 1 3) End; Snd (PVal 7) End; Rcv (PVal 7) End], SRole 4 (SRole 2 (SRole 1 SEnd)));
      (* Server: EndpointServerResponse200, :489-495 *) ([Rcv (PChoice 1 4) End; End; Snd (PVal 7) End], SRole 3 (SRole 1 SEnd))];
    (* 2.1 Response404 *) [
      (* Client: :295-303 *) ([Rcv (PVal 8) (Snd (PChoice 1 2) End); Snd (PChoice 1 3) End; Snd (PChoice 1 4) End], SRole 2 SBroadcast);
      (* ProxyOne: :326-334 *) ([Snd (PVal 8) (Rcv (PChoice 1 2) End); Rcv (PVal 8) End; End], SRole 3 (SRole 1 (SRole 1 SEnd)));
      (* ProxyTwo: :357-365 *) ([Rcv (PChoice 1 3) End; Snd (PVal 8) End; Rcv (PVal 8) End], SRole 4 (SRole 2 (SRole 1 SEnd)));
      (* Server: EndpointServerResponse404, :497-503 *) ([Rcv (PChoice 1 4) End; End; Snd (PVal 8) End], SRole 3 (SRole 1 SEnd))];
    (* 2.2 Response418 *) [
      (* Client: :304-312 *) ([Rcv (PVal 9) (Snd (PChoice 1 2) End); Snd (PChoice 1 3) End; Snd (PChoice 1 4) End], SRole 2 SBroadcast);
      (* ProxyOne: :335-343 *) ([Snd (PVal 9) (Rcv (PChoice 1 2) End); Rcv (PVal 9) End; End], SRole 3 (SRole 1 (SRole 1 SEnd)));
      (* ProxyTwo: :366-374 *) ([Rcv (PChoice 1 3) End; Snd (PVal 9) End; Rcv (PVal 9) End], SRole 4 (SRole 2 (SRole 1 SEnd)));
      (* Server: EndpointServerResponse418, :505-511 *) ([Rcv (PChoice 1 4) End; End; Snd (PVal 9) End], SRole 3 (SRole 1 SEnd))]
  ]].

(** examples/mpst/logging.rs. Roles: 1 = Controller, 2 = Logs. Payloads: 0 = i32. Choice 0: Logs chooses
    (Branching0fromLtoC, :17-22): 0 = Success, 1 = Failure. Choice 1: Controller chooses (Branching1fromCtoL, :31-34): 0 =
    Restart, 1 = Stop. The same types: examples/basic/logging.rs, examples/ampst/logging.rs, examples/atmp/logging.rs. *)
Definition logging : proto := mkproto
  [
    (* Controller: EndpointControllerInit, :45-46 *) ([Snd (PVal 0) (Rcv (PChoice 0 1) End)], SRole 2 (SRole 2 SEnd));
    (* Logs: EndpointLogsInit, :55-56 *) ([Rcv (PVal 0) (Snd (PChoice 0 1) End)], SRole 1 SBroadcast)
  ]
  [[
    (* 0.0 Success *) [
      (* Controller: :18-20 *) ([Rcv (PVal 0) (Rcv (PChoice 0 1) End)], SRole 2 (SRole 2 SEnd));
      (* Logs: EndpointLogs0Success, :49-50 *) ([Snd (PVal 0) (Snd (PChoice 0 1) End)], SRole 1 SBroadcast)];
    (* 0.1 Failure *) [
      (* Controller: :21 *) ([Rcv (PVal 0) (Snd (PChoice 1 2) End)], SRole 2 SBroadcast);
      (* Logs: EndpointLogs0Failure, :51-52 *) ([Snd (PVal 0) (Rcv (PChoice 1 2) End)], SRole 1 (SRole 1 SEnd))]
  ];  [
    (* 1.0 Restart *) [
      (* Controller: EndpointController1Restart, :41-42 *) ([Snd (PVal 0) (Rcv (PChoice 0 1) End)], SRole 2 (SRole 2 SEnd));
      (* Logs: :32 *) ([Rcv (PVal 0) (Snd (PChoice 0 1) End)], SRole 1 SBroadcast)];
    (* 1.1 Stop *) [
      (* Controller: EndpointController1Stop, :40 *) ([Snd (PVal 0) End], SRole 2 SEnd);
      (* Logs: :33 *) ([Rcv (PVal 0) End], SRole 1 SEnd)]
  ]].

(** examples/mpst/o_auth.rs. Roles: 1 = A, 2 = C, 3 = S. Payloads: 0 = Login, 1 = Auth, 2 = Password, 3 = Start, 4 =
    Redirect, 5 = Success, 6 = Token, 7 = Fail, 8 = Received. Choice 0: A chooses (Branching0fromAtoC, :32-49,
    Branching0fromAtoS, :53-63): 0 = Success, 1 = Fail. The same types: examples/mpst/o_auth_checking.rs,
    examples/ampst/o_auth.rs, examples/ampst/o_auth_checking.rs, examples/atmp/o_auth.rs. *)
Definition o_auth : proto := mkproto
  [
    (* A: EndpointA, :75-80 *) ([Rcv (PVal 0) (Snd (PVal 1) (Rcv (PVal 2) (Snd (PChoice 0 2) End))); Snd (PChoice 0 3) End], SRole 2 (SRole 2 (SRole 2 SBroadcast)));
    (* C: EndpointC, :83-88 *) ([Snd (PVal 0) (Rcv (PVal 1) (Snd (PVal 2) (Rcv (PChoice 0 2) End))); Snd (PVal 3) (Rcv (PVal 4) End)], SRole 3 (SRole 3 (SRole 1 (SRole 1 (SRole 1 (SRole 1 SEnd))))));
    (* S: EndpointS, :91-96 *) ([Rcv (PChoice 0 3) End; Rcv (PVal 3) (Snd (PVal 4) End)], SRole 2 (SRole 2 (SRole 1 SEnd)))
  ]
  [[
    (* 0.0 Success *) [
      (* A: EndpointASuccess, :68-73 *) ([Snd (PVal 5) End; Rcv (PVal 6) (Snd (PVal 6) End)], SRole 2 (SRole 3 (SRole 3 SEnd)));
      (* C: :33-40 *) ([Rcv (PVal 5) End; Snd (PVal 5) (Rcv (PVal 6) End)], SRole 1 (SRole 3 (SRole 3 SEnd)));
      (* S: :54-61 *) ([Snd (PVal 6) (Rcv (PVal 6) End); Rcv (PVal 5) (Snd (PVal 6) End)], SRole 2 (SRole 1 (SRole 1 (SRole 2 SEnd))))];
    (* 0.1 Fail *) [
      (* A: EndpointAFail, :74 *) ([Snd (PVal 7) End; End], SRole 2 SEnd);
      (* C: :41-48 *) ([Rcv (PVal 7) End; Snd (PVal 7) (Rcv (PVal 8) End)], SRole 1 (SRole 3 (SRole 3 SEnd)));
      (* S: :62 *) ([End; Rcv (PVal 7) (Snd (PVal 8) End)], SRole 2 (SRole 2 SEnd))]
  ]].

(** examples/mpst/online_wallet.rs. Roles: 1 = A, 2 = C, 3 = S. Payloads: 0 = (String, String), 1 = (), 2 = (i64, i64), 3
    = String, 4 = (String, i64). Choice 0: A chooses (Branching0fromAtoC, :55-65, Branching0fromAtoS, :26-36): 0 = Login,
    1 = Fail. Choice 1: C chooses (Branching1fromCtoA, :18-21, Branching1fromCtoS, :40-50): 0 = Pay, 1 = Quit. The same
    types: examples/ampst/online_wallet.rs, examples/atmp/online_wallet.rs. *)
Definition online_wallet : proto := mkproto
  [
    (* A: EndpointA0, :85-90 *) ([Rcv (PVal 0) (Snd (PChoice 0 2) End); Snd (PChoice 0 3) End], SRole 2 SBroadcast);
    (* C: EndpointC0, :95-96 *) ([Snd (PVal 0) (Rcv (PChoice 0 2) End); End], SRole 1 (SRole 1 SEnd));
    (* S: EndpointS0, :97 *) ([Rcv (PChoice 0 3) End; End], SRole 1 SEnd)
  ]
  [[
    (* 0.0 Login *) [
      (* A: EndpointA0Login, :93-94 *) ([Snd (PVal 1) (Rcv (PChoice 1 1) End); Snd (PVal 1) End], SRole 2 (SRole 3 (SRole 2 SEnd)));
      (* C: :56-63 *) ([Rcv (PVal 1) (Snd (PChoice 1 1) End); Rcv (PVal 2) (Snd (PChoice 1 3) End)], SRole 1 (SRole 3 SBroadcast));
      (* S: :27-34 *) ([Rcv (PVal 1) End; Snd (PVal 2) (Rcv (PChoice 1 3) End)], SRole 1 (SRole 2 (SRole 2 SEnd)))];
    (* 0.1 Fail *) [
      (* A: EndpointA0Fail, :91-92 *) ([Snd (PVal 3) End; Snd (PVal 3) End], SRole 2 (SRole 3 SEnd));
      (* C: :64 *) ([Rcv (PVal 3) End; End], SRole 1 SEnd);
      (* S: :35 *) ([Rcv (PVal 3) End; End], SRole 1 SEnd)]
  ];  [
    (* 1.0 Pay *) [
      (* A: :19 *) ([Rcv (PChoice 1 1) End; End], SRole 2 SEnd);
      (* C: EndpointC1Pay, :76-81 *) ([Snd (PChoice 1 1) End; Snd (PVal 4) (Rcv (PVal 2) (Snd (PChoice 1 3) End))], SRole 3 (SRole 3 SBroadcast));
      (* S: :41-48 *) ([End; Rcv (PVal 4) (Snd (PVal 2) (Rcv (PChoice 1 3) End))], SRole 2 (SRole 2 (SRole 2 SEnd)))];
    (* 1.1 Quit *) [
      (* A: :20 *) ([End; End], SEnd);
      (* C: as used after :185 *) ([End; Snd (PVal 1) End], SRole 3 SEnd);
      (* S: :49 *) ([End; Rcv (PVal 1) End], SRole 2 SEnd)]
  ]].

(** examples/mpst/remote_data.rs. Roles: 1 = Satellite, 2 = Sensor, 3 = Server. Payloads: 0 = GetData, 1 = Data, 2 = Stop.
    Choice 0: Server chooses (BranchingFromServertoSatellite, :33-50, BranchingFromServertoSensor, :59-69): 0 = Data, 1 =
    Stop. The same types: examples/ampst/remote_data.rs, examples/atmp/remote_data.rs,
    examples/artifact_atmp/generated_files/RemoteDataCorrect.rs. *)
Definition remote_data : proto := mkproto
  [
    (* Satellite: EndpointSatellite0, :81-82 *) ([End; Rcv (PChoice 0 1) End], SRole 3 SEnd);
    (* Sensor: EndpointSensor0, :85-86 *) ([End; Rcv (PChoice 0 2) End], SRole 3 SEnd);
    (* Server: EndpointServer0, :89-94 *) ([Snd (PChoice 0 1) End; Snd (PChoice 0 2) End], SBroadcast)
  ]
  [[
    (* 0.0 Data *) [
      (* Satellite: :34-41 *) ([Snd (PVal 0) (Rcv (PVal 1) End); Rcv (PVal 0) (Snd (PVal 1) (Rcv (PChoice 0 1) End))], SRole 3 (SRole 2 (SRole 2 (SRole 3 (SRole 3 SEnd)))));
      (* Sensor: :60-67 *) ([Rcv (PVal 0) (Snd (PVal 1) End); Rcv (PChoice 0 2) End], SRole 1 (SRole 1 (SRole 3 SEnd)));
      (* Server: EndpointServer1Data, :95-100 *) ([Snd (PVal 0) (Rcv (PVal 1) (Snd (PChoice 0 1) End)); Snd (PChoice 0 2) End], SRole 1 (SRole 1 SBroadcast))];
    (* 0.1 Stop *) [
      (* Satellite: :42-49 *) ([Snd (PVal 2) End; Rcv (PVal 2) End], SRole 3 (SRole 2 SEnd));
      (* Sensor: :68 *) ([Rcv (PVal 2) End; End], SRole 1 SEnd);
      (* Server: EndpointServer1Stop, :101-102 *) ([Snd (PVal 2) End; End], SRole 1 SEnd)]
  ]].

(** examples/mpst/servo.rs. Roles: 1 = Constellation, 2 = Layout, 3 = Script. Payloads: 0 = GetWebPageLoadState, 1 =
    OutstandingWebFonts, 2 = GetCurrentState, 3 = DocumentLoading, 4 = WebFontLoaded. The same types:
    examples/mpst/servo_8257_original.rs, examples/checking/servo_8257_original.rs, examples/ampst/servo.rs,
    examples/ampst/servo_8257_original.rs, examples/atmp/servo.rs, examples/atmp/servo_8257_async_failing.rs,
    examples/atmp/servo_8257_async_working.rs, examples/artifact_atmp/generated_files/Servo.rs,
    examples/artifact_atmp/generated_files/ServoCorrect.rs. *)
Definition servo : proto := mkproto
  [
    (* Constellation: EndpointC, :44 *) ([Snd (PVal 0) (Rcv (PVal 1) End); Snd (PVal 2) (Rcv (PVal 3) End)], SRole 3 (SRole 3 (SRole 2 (SRole 2 SEnd))));
    (* Layout: EndpointL, :46 *) ([Rcv (PVal 0) (Snd (PVal 1) End); Snd (PVal 4) End], SRole 3 (SRole 1 (SRole 1 SEnd)));
    (* Script: EndpointS, :48 *) ([Rcv (PVal 2) (Snd (PVal 3) End); Rcv (PVal 4) End], SRole 1 (SRole 1 (SRole 2 SEnd)))
  ]
  [].

(** examples/mpst/servo_8257_fixed.rs. Roles: 1 = Constellation, 2 = Layout, 3 = Script. Payloads: 0 =
    GetWebPageLoadState, 1 = OutstandingWebFonts, 2 = GetCurrentState, 3 = DocumentLoading, 4 = WebFontLoaded. The same
    types: examples/checking/servo_8257_fixed.rs, examples/ampst/servo_8257_fixed.rs,
    examples/atmp/servo_8257_async_fixed.rs. *)
Definition servo_8257_fixed : proto := mkproto
  [
    (* Constellation: EndpointC, :37 *) ([Snd (PVal 0) (Rcv (PVal 1) End); Snd (PVal 2) (Rcv (PVal 3) End)], SRole 2 (SRole 2 (SRole 3 (SRole 3 SEnd))));
    (* Layout: EndpointL, :39 *) ([Rcv (PVal 0) (Snd (PVal 1) End); Snd (PVal 4) End], SRole 1 (SRole 1 (SRole 3 SEnd)));
    (* Script: EndpointS, :41 *) ([Rcv (PVal 2) (Snd (PVal 3) End); Rcv (PVal 4) End], SRole 1 (SRole 1 (SRole 2 SEnd)))
  ]
  [].

(** examples/mpst/simple_voting.rs. Roles: 1 = Voter, 2 = Server. Payloads: 0 = i32. Choice 0: Server chooses
    (Branching0fromStoV, :23-26): 0 = Auth, 1 = Reject. Choice 1: Voter chooses (Branching1fromVtoS, :29-32): 0 = Yes, 1 =
    No. The same types: examples/ampst/simple_voting.rs, examples/atmp/simple_voting.rs. *)
Definition simple_voting : proto := mkproto
  [
    (* Voter: EndpointVoter, :38-42 *) ([Snd (PVal 0) (Rcv (PChoice 0 1) End)], SRole 2 (SRole 2 SEnd));
    (* Server: EndpointServer, :46-47 *) ([Rcv (PVal 0) (Snd (PChoice 0 1) End)], SRole 1 SBroadcast)
  ]
  [[
    (* 0.0 Auth *) [
      (* Voter: :24 *) ([Rcv (PVal 0) (Snd (PChoice 1 2) End)], SRole 2 SBroadcast);
      (* Server: as used after :100 *) ([Snd (PVal 0) (Rcv (PChoice 1 2) End)], SRole 1 (SRole 1 SEnd))];
    (* 0.1 Reject *) [
      (* Voter: :25 *) ([Rcv (PVal 0) End], SRole 2 SEnd);
      (* Server: as used after :94 *) ([Snd (PVal 0) End], SRole 1 SEnd)]
  ];  [
    (* 1.0 Yes *) [
      (* Voter: as used after :74 *) ([Snd (PVal 0) End], SRole 2 SEnd);
      (* Server: :30 *) ([Rcv (PVal 0) End], SRole 1 SEnd)];
    (* 1.1 No *) [
      (* Voter: as used after :80 *) ([Snd (PVal 0) End], SRole 2 SEnd);
      (* Server: :31 *) ([Rcv (PVal 0) End], SRole 1 SEnd)]
  ]].

(** examples/mpst/smtp.rs. Roles: 1 = C, 2 = S. Payloads: 0 = (). Choice 0: C chooses (Branching0fromCtoS, :20-23): 0 =
    Continue, 1 = Quit. Choice 1: S chooses (Branching1fromStoC, :29-32): 0 = Continue, 1 = Loop. Choice 2: C chooses
    (Branching2fromCtoS, :46-51): 0 = Continue, 1 = Quit. Choice 3: C chooses (Branching3fromCtoS, :61-64): 0 = Continue,
    1 = Quit. Choice 4: S chooses (Branching4fromStoC, :70-73): 0 = Continue, 1 = Loop. Choice 5: C chooses
    (Branching5fromCtoS, :87-90): 0 = Continue, 1 = Quit. Choice 6: S chooses (Branching6fromStoC, :96-99): 0 = Continue,
    1 = Loop. Choice 7: C chooses (Branching7fromCtoS, :113-116): 0 = Continue, 1 = Quit. Choice 8: S chooses
    (Branching8fromStoC, :122-125): 0 = Continue, 1 = Loop. Choice 9: C chooses (Branching9fromCtoS, :139-148): 0 =
    Continue, 1 = Loop. Choice 10: C chooses (Branching10fromCtoS, :158-164): 0 = Data, 1 = Subject, 2 = End. The same
    types: examples/ampst/smtp.rs, examples/atmp/smtp.rs. *)
Definition smtp : proto := mkproto
  [
    (* C: EndpointC0, :17 *) ([Rcv (PVal 0) (Snd (PChoice 0 2) End)], SRole 2 SBroadcast);
    (* S: EndpointS0, :25 *) ([Snd (PVal 0) (Rcv (PChoice 0 2) End)], SRole 1 (SRole 1 SEnd))
  ]
  [[
    (* 0.0 Continue *) [
      (* C: as used after :185 *) ([Snd (PVal 0) (Rcv (PChoice 1 1) End)], SRole 2 (SRole 2 SEnd));
      (* S: :21 *) ([Rcv (PVal 0) (Snd (PChoice 1 1) End)], SRole 1 SBroadcast)];
    (* 0.1 Quit *) [
      (* C: as used after :178 *) ([Snd (PVal 0) End], SRole 2 SEnd);
      (* S: :22 *) ([Rcv (PVal 0) End], SRole 1 SEnd)]
  ];  [
    (* 1.0 Continue *) [
      (* C: :30 *) ([Rcv (PVal 0) (Snd (PChoice 2 2) End)], SRole 2 SBroadcast);
      (* S: as used after :411 *) ([Snd (PVal 0) (Rcv (PChoice 2 2) End)], SRole 1 (SRole 1 SEnd))];
    (* 1.1 Loop *) [
      (* C: :31 *) ([Rcv (PVal 0) (Rcv (PChoice 1 1) End)], SRole 2 (SRole 2 SEnd));
      (* S: as used after :404 *) ([Snd (PVal 0) (Snd (PChoice 1 1) End)], SRole 1 SBroadcast)]
  ];  [
    (* 2.0 Continue *) [
      (* C: as used after :219 *) ([Snd (PVal 0) (Rcv (PVal 0) (Snd (PChoice 3 2) End))], SRole 2 (SRole 2 SBroadcast));
      (* S: :47-49 *) ([Rcv (PVal 0) (Snd (PVal 0) (Rcv (PChoice 3 2) End))], SRole 1 (SRole 1 (SRole 1 SEnd)))];
    (* 2.1 Quit *) [
      (* C: as used after :212 *) ([Snd (PVal 0) End], SRole 2 SEnd);
      (* S: :50 *) ([Rcv (PVal 0) End], SRole 1 SEnd)]
  ];  [
    (* 3.0 Continue *) [
      (* C: as used after :239 *) ([Snd (PVal 0) (Rcv (PChoice 4 1) End)], SRole 2 (SRole 2 SEnd));
      (* S: :62 *) ([Rcv (PVal 0) (Snd (PChoice 4 1) End)], SRole 1 SBroadcast)];
    (* 3.1 Quit *) [
      (* C: as used after :232 *) ([Snd (PVal 0) End], SRole 2 SEnd);
      (* S: :63 *) ([Rcv (PVal 0) End], SRole 1 SEnd)]
  ];  [
    (* 4.0 Continue *) [
      (* C: :71 *) ([Rcv (PVal 0) (Snd (PChoice 5 2) End)], SRole 2 SBroadcast);
      (* S: as used after :461 *) ([Snd (PVal 0) (Rcv (PChoice 5 2) End)], SRole 1 (SRole 1 SEnd))];
    (* 4.1 Loop *) [
      (* C: :72 *) ([Rcv (PVal 0) (Rcv (PChoice 4 1) End)], SRole 2 (SRole 2 SEnd));
      (* S: as used after :454 *) ([Snd (PVal 0) (Snd (PChoice 4 1) End)], SRole 1 SBroadcast)]
  ];  [
    (* 5.0 Continue *) [
      (* C: as used after :273 *) ([Snd (PVal 0) (Rcv (PChoice 6 1) End)], SRole 2 (SRole 2 SEnd));
      (* S: :88 *) ([Rcv (PVal 0) (Snd (PChoice 6 1) End)], SRole 1 SBroadcast)];
    (* 5.1 Quit *) [
      (* C: as used after :266 *) ([Snd (PVal 0) End], SRole 2 SEnd);
      (* S: :89 *) ([Rcv (PVal 0) End], SRole 1 SEnd)]
  ];  [
    (* 6.0 Continue *) [
      (* C: :97 *) ([Rcv (PVal 0) (Snd (PChoice 7 2) End)], SRole 2 SBroadcast);
      (* S: as used after :495 *) ([Snd (PVal 0) (Rcv (PChoice 7 2) End)], SRole 1 (SRole 1 SEnd))];
    (* 6.1 Loop *) [
      (* C: :98 *) ([Rcv (PVal 0) (Rcv (PChoice 6 1) End)], SRole 2 (SRole 2 SEnd));
      (* S: as used after :488 *) ([Snd (PVal 0) (Snd (PChoice 6 1) End)], SRole 1 SBroadcast)]
  ];  [
    (* 7.0 Continue *) [
      (* C: as used after :307 *) ([Snd (PVal 0) (Rcv (PChoice 8 1) End)], SRole 2 (SRole 2 SEnd));
      (* S: :114 *) ([Rcv (PVal 0) (Snd (PChoice 8 1) End)], SRole 1 SBroadcast)];
    (* 7.1 Quit *) [
      (* C: as used after :300 *) ([Snd (PVal 0) End], SRole 2 SEnd);
      (* S: :115 *) ([Rcv (PVal 0) End], SRole 1 SEnd)]
  ];  [
    (* 8.0 Continue *) [
      (* C: :123 *) ([Rcv (PVal 0) (Snd (PChoice 9 2) End)], SRole 2 SBroadcast);
      (* S: as used after :529 *) ([Snd (PVal 0) (Rcv (PChoice 9 2) End)], SRole 1 (SRole 1 SEnd))];
    (* 8.1 Loop *) [
      (* C: :124 *) ([Rcv (PVal 0) (Snd (PChoice 7 2) End)], SRole 2 SBroadcast);
      (* S: as used after :522 *) ([Snd (PVal 0) (Rcv (PChoice 7 2) End)], SRole 1 (SRole 1 SEnd))]
  ];  [
    (* 9.0 Continue *) [
      (* C: as used after :342 *) ([Snd (PVal 0) (Rcv (PVal 0) (Snd (PVal 0) (Snd (PVal 0) (Snd (PChoice 10 2) End))))], SRole 2 (SRole 2 (SRole 2 (SRole 2 SBroadcast))));
      (* S: :140-146 *) ([Rcv (PVal 0) (Snd (PVal 0) (Rcv (PVal 0) (Rcv (PVal 0) (Rcv (PChoice 10 2) End))))], SRole 1 (SRole 1 (SRole 1 (SRole 1 (SRole 1 SEnd)))))];
    (* 9.1 Loop *) [
      (* C: as used after :334 *) ([Snd (PVal 0) (Rcv (PVal 0) (Snd (PChoice 9 2) End))], SRole 2 (SRole 2 SBroadcast));
      (* S: :147 *) ([Rcv (PVal 0) (Snd (PVal 0) (Rcv (PChoice 9 2) End))], SRole 1 (SRole 1 (SRole 1 SEnd)))]
  ];  [
    (* 10.0 Data *) [
      (* C: as used after :370 *) ([Snd (PVal 0) (Snd (PVal 0) (Snd (PChoice 10 2) End))], SRole 2 (SRole 2 SBroadcast));
      (* S: :159 *) ([Rcv (PVal 0) (Rcv (PVal 0) (Rcv (PChoice 10 2) End))], SRole 1 (SRole 1 (SRole 1 SEnd)))];
    (* 10.1 Subject *) [
      (* C: as used after :363 *) ([Snd (PVal 0) (Snd (PVal 0) (Snd (PChoice 10 2) End))], SRole 2 (SRole 2 SBroadcast));
      (* S: :160-162 *) ([Rcv (PVal 0) (Rcv (PVal 0) (Rcv (PChoice 10 2) End))], SRole 1 (SRole 1 (SRole 1 SEnd)))];
    (* 10.2 End *) [
      (* C: as used after :356 *) ([Snd (PVal 0) (Rcv (PVal 0) (Snd (PChoice 7 2) End))], SRole 2 (SRole 2 SBroadcast));
      (* S: :163 *) ([Rcv (PVal 0) (Snd (PVal 0) (Rcv (PChoice 7 2) End))], SRole 1 (SRole 1 (SRole 1 SEnd)))]
  ]].

(** examples/mpst/three_buyers.rs. Roles: 1 = A, 2 = C, 3 = S. Payloads: 0 = i32. Choice 0: C chooses (Branching0fromCtoA,
    :21-24, Branching0fromCtoS, :27-30): 0 = Accept, 1 = Quit. The same types: examples/ampst/three_buyers.rs. *)
Definition three_buyers : proto := mkproto
  [
    (* A: EndpointA, :34-39 *) ([Snd (PVal 0) (Rcv (PChoice 0 1) End); Snd (PVal 0) (Rcv (PVal 0) End)], SRole 3 (SRole 3 (SRole 2 (SRole 2 SEnd))));
    (* C: EndpointC, :42-47 *) ([Rcv (PVal 0) (Snd (PChoice 0 1) End); Rcv (PVal 0) (Snd (PChoice 0 3) End)], SRole 3 (SRole 1 SBroadcast));
    (* S: EndpointS, :52-57 *) ([Rcv (PVal 0) (Snd (PVal 0) End); Snd (PVal 0) (Rcv (PChoice 0 3) End)], SRole 1 (SRole 1 (SRole 2 (SRole 2 SEnd))))
  ]
  [[
    (* 0.0 Accept *) [
      (* A: :22 *) ([Rcv (PVal 0) End; End], SRole 2 SEnd);
      (* C: EndpointCAccept, :48-49 *) ([Snd (PVal 0) End; Snd (PVal 0) (Rcv (PVal 0) End)], SRole 1 (SRole 3 (SRole 3 SEnd)));
      (* S: :28 *) ([End; Rcv (PVal 0) (Snd (PVal 0) End)], SRole 2 (SRole 2 SEnd))];
    (* 0.1 Quit *) [
      (* A: :23 *) ([End; End], SEnd);
      (* C: as used after :91 *) ([End; End], SEnd);
      (* S: :29 *) ([End; End], SEnd)]
  ]].

(** examples/mpst/travel_agency.rs. Roles: 1 = A, 2 = C, 3 = S. Payloads: 0 = i32. Choice 0: C chooses
    (Branching0fromCtoA, :25-35, Branching0fromCtoS, :44-47): 0 = Select, 1 = Loop. Choice 1: C chooses
    (Branching1fromCtoA, :37-40, Branching1fromCtoS, :49-59): 0 = Yes, 1 = No. The same types:
    examples/ampst/travel_agency.rs. *)
Definition travel_agency : proto := mkproto
  [
    (* A: EndpointA, :65 *) ([Rcv (PChoice 0 1) End; End], SRole 2 SEnd);
    (* C: EndpointC, :72 *) ([Snd (PChoice 0 1) End; Snd (PChoice 0 3) End], SBroadcast);
    (* S: EndpointS, :82 *) ([End; Rcv (PChoice 0 3) End], SRole 2 SEnd)
  ]
  [[
    (* 0.0 Select *) [
      (* A: :26 *) ([Rcv (PChoice 1 1) End; End], SRole 2 SEnd);
      (* C: as used after :123 *) ([Snd (PChoice 1 1) End; Snd (PChoice 1 3) End], SBroadcast);
      (* S: :45 *) ([End; Rcv (PChoice 1 3) End], SRole 2 SEnd)];
    (* 0.1 Loop *) [
      (* A: :27-34 *) ([Rcv (PVal 0) (Snd (PVal 0) (Rcv (PChoice 0 1) End)); Snd (PVal 0) End], SRole 2 (SRole 2 (SRole 3 (SRole 2 SEnd))));
      (* C: EndpointCLoop, :73-78 *) ([Snd (PVal 0) (Rcv (PVal 0) (Snd (PChoice 0 1) End)); Snd (PChoice 0 3) End], SRole 1 (SRole 1 SBroadcast));
      (* S: :46 *) ([Rcv (PVal 0) End; Rcv (PChoice 0 3) End], SRole 1 (SRole 2 SEnd))]
  ];  [
    (* 1.0 Yes *) [
      (* A: :38 *) ([Rcv (PVal 0) End; Snd (PVal 0) End], SRole 2 (SRole 3 SEnd));
      (* C: ChoiceCYes, :69-70 *) ([Snd (PVal 0) End; Snd (PVal 0) (Rcv (PVal 0) End)], SRole 1 (SRole 3 (SRole 3 SEnd)));
      (* S: :50-57 *) ([Rcv (PVal 0) End; Rcv (PVal 0) (Snd (PVal 0) End)], SRole 1 (SRole 2 (SRole 2 SEnd)))];
    (* 1.1 No *) [
      (* A: :39 *) ([Rcv (PVal 0) End; Snd (PVal 0) End], SRole 2 (SRole 3 SEnd));
      (* C: ChoiceCNo, :71 *) ([Snd (PVal 0) End; End], SRole 1 SEnd);
      (* S: :58 *) ([Rcv (PVal 0) End; End], SRole 1 SEnd)]
  ]].

(** examples/mpst/video_stream.rs. Roles: 1 = A, 2 = B, 3 = C. Payloads: 0 = i32. Choice 0: C chooses (Branches0AtoC,
    :30-33, Branches0BtoC, :34-37): 0 = End, 1 = Video. The same types: examples/checking/video_stream.rs,
    examples/basic/video_stream_basic.rs, examples/ampst/video_stream.rs, examples/atmp/video_stream.rs,
    tests/baking_atmp_mod/timeless.rs, tests/baking_atmp_mod/timers.rs, tests/baking_atmp_mod/timers_err.rs,
    tests/baking_message_mod/macro_multi_recursion_message.rs, tests/baking_mod/macros_baking/macro_multi_recursion.rs,
    tests/baking_mod/macros_baking/macro_multi_recursion_macro_of_macro.rs,
    tests/baking_mod/macros_baking/macro_multi_recursion_short.rs, tests/baking_mod/macros_baking/macro_recursive.rs,
    tests/baking_mod/simple_baking/c_usecase_recursive.rs, tests/basics_mod/simple_basics/c_usecase_recursive.rs,
    tests/macros_multiple_mod/macro_multi_recursion.rs, tests/macros_multiple_mod/macro_recursive.rs. *)
Definition video_stream : proto := mkproto
  [
    (* A: EndpointAFull, :70 *) ([End; Rcv (PVal 0) (Snd (PVal 0) (Rcv (PChoice 0 1) End))], SRole 3 (SRole 3 (SRole 3 SEnd)));
    (* B: EndpointBRecurs, :73 *) ([End; Rcv (PChoice 0 2) End], SRole 3 SEnd);
    (* C: EndpointCFull, :66 *) ([Snd (PVal 0) (Rcv (PVal 0) (Snd (PChoice 0 1) End)); Snd (PChoice 0 2) End], SRole 1 (SRole 1 SBroadcast))
  ]
  [[
    (* 0.0 End *) [
      (* A: :31 *) ([End; End], SEnd);
      (* B: :35 *) ([End; End], SEnd);
      (* C: as used after :133 *) ([End; End], SEnd)];
    (* 0.1 Video *) [
      (* A: :32 *) ([Snd (PVal 0) (Rcv (PVal 0) End); Rcv (PVal 0) (Snd (PVal 0) (Rcv (PChoice 0 1) End))], SRole 3 (SRole 2 (SRole 2 (SRole 3 (SRole 3 SEnd)))));
      (* B: :36 *) ([Rcv (PVal 0) (Snd (PVal 0) End); Rcv (PChoice 0 2) End], SRole 1 (SRole 1 (SRole 3 SEnd)));
      (* C: EndpointCVideo, :60-65 *) ([Snd (PVal 0) (Rcv (PVal 0) (Snd (PChoice 0 1) End)); Snd (PChoice 0 2) End], SRole 1 (SRole 1 SBroadcast))]
  ]].

(** examples/readme_example.rs. Roles: 1 = A, 2 = B, 3 = C. Payloads: 0 = i32. The same types:
    tests/baking_mod/simple_baking/simple.rs, tests/basics_mod/simple_basics/simple.rs,
    tests/checking_mod/basics/checking_simple.rs, tests/graph_mod/simple.rs. *)
Definition readme_example : proto := mkproto
  [
    (* A: EndpointA, :45 *) ([Snd (PVal 0) End; Rcv (PVal 0) End], SRole 2 (SRole 3 SEnd));
    (* B: EndpointB, :47 *) ([Rcv (PVal 0) End; Snd (PVal 0) End], SRole 1 (SRole 3 SEnd));
    (* C: EndpointC, :49 *) ([Snd (PVal 0) End; Rcv (PVal 0) End], SRole 1 (SRole 2 SEnd))
  ]
  [].

(** examples/checking/adder.rs. Roles: 1 = A, 2 = B, 3 = C. Payloads: 0 = i32, 1 = (). Choice 0: C chooses (Branches0AtoC,
    :20-23, Branches0BtoC, :45-48): 0 = Add, 1 = Bye. The same types: tests/scribble/top_down_recursive.rs. *)
Definition adder : proto := mkproto
  [
    (* A: EndpointA48, :30 *) ([End; Rcv (PVal 0) (Rcv (PChoice 0 1) End)], SRole 3 (SRole 3 SEnd));
    (* B: EndpointB50, :53 *) ([End; Rcv (PChoice 0 2) End], SRole 3 SEnd);
    (* C: EndpointC13, :70 *) ([Snd (PVal 0) (Snd (PChoice 0 1) End); Snd (PChoice 0 2) End], SRole 1 SBroadcast)
  ]
  [[
    (* 0.0 Add *) [
      (* A: :21 *) ([Rcv (PVal 0) End; Rcv (PChoice 0 1) End], SRole 2 (SRole 3 SEnd));
      (* B: :46 *) ([Snd (PVal 0) End; Rcv (PVal 0) (Rcv (PChoice 0 2) End)], SRole 3 (SRole 1 (SRole 3 SEnd)));
      (* C: EndpointC7, :65 *) ([Snd (PChoice 0 1) End; Snd (PVal 0) (Snd (PChoice 0 2) End)], SRole 2 SBroadcast)];
    (* 0.1 Bye *) [
      (* A: :22 *) ([Rcv (PVal 1) End; End], SRole 2 SEnd);
      (* B: :47 *) ([Snd (PVal 1) End; Rcv (PVal 1) End], SRole 3 (SRole 1 SEnd));
      (* C: EndpointC9, :60 *) ([End; Snd (PVal 1) End], SRole 2 SEnd)]
  ]].

(** examples/checking/basic.rs. Roles: 1 = A, 2 = B. Payloads: 0 = Request, 1 = Response, 2 = Stop. Choice 0: A chooses
    (Branching0fromAtoB, :45-49): 0 = More, 1 = Done. The same types: examples/artifact/basic.rs. *)
Definition checking_basic : proto := mkproto
  [
    (* A: EndpointA, :56 *) ([Rcv (PVal 0) (Snd (PChoice 0 2) End)], SRole 2 SBroadcast);
    (* B: EndpointB, :60 *) ([Snd (PVal 0) (Rcv (PChoice 0 2) End)], SRole 1 (SRole 1 SEnd))
  ]
  [[
    (* 0.0 More *) [
      (* A: EndpointAMore, :53 *) ([Rcv (PVal 1) (Snd (PChoice 0 2) End)], SRole 2 SBroadcast);
      (* B: :47 *) ([Snd (PVal 1) (Rcv (PChoice 0 2) End)], SRole 1 (SRole 1 SEnd))];
    (* 0.1 Done *) [
      (* A: EndpointADone, :54 *) ([Rcv (PVal 2) End], SRole 2 SEnd);
      (* B: :48 *) ([Snd (PVal 2) End], SRole 1 SEnd)]
  ]].

(** examples/rate_based_ampst/gravity_android.rs. Roles: 1 = Sensor, 2 = SensorManager. Payloads: 0 = GetCoordinates, 1 =
    Coordinates, 2 = Stop. Choice 0: SensorManager chooses (Branching0FromSensorToSensorManager, :35-44): 0 = Loop, 1 =
    Stop. The same types: examples/rate_based_atmp/gravity_android.rs. *)
Definition gravity_android : proto := mkproto
  [
    (* Sensor: Endpoint0Car, :55-56 *) ([Rcv (PChoice 0 1) End], SRole 2 SEnd);
    (* SensorManager: Endpoint0SensorManager, :59-60 *) ([Snd (PChoice 0 1) End], SBroadcast)
  ]
  [[
    (* 0.0 Loop *) [
      (* Sensor: :36-42 *) ([Rcv (PVal 0) (Snd (PVal 1) (Rcv (PChoice 0 1) End))], SRole 2 (SRole 2 (SRole 2 SEnd)));
      (* SensorManager: Endpoint1SensorManagerLoop, :62-66 *) ([Snd (PVal 0) (Rcv (PVal 1) (Snd (PChoice 0 1) End))], SRole 1 (SRole 1 SBroadcast))];
    (* 0.1 Stop *) [
      (* Sensor: :43 *) ([Rcv (PVal 2) End], SRole 2 SEnd);
      (* SensorManager: Endpoint1SensorManagerStop, :68-69 *) ([Snd (PVal 2) End], SRole 1 SEnd)]
  ]].

(** examples/rate_based_ampst/pinetime_heart_rate.rs. Roles: 1 = Scl, 2 = Sda. Payloads: 0 = BUF, 1 = HDSTA, 2 = SUSTA, 3
    = SUSTO, 4 = HDDAT, 5 = SUDAT, 6 = Stop. Choice 0: Sda chooses (Branching0FromSclToSda, :43-52): 0 = Loop, 1 = Stop.
    The same types: examples/rate_based_atmp/pinetime_heart_rate.rs. *)
Definition pinetime_heart_rate : proto := mkproto
  [
    (* Scl: Endpoint0Car, :61 *) ([Rcv (PChoice 0 1) End], SRole 2 SEnd);
    (* Sda: Endpoint0Key, :63 *) ([Snd (PChoice 0 1) End], SBroadcast)
  ]
  [[
    (* 0.0 Loop *) [
      (* Scl: :44-50 *) ([Rcv (PVal 0) (Rcv (PVal 1) (Rcv (PVal 2) (Rcv (PVal 3) (Rcv (PVal 4) (Rcv (PVal 5) (Rcv (PChoice 0 1) End))))))], SRole 2 (SRole 2 (SRole 2 (SRole 2 (SRole 2 (SRole 2 (SRole 2 SEnd)))))));
      (* Sda: Endpoint1KeyLoop, :65-69 *) ([Snd (PVal 0) (Snd (PVal 1) (Snd (PVal 2) (Snd (PVal 3) (Snd (PVal 4) (Snd (PVal 5) (Snd (PChoice 0 1) End))))))], SRole 1 (SRole 1 (SRole 1 (SRole 1 (SRole 1 (SRole 1 SBroadcast))))))];
    (* 0.1 Stop *) [
      (* Scl: :51 *) ([Rcv (PVal 6) End], SRole 2 SEnd);
      (* Sda: Endpoint1KeyStop, :71 *) ([Snd (PVal 6) End], SRole 1 SEnd)]
  ]].

(** examples/rate_based_ampst/proximity_based_car_key.rs. Roles: 1 = Car, 2 = Key. Payloads: 0 = Present, 1 = Absent, 2 =
    Wake, 3 = Stop, 4 = Challenge, 5 = Response. Choice 0: Key chooses (Branching0FromKeyToCar, :45-49): 0 = Present, 1 =
    Absent, 2 = Stop. Choice 1: Key chooses (Branching1FromKeyToCar, :51-53): 0 = Present. Choice 2: Key chooses
    (Branching2FromKeyToCar, :55-57): 0 = Present. The same types: examples/rate_based_atmp/proximity_based_car_key.rs. *)
Definition proximity_based_car_key : proto := mkproto
  [
    (* Car: Endpoint0Car, :72 *) ([Rcv (PChoice 0 1) End], SRole 2 SEnd);
    (* Key: Endpoint0Key, :74 *) ([Snd (PChoice 0 1) End], SBroadcast)
  ]
  [[
    (* 0.0 Present *) [
      (* Car: :46 *) ([Rcv (PVal 0) (Rcv (PChoice 1 1) End)], SRole 2 (SRole 2 SEnd));
      (* Key: Endpoint1KeyData, :76 *) ([Snd (PVal 0) (Snd (PChoice 1 1) End)], SRole 1 SBroadcast)];
    (* 0.1 Absent *) [
      (* Car: :47 *) ([Rcv (PVal 1) (Snd (PVal 2) (Rcv (PChoice 0 1) End))], SRole 2 (SRole 2 (SRole 2 SEnd)));
      (* Key: Endpoint1KeyAbsent, :82 *) ([Snd (PVal 1) (Rcv (PVal 2) (Snd (PChoice 0 1) End))], SRole 1 (SRole 1 SBroadcast))];
    (* 0.2 Stop *) [
      (* Car: :48 *) ([Rcv (PVal 3) End], SRole 2 SEnd);
      (* Key: Endpoint1KeyStop, :84 *) ([Snd (PVal 3) End], SRole 1 SEnd)]
  ];  [
    (* 1.0 Present *) [
      (* Car: :52 *) ([Snd (PVal 4) (Rcv (PChoice 2 1) End)], SRole 2 (SRole 2 SEnd));
      (* Key: Endpoint2KeyData, :78 *) ([Rcv (PVal 4) (Snd (PChoice 2 1) End)], SRole 1 SBroadcast)]
  ];  [
    (* 2.0 Present *) [
      (* Car: :56 *) ([Rcv (PVal 5) (Snd (PVal 2) (Rcv (PChoice 0 1) End))], SRole 2 (SRole 2 (SRole 2 SEnd)));
      (* Key: Endpoint3KeyData, :80 *) ([Snd (PVal 5) (Rcv (PVal 2) (Snd (PChoice 0 1) End))], SRole 1 (SRole 1 SBroadcast))]
  ]].

(** examples/atmp/three_buyers.rs. Roles: 1 = A, 2 = C, 3 = S. Payloads: 0 = i32. Choice 0: C chooses (Branching0fromCtoA,
    :30-47, Branching0fromCtoS, :50-76): 0 = Accept, 1 = Quit. *)
Definition atmp_three_buyers : proto := mkproto
  [
    (* A: EndpointA, :81-95 *) ([Snd (PVal 0) (Rcv (PChoice 0 1) End); Snd (PVal 0) (Rcv (PVal 0) End)], SRole 3 (SRole 3 (SRole 2 (SRole 2 SEnd))));
    (* C: EndpointC, :98-103 *) ([Rcv (PVal 0) (Snd (PChoice 0 1) End); Rcv (PVal 0) (Snd (PChoice 0 3) End)], SRole 3 (SRole 1 SBroadcast));
    (* S: EndpointS, :118-132 *) ([Rcv (PVal 0) (Snd (PVal 0) End); Snd (PVal 0) (Rcv (PChoice 0 3) End)], SRole 1 (SRole 1 (SRole 2 (SRole 2 SEnd))))
  ]
  [[
    (* 0.0 Accept *) [
      (* A: :31-38 *) ([Rcv (PVal 0) End; End], SRole 2 SEnd);
      (* C: EndpointCAccept, :104-109 *) ([Snd (PVal 0) End; Snd (PVal 0) (Rcv (PVal 0) End)], SRole 1 (SRole 3 (SRole 3 SEnd)));
      (* S: :51-67 *) ([End; Rcv (PVal 0) (Snd (PVal 0) End)], SRole 2 (SRole 2 SEnd))];
    (* 0.1 Quit *) [
      (* A: :39-46 *) ([Rcv (PVal 0) End; End], SRole 2 SEnd);
      (* C: EndpointCQuit, :110-115 *) ([Snd (PVal 0) End; Snd (PVal 0) End], SRole 3 (SRole 1 SEnd));
      (* S: :68-75 *) ([End; Rcv (PVal 0) End], SRole 2 SEnd)]
  ]].

(** examples/atmp/travel_agency.rs. Roles: 1 = A, 2 = C, 3 = S. Payloads: 0 = i32. Choice 0: C chooses
    (Branching0fromCtoA, :37-47, Branching0fromCtoS, :90-100): 0 = Select, 1 = Loops. Choice 1: C chooses
    (Branching1fromCtoA, :51-86, Branching1fromCtoS, :104-114): 0 = Yes, 1 = No. *)
Definition atmp_travel_agency : proto := mkproto
  [
    (* A: EndpointA, :121 *) ([Rcv (PChoice 0 1) End; End], SRole 2 SEnd);
    (* C: EndpointC, :125 *) ([Snd (PChoice 0 1) End; Snd (PChoice 0 3) End], SBroadcast);
    (* S: EndpointS, :171 *) ([End; Rcv (PChoice 0 3) End], SRole 2 SEnd)
  ]
  [[
    (* 0.0 Select *) [
      (* A: :38 *) ([Rcv (PChoice 1 1) End; End], SRole 2 SEnd);
      (* C: EndpointCSelect, :126-131 *) ([Snd (PChoice 1 1) End; Snd (PChoice 1 3) End], SBroadcast);
      (* S: :91 *) ([End; Rcv (PChoice 1 3) End], SRole 2 SEnd)];
    (* 0.1 Loops *) [
      (* A: :39-46 *) ([Rcv (PVal 0) (Snd (PVal 0) (Rcv (PChoice 0 1) End)); Snd (PVal 0) End], SRole 2 (SRole 2 (SRole 3 (SRole 2 SEnd))));
      (* C: EndpointCLoops, :132-155 *) ([Snd (PVal 0) (Rcv (PVal 0) (Snd (PChoice 0 1) End)); Snd (PChoice 0 3) End], SRole 1 (SRole 1 SBroadcast));
      (* S: :92-99 *) ([Rcv (PVal 0) End; Rcv (PChoice 0 3) End], SRole 1 (SRole 2 SEnd))]
  ];  [
    (* 1.0 Yes *) [
      (* A: :52-68 *) ([Rcv (PVal 0) (Rcv (PVal 0) End); Snd (PVal 0) End], SRole 2 (SRole 3 (SRole 2 SEnd)));
      (* C: EndpointCYes, :156-161 *) ([Snd (PVal 0) (Snd (PVal 0) End); Snd (PVal 0) (Rcv (PVal 0) End)], SRole 1 (SRole 3 (SRole 3 (SRole 1 SEnd))));
      (* S: :105 *) ([Rcv (PVal 0) End; Rcv (PVal 0) (Snd (PVal 0) End)], SRole 1 (SRole 2 (SRole 2 SEnd)))];
    (* 1.1 No *) [
      (* A: :69-85 *) ([Rcv (PVal 0) (Rcv (PVal 0) End); Snd (PVal 0) End], SRole 2 (SRole 3 (SRole 2 SEnd)));
      (* C: EndpointCNo, :162-167 *) ([Snd (PVal 0) (Snd (PVal 0) End); End], SRole 1 (SRole 1 SEnd));
      (* S: :106-113 *) ([Rcv (PVal 0) End; End], SRole 1 SEnd)]
  ]].

(** examples/artifact_atmp/basic.rs. Roles: 1 = A, 2 = B. Payloads: 0 = Request, 1 = Response, 2 = Stop. Choice 0: A
    chooses (Branching0fromAtoB, :85-89): 0 = More, 1 = Done. *)
Definition artifact_atmp_basic : proto := mkproto
  [
    (* A: EndpointA, :96 *) ([Rcv (PVal 0) (Snd (PChoice 0 2) End)], SRole 2 SBroadcast);
    (* B: EndpointB, :100 *) ([Snd (PVal 0) (Rcv (PChoice 0 2) End)], SRole 1 (SRole 1 SEnd))
  ]
  [[
    (* 0.0 More *) [
      (* A: EndpointAMore, :93 *) ([Snd (PVal 1) (Snd (PChoice 0 2) End)], SRole 2 SBroadcast);
      (* B: :87 *) ([Rcv (PVal 1) (Rcv (PChoice 0 2) End)], SRole 1 (SRole 1 SEnd))];
    (* 0.1 Done *) [
      (* A: EndpointADone, :94 *) ([Snd (PVal 2) End], SRole 2 SEnd);
      (* B: :88 *) ([Rcv (PVal 2) End], SRole 1 SEnd)]
  ]].

(** examples/artifact_atmp/generated_files/ThreeBuyersCorrect.rs. Roles: 1 = A, 2 = C, 3 = S. Payloads: 0 = Empty4, 1 =
    Empty1, 2 = Empty2, 3 = Empty3, 4 = Ok, 5 = Empty5, 6 = Quit. Choice 0: C chooses (Choice_0_FromCToA, :152-155,
    Choice_0_FromCToS, :158-161): 0 = Branching0, 1 = Branching1. *)
Definition three_buyers_correct : proto := mkproto
  [
    (* A: Endpoint_0_ForA, :165-166 *) ([Snd (PVal 0) (Rcv (PChoice 0 1) End); Snd (PVal 1) (Rcv (PVal 2) End)], SRole 3 (SRole 3 (SRole 2 (SRole 2 SEnd))));
    (* C: Endpoint_0_ForC, :169-170 *) ([Rcv (PVal 0) (Snd (PChoice 0 1) End); Rcv (PVal 3) (Snd (PChoice 0 3) End)], SRole 3 (SRole 1 SBroadcast));
    (* S: Endpoint_0_ForS, :173-174 *) ([Rcv (PVal 1) (Snd (PVal 2) End); Snd (PVal 3) (Rcv (PChoice 0 3) End)], SRole 1 (SRole 1 (SRole 2 (SRole 2 SEnd))))
  ]
  [[
    (* 0.0 Branching0 *) [
      (* A: :153 *) ([Rcv (PVal 4) End; End], SRole 2 SEnd);
      (* C: Endpoint_0_0_ForC, :211-216 *) ([Snd (PVal 4) End; Snd (PVal 4) (Rcv (PVal 5) End)], SRole 1 (SRole 3 (SRole 3 SEnd)));
      (* S: :159 *) ([End; Rcv (PVal 4) (Snd (PVal 5) End)], SRole 2 (SRole 2 SEnd))];
    (* 0.1 Branching1 *) [
      (* A: :154 *) ([Rcv (PVal 6) End; End], SRole 2 SEnd);
      (* C: Endpoint_0_1_ForC, :186-191 *) ([Snd (PVal 6) End; Snd (PVal 6) End], SRole 1 (SRole 3 SEnd));
      (* S: :160 *) ([End; Rcv (PVal 6) End], SRole 2 SEnd)]
  ]].

(** tests/baking_message_mod/macro_multi_recursion_message_option.rs. Roles: 1 = A, 2 = B, 3 = D. Payloads: 0 =
    Message<String, i32>, 1 = Message<String, Option<i32>>. Choice 0: D chooses (Branches0AtoD, :44-47, Branches0BtoD,
    :48-51): 0 = End, 1 = Video. *)
Definition macro_multi_recursion_message_option : proto := mkproto
  [
    (* A: EndpointAFull, :83 *) ([End; Rcv (PVal 0) (Snd (PVal 0) (Rcv (PChoice 0 1) End))], SRole 3 (SRole 3 (SRole 3 SEnd)));
    (* B: EndpointBRecurs, :86 *) ([End; Rcv (PChoice 0 2) End], SRole 3 SEnd);
    (* D: EndpointDFull, :79 *) ([Snd (PVal 0) (Rcv (PVal 0) (Snd (PChoice 0 1) End)); Snd (PChoice 0 2) End], SRole 1 (SRole 1 SBroadcast))
  ]
  [[
    (* 0.0 End *) [
      (* A: :45 *) ([End; End], SEnd);
      (* B: :49 *) ([End; End], SEnd);
      (* D: as used after :164 *) ([End; End], SEnd)];
    (* 0.1 Video *) [
      (* A: :46 *) ([Snd (PVal 1) (Rcv (PVal 1) End); Rcv (PVal 1) (Snd (PVal 1) (Rcv (PChoice 0 1) End))], SRole 3 (SRole 2 (SRole 2 (SRole 3 (SRole 3 SEnd)))));
      (* B: :50 *) ([Rcv (PVal 1) (Snd (PVal 1) End); Rcv (PChoice 0 2) End], SRole 1 (SRole 1 (SRole 3 SEnd)));
      (* D: EndpointDVideo, :72-77 *) ([Snd (PVal 1) (Rcv (PVal 1) (Snd (PChoice 0 1) End)); Snd (PChoice 0 2) End], SRole 1 (SRole 1 SBroadcast))]
  ]].

(** tests/baking_mod/macros_baking/macro_basics.rs. Roles: 1 = A, 2 = B, 3 = D. Payloads: 0 = i32. The same types:
    tests/macros_simple_mod/macro_basics.rs. *)
Definition macro_basics : proto := mkproto
  [
    (* A: SendMeshedChannelsA, :16 *) ([End; Snd (PVal 0) End], SRole 3 SEnd);
    (* B: Dummy, :23 *) ([End; End], SEnd);
    (* D: RecvMeshedChannelsD, :18 *) ([Rcv (PVal 0) End; End], SRole 1 SEnd)
  ]
  [].

(** tests/baking_mod/macros_baking/macro_multi_send_recv_meshedchannels.rs. Roles: 1 = A, 2 = B, 3 = C, 4 = D, 5 = E.
    Payloads: 0 = i32. The same types: tests/macros_multiple_mod/macro_multi_send_recv_meshedchannels.rs. *)
Definition macro_multi_send_recv_meshedchannels : proto := mkproto
  [
    (* A: PawnA, :15 *) ([End; End; End; End], SEnd);
    (* B: RecvMeshedChannelsB, :13 *) ([End; End; Rcv (PVal 0) End; End], SRole 4 SEnd);
    (* C: PawnC, :16 *) ([End; End; End; End], SEnd);
    (* D: SendMeshedChannelsD, :11 *) ([End; Snd (PVal 0) End; End; End], SRole 2 SEnd);
    (* E: PawnE, :17 *) ([End; End; End; End], SEnd)
  ]
  [].

(** tests/baking_mod/simple_baking/a_usecase_recursive.rs. Roles: 1 = A, 2 = B, 3 = C. Payloads: 0 = i32. Choice 0: A
    chooses (Branches0BtoA, :48-51, Branches0CtoA, :52-55): 0 = End, 1 = Video. The same types:
    tests/basics_mod/simple_basics/a_usecase_recursive.rs. *)
Definition a_usecase_recursive : proto := mkproto
  [
    (* A: EndpointAFull, :85 *) ([Snd (PVal 0) (Rcv (PVal 0) (Snd (PChoice 0 2) End)); Snd (PChoice 0 3) End], SRole 2 (SRole 2 SBroadcast));
    (* B: EndpointBFull, :89 *) ([Rcv (PVal 0) (Snd (PVal 0) (Rcv (PChoice 0 2) End)); End], SRole 1 (SRole 1 (SRole 1 SEnd)));
    (* C: EndpointCFull, :92 *) ([Rcv (PChoice 0 3) End; End], SRole 1 SEnd)
  ]
  [[
    (* 0.0 End *) [
      (* A: as used after :148 *) ([End; End], SEnd);
      (* B: :49 *) ([End; End], SEnd);
      (* C: :53 *) ([End; End], SEnd)];
    (* 0.1 Video *) [
      (* A: EndpointAFull, :85 *) ([Snd (PVal 0) (Rcv (PVal 0) (Snd (PChoice 0 2) End)); Snd (PChoice 0 3) End], SRole 2 (SRole 2 SBroadcast));
      (* B: :50 *) ([Rcv (PVal 0) (Snd (PVal 0) (Rcv (PChoice 0 2) End)); Snd (PVal 0) (Rcv (PVal 0) End)], SRole 1 (SRole 3 (SRole 3 (SRole 1 (SRole 1 SEnd)))));
      (* C: :54 *) ([Rcv (PChoice 0 3) End; Rcv (PVal 0) (Snd (PVal 0) End)], SRole 2 (SRole 2 (SRole 1 SEnd)))]
  ]].

(** tests/baking_mod/simple_baking/b_usecase_recursive.rs. Roles: 1 = A, 2 = B, 3 = C. Payloads: 0 = i32. Choice 0: B
    chooses (Branches0AtoB, :53-56, Branches0CtoB, :49-52): 0 = End, 1 = Video. The same types:
    tests/basics_mod/simple_basics/b_usecase_recursive.rs, tests/checking_mod/basics/checking_recursion.rs. *)
Definition b_usecase_recursive : proto := mkproto
  [
    (* A: EndpointAFull, :93 *) ([Rcv (PChoice 0 1) End; End], SRole 2 SEnd);
    (* B: EndpointBFull, :86 *) ([Snd (PChoice 0 1) End; Snd (PVal 0) (Rcv (PVal 0) (Snd (PChoice 0 3) End))], SRole 3 (SRole 3 SBroadcast));
    (* C: EndpointCFull, :90 *) ([End; Rcv (PVal 0) (Snd (PVal 0) (Rcv (PChoice 0 3) End))], SRole 2 (SRole 2 (SRole 2 SEnd)))
  ]
  [[
    (* 0.0 End *) [
      (* A: :54 *) ([End; End], SEnd);
      (* B: as used after :149 *) ([End; End], SEnd);
      (* C: :50 *) ([End; End], SEnd)];
    (* 0.1 Video *) [
      (* A: :55 *) ([Rcv (PChoice 0 1) End; Rcv (PVal 0) (Snd (PVal 0) End)], SRole 3 (SRole 3 (SRole 2 SEnd)));
      (* B: EndpointBFull, :86 *) ([Snd (PChoice 0 1) End; Snd (PVal 0) (Rcv (PVal 0) (Snd (PChoice 0 3) End))], SRole 3 (SRole 3 SBroadcast));
      (* C: :51 *) ([Snd (PVal 0) (Rcv (PVal 0) End); Rcv (PVal 0) (Snd (PVal 0) (Rcv (PChoice 0 3) End))], SRole 2 (SRole 1 (SRole 1 (SRole 2 (SRole 2 SEnd)))))]
  ]].

(** tests/cancel_mod/cancel_00.rs. Roles: 1 = A, 2 = B, 3 = C. Payloads: 0 = i32. The same types:
    tests/cancel_mod/cancel_01.rs, tests/cancel_mod/cancel_15.rs, tests/cancel_mod/cancel_16.rs. *)
Definition cancel_00 : proto := mkproto
  [
    (* A: EndpointA, :20 *) ([Snd (PVal 0) End; End], SRole 2 SEnd);
    (* B: EndpointB, :21 *) ([Rcv (PVal 0) End; Snd (PVal 0) End], SRole 1 (SRole 3 SEnd));
    (* C: EndpointC, :22 *) ([End; Rcv (PVal 0) End], SRole 2 SEnd)
  ]
  [].

(** tests/cancel_mod/cancel_02.rs. Roles: 1 = A, 2 = B, 3 = C. Payloads: 0 = i32. *)
Definition cancel_02 : proto := mkproto
  [
    (* A: EndpointA, :66 *) ([Snd (PVal 0) End; Rcv (PVal 0) End], SRole 3 (SRole 2 SEnd));
    (* B: EndpointB, :67 *) ([Rcv (PVal 0) End; End], SRole 1 SEnd);
    (* C: EndpointC, :68 *) ([Snd (PVal 0) End; End], SRole 1 SEnd)
  ]
  [].

(** tests/cancel_mod/cancel_03.rs. Roles: 1 = A, 2 = B, 3 = C, 4 = D. Payloads: 0 = i32. *)
Definition cancel_03 : proto := mkproto
  [
    (* A: EndpointA, :73 *) ([Snd (PVal 0) End; End; End], SRole 2 SEnd);
    (* B: EndpointB, :74 *) ([Rcv (PVal 0) End; End; End], SRole 1 SEnd);
    (* C: EndpointC, :75 *) ([End; End; Snd (PVal 0) End], SRole 4 SEnd);
    (* D: EndpointD, :76 *) ([End; End; Rcv (PVal 0) End], SRole 3 SEnd)
  ]
  [].

(** tests/cancel_mod/cancel_04.rs. Roles: 1 = A, 2 = B, 3 = C, 4 = D. Payloads: 0 = i32. *)
Definition cancel_04 : proto := mkproto
  [
    (* A: EndpointA, :65 *) ([Snd (PVal 0) End; End], SRole 2 SEnd);
    (* B: EndpointB, :66 *) ([Rcv (PVal 0) End; Rcv (PVal 0) End], SRole 1 (SRole 3 SEnd));
    (* C: EndpointC, :67 *) ([End; Snd (PVal 0) End], SRole 2 SEnd)
  ]
  [].

(** tests/cancel_mod/cancel_05.rs. Roles: 1 = A, 2 = B, 3 = C. Payloads: 0 = i32. *)
Definition cancel_05 : proto := mkproto
  [
    (* A: EndpointA, :71 *) ([Snd (PVal 0) End; Snd (PVal 0) End], SRole 2 (SRole 3 SEnd));
    (* B: EndpointB, :72 *) ([Rcv (PVal 0) End; End], SRole 1 SEnd);
    (* C: EndpointC, :73 *) ([Rcv (PVal 0) End; End], SRole 1 SEnd)
  ]
  [].

(** tests/cancel_mod/cancel_06.rs. Roles: 1 = A, 2 = B, 3 = C, 4 = D. Payloads: 0 = i32. The same types:
    tests/cancel_mod/cancel_07.rs. *)
Definition cancel_06 : proto := mkproto
  [
    (* A: EndpointA, :74 *) ([End; End; End], SEnd);
    (* B: EndpointB, :75 *) ([End; Rcv (PVal 0) End; End], SRole 3 SEnd);
    (* C: EndpointC, :76 *) ([End; Snd (PVal 0) End; Snd (PVal 0) End], SRole 2 (SRole 4 SEnd));
    (* D: EndpointD, :77 *) ([End; End; Rcv (PVal 0) End], SRole 3 SEnd)
  ]
  [].

(** tests/checking_mod/complex/bargain.rs. Roles: 1 = A, 2 = B, 3 = C. Payloads: 0 = Haggle, 1 = Price, 2 = Happy, 3 =
    Info. Choice 0: A chooses (Branches0BfromA, :47-58, Branches0CfromA, :63-67): 0 = End, 1 = Haggle, 2 = Happy. *)
Definition bargain : proto := mkproto
  [
    (* A: EndpointAFull, :81 *) ([Snd (PChoice 0 2) End; Snd (PChoice 0 3) End], SBroadcast);
    (* B: EndpointBFull, :84 *) ([Rcv (PChoice 0 2) End; End], SRole 1 SEnd);
    (* C: EndpointCFull, :87 *) ([Rcv (PChoice 0 3) End; End], SRole 1 SEnd)
  ]
  [[
    (* 0.0 End *) [
      (* A: EndpointAEnd, :72 *) ([End; End], SEnd);
      (* B: :48 *) ([End; End], SEnd);
      (* C: :64 *) ([End; End], SEnd)];
    (* 0.1 Haggle *) [
      (* A: EndpointAHaggle, :73-78 *) ([Snd (PVal 0) (Rcv (PVal 1) (Snd (PChoice 0 2) End)); Snd (PChoice 0 3) End], SRole 2 (SRole 2 SBroadcast));
      (* B: :49-56 *) ([Rcv (PVal 0) (Snd (PVal 1) (Rcv (PChoice 0 2) End)); End], SRole 1 (SRole 1 (SRole 1 SEnd)));
      (* C: :65 *) ([Rcv (PChoice 0 3) End; End], SRole 1 SEnd)];
    (* 0.2 Happy *) [
      (* A: EndpointAHappy, :79-80 *) ([Snd (PVal 2) End; Snd (PVal 3) End], SRole 2 (SRole 3 SEnd));
      (* B: :57 *) ([Rcv (PVal 2) End; End], SRole 1 SEnd);
      (* C: :66 *) ([Rcv (PVal 3) End; End], SRole 1 SEnd)]
  ]].

(** tests/checking_mod/complex/commit_protocol.rs. Roles: 1 = A, 2 = B, 3 = C, 4 = D. Payloads: 0 = Update, 1 = Okay.
    Choice 0: A chooses (Branches0BfromA, :50-55, Branches0CfromA, :68-73, Branches0DfromA, :86-91): 0 = End, 1 =
    CommitForward. Choice 1: A chooses (Branches1BfromA, :59-63, Branches1CfromA, :77-81, Branches1DfromA, :95-99): 0 =
    CommitBackward. *)
Definition commit_protocol : proto := mkproto
  [
    (* A: EndpointAFull, :119-120 *) ([Snd (PChoice 0 2) End; Snd (PChoice 0 3) End; Snd (PChoice 0 4) End], SBroadcast);
    (* B: EndpointBFull, :123 *) ([Rcv (PChoice 0 2) End; End; End], SRole 1 SEnd);
    (* C: EndpointCFull, :126 *) ([Rcv (PChoice 0 3) End; End; End], SRole 1 SEnd);
    (* D: EndpointDFull, :129 *) ([Rcv (PChoice 0 4) End; End; End], SRole 1 SEnd)
  ]
  [[
    (* 0.0 End *) [
      (* A: EndpointAEnd, :104 *) ([End; End; End], SEnd);
      (* B: :51 *) ([End; End; End], SEnd);
      (* C: :69 *) ([End; End; End], SEnd);
      (* D: :87 *) ([End; End; End], SEnd)];
    (* 0.1 CommitForward *) [
      (* A: EndpointACommitForward, :105-111 *) ([Rcv (PVal 0) (Snd (PChoice 1 2) End); Snd (PVal 0) (Snd (PChoice 1 3) End); Snd (PVal 0) (Snd (PChoice 1 4) End)], SRole 2 (SRole 3 (SRole 4 SBroadcast)));
      (* B: :52-54 *) ([Snd (PVal 0) (Rcv (PChoice 1 2) End); End; End], SRole 1 (SRole 1 SEnd));
      (* C: :70-72 *) ([Rcv (PVal 0) (Rcv (PChoice 1 3) End); End; End], SRole 1 (SRole 1 SEnd));
      (* D: :88-90 *) ([Rcv (PVal 0) (Rcv (PChoice 1 4) End); End; End], SRole 1 (SRole 1 SEnd))]
  ];  [
    (* 1.0 CommitBackward *) [
      (* A: EndpointACommitBackward, :112-118 *) ([Snd (PVal 1) (Snd (PChoice 0 2) End); Rcv (PVal 1) (Snd (PChoice 0 3) End); Rcv (PVal 1) (Snd (PChoice 0 4) End)], SRole 4 (SRole 3 (SRole 2 SBroadcast)));
      (* B: :60-62 *) ([Rcv (PVal 1) (Rcv (PChoice 0 2) End); End; End], SRole 1 (SRole 1 SEnd));
      (* C: :78-80 *) ([Snd (PVal 1) (Rcv (PChoice 0 3) End); End; End], SRole 1 (SRole 1 SEnd));
      (* D: :96-98 *) ([Snd (PVal 1) (Rcv (PChoice 0 4) End); End; End], SRole 1 (SRole 1 SEnd))]
  ]].

(** tests/checking_mod/complex/four_players_game_sync.rs. Roles: 1 = A, 2 = B, 3 = C, 4 = D. Payloads: 0 = i32. Choice 0:
    A chooses (Branches0BfromA, :42-62, Branches0CfromA, :67-87, Branches0DfromA, :92-112): 0 = End, 1 = Win, 2 = Lose. *)
Definition four_players_game_sync : proto := mkproto
  [
    (* A: EndpointAFull, :132-133 *) ([Snd (PChoice 0 2) End; Snd (PChoice 0 3) End; Snd (PChoice 0 4) End], SBroadcast);
    (* B: EndpointBFull, :136 *) ([Rcv (PChoice 0 2) End; End; End], SRole 1 SEnd);
    (* C: EndpointCFull, :139 *) ([Rcv (PChoice 0 3) End; End; End], SRole 1 SEnd);
    (* D: EndpointDFull, :142 *) ([Rcv (PChoice 0 4) End; End; End], SRole 1 SEnd)
  ]
  [[
    (* 0.0 End *) [
      (* A: EndpointAEnd, :117 *) ([End; End; End], SEnd);
      (* B: :43 *) ([End; End; End], SEnd);
      (* C: :68 *) ([End; End; End], SEnd);
      (* D: :93 *) ([End; End; End], SEnd)];
    (* 0.1 Win *) [
      (* A: EndpointAWin, :125-131 *) ([Rcv (PVal 0) (Snd (PChoice 0 2) End); Snd (PVal 0) (Rcv (PVal 0) (Snd (PChoice 0 3) End)); Snd (PVal 0) (Snd (PChoice 0 4) End)], SRole 3 (SRole 2 (SRole 3 (SRole 4 SBroadcast))));
      (* B: :44-52 *) ([Snd (PVal 0) (Rcv (PChoice 0 2) End); Rcv (PVal 0) End; End], SRole 3 (SRole 1 (SRole 1 SEnd)));
      (* C: :69-77 *) ([Rcv (PVal 0) (Snd (PVal 0) (Rcv (PChoice 0 3) End)); Snd (PVal 0) End; Snd (PVal 0) End], SRole 1 (SRole 2 (SRole 4 (SRole 1 (SRole 1 SEnd)))));
      (* D: :94-102 *) ([Rcv (PVal 0) (Rcv (PChoice 0 4) End); End; Rcv (PVal 0) End], SRole 1 (SRole 3 (SRole 1 SEnd)))];
    (* 0.2 Lose *) [
      (* A: EndpointALose, :118-124 *) ([Rcv (PVal 0) (Snd (PChoice 0 2) End); Snd (PVal 0) (Rcv (PVal 0) (Snd (PChoice 0 3) End)); Snd (PVal 0) (Snd (PChoice 0 4) End)], SRole 3 (SRole 2 (SRole 3 (SRole 4 SBroadcast))));
      (* B: :53-61 *) ([Snd (PVal 0) (Rcv (PChoice 0 2) End); Rcv (PVal 0) End; End], SRole 3 (SRole 1 (SRole 1 SEnd)));
      (* C: :78-86 *) ([Rcv (PVal 0) (Snd (PVal 0) (Rcv (PChoice 0 3) End)); Snd (PVal 0) End; Snd (PVal 0) End], SRole 1 (SRole 2 (SRole 4 (SRole 1 (SRole 1 SEnd)))));
      (* D: :103-111 *) ([Rcv (PVal 0) (Rcv (PChoice 0 4) End); End; Rcv (PVal 0) End], SRole 1 (SRole 3 (SRole 1 SEnd)))]
  ]].

(** tests/checking_mod/complex/two_peers_branchings_sync.rs. Roles: 1 = A, 2 = B. Choice 0: A chooses (Branches0BfromA,
    :49-52): 0 = A, 1 = B. Choice 1: A chooses (Branches2BfromA, :63-66): 0 = F, 1 = G. Choice 2: A chooses
    (Branches1BfromA, :56-59): 0 = C, 1 = E. Choice 3: B chooses (Branches3AfromB, :39-44): 0 = B, 1 = C, 2 = D, 3 = E. *)
Definition two_peers_branchings_sync : proto := mkproto
  [
    (* A: EndpointAFull, :81 *) ([Snd (PChoice 0 2) End], SBroadcast);
    (* B: EndpointBFull, :86 *) ([Rcv (PChoice 0 2) End], SRole 1 SEnd)
  ]
  [[
    (* 0.0 A *) [
      (* A: EndpointAChoiceFG, :77 *) ([Snd (PChoice 1 2) End], SBroadcast);
      (* B: :50 *) ([Rcv (PChoice 1 2) End], SRole 1 SEnd)];
    (* 0.1 B *) [
      (* A: EndpointAChoiceCE, :79 *) ([Snd (PChoice 2 2) End], SBroadcast);
      (* B: :51 *) ([Rcv (PChoice 2 2) End], SRole 1 SEnd)]
  ];  [
    (* 1.0 F *) [
      (* A: EndpointAEnd, :73 *) ([End], SEnd);
      (* B: :64 *) ([End], SEnd)];
    (* 1.1 G *) [
      (* A: EndpointAEnd, :73 *) ([End], SEnd);
      (* B: :65 *) ([End], SEnd)]
  ];  [
    (* 2.0 C *) [
      (* A: EndpointAEnd, :73 *) ([End], SEnd);
      (* B: :57 *) ([End], SEnd)];
    (* 2.1 E *) [
      (* A: EndpointAOfferBCDE, :75 *) ([Rcv (PChoice 3 1) End], SRole 2 SEnd);
      (* B: :58 *) ([Snd (PChoice 3 1) End], SBroadcast)]
  ];  [
    (* 3.0 B *) [
      (* A: :40 *) ([End], SEnd);
      (* B: EndpointBEnd, :84 *) ([End], SEnd)];
    (* 3.1 C *) [
      (* A: :41 *) ([End], SEnd);
      (* B: EndpointBEnd, :84 *) ([End], SEnd)];
    (* 3.2 D *) [
      (* A: :42 *) ([End], SEnd);
      (* B: EndpointBEnd, :84 *) ([End], SEnd)];
    (* 3.3 E *) [
      (* A: :43 *) ([End], SEnd);
      (* B: EndpointBEnd, :84 *) ([End], SEnd)]
  ]].

(** tests/nuscr_mod/correct/Basic.rs. Roles: 1 = A, 2 = B, 3 = C. Payloads: 0 = Test1, 1 = Test5, 2 = Test2, 3 = Test3, 4
    = Test4. The same types: tests/nuscr_mod/correct/basic_correct.rs. *)
Definition basic_correct : proto := mkproto
  [
    (* A: Endpoint_0_ForA, :80 *) ([Snd (PVal 0) (Snd (PVal 0) (Snd (PVal 0) (Snd (PVal 1) (Snd (PVal 2) (Snd (PVal 3) (Snd (PVal 4) End)))))); End], SRole 2 (SRole 2 (SRole 2 (SRole 2 (SRole 2 (SRole 2 (SRole 2 SEnd)))))));
    (* B: Endpoint_0_ForB, :83 *) ([Rcv (PVal 0) (Rcv (PVal 0) (Rcv (PVal 0) (Rcv (PVal 1) (Rcv (PVal 2) (Rcv (PVal 3) (Rcv (PVal 4) End)))))); Snd (PVal 0) End], SRole 1 (SRole 3 (SRole 1 (SRole 1 (SRole 1 (SRole 1 (SRole 1 (SRole 1 SEnd))))))));
    (* C: Endpoint_0_ForC, :86 *) ([End; Rcv (PVal 0) End], SRole 2 SEnd)
  ]
  [].

(** tests/nuscr_mod/correct/choice_correct.rs. Roles: 1 = A, 2 = B, 3 = C. Payloads: 0 = Test1, 1 = Test2, 2 = Test3, 3 =
    Test4, 4 = Test5, 5 = Test6, 6 = Test7, 7 = Test8. Choice 0: A chooses (Choice_0_FromAToB, :223-227,
    Choice_0_FromAToC, :230-234): 0 = Branching0, 1 = Branching1, 2 = Branching2. *)
Definition choice_correct : proto := mkproto
  [
    (* A: Endpoint_0_ForA, :238-239 *) ([Snd (PChoice 0 2) End; Snd (PChoice 0 3) End], SBroadcast);
    (* B: Endpoint_0_ForB, :242-243 *) ([Rcv (PChoice 0 2) End; End], SRole 1 SEnd);
    (* C: Endpoint_0_ForC, :246-247 *) ([Rcv (PChoice 0 3) End; End], SRole 1 SEnd)
  ]
  [[
    (* 0.0 Branching0 *) [
      (* A: Endpoint_0_0_ForA, :301-306 *) ([Snd (PVal 0) (Snd (PVal 1) (Snd (PVal 2) (Snd (PVal 3) End))); Snd (PVal 4) End], SRole 2 (SRole 2 (SRole 2 (SRole 2 (SRole 3 SEnd)))));
      (* B: :224 *) ([Rcv (PVal 0) (Rcv (PVal 1) (Rcv (PVal 2) (Rcv (PVal 3) End))); End], SRole 1 (SRole 1 (SRole 1 (SRole 1 SEnd))));
      (* C: :231 *) ([Rcv (PVal 4) End; End], SRole 1 SEnd)];
    (* 0.1 Branching1 *) [
      (* A: Endpoint_0_1_ForA, :276-281 *) ([Snd (PVal 4) (Snd (PVal 5) (Snd (PVal 6) (Snd (PVal 7) End))); Snd (PVal 4) End], SRole 2 (SRole 2 (SRole 2 (SRole 2 (SRole 3 SEnd)))));
      (* B: :225 *) ([Rcv (PVal 4) (Rcv (PVal 5) (Rcv (PVal 6) (Rcv (PVal 7) End))); End], SRole 1 (SRole 1 (SRole 1 (SRole 1 SEnd))));
      (* C: :232 *) ([Rcv (PVal 4) End; End], SRole 1 SEnd)];
    (* 0.2 Branching2 *) [
      (* A: Endpoint_0_2_ForA, :251-256 *) ([Snd (PVal 4) (Snd (PVal 5) (Snd (PVal 6) (Snd (PVal 7) End))); Snd (PVal 4) End], SRole 2 (SRole 2 (SRole 2 (SRole 2 (SRole 3 SEnd)))));
      (* B: :226 *) ([Rcv (PVal 4) (Rcv (PVal 5) (Rcv (PVal 6) (Rcv (PVal 7) End))); End], SRole 1 (SRole 1 (SRole 1 (SRole 1 SEnd))));
      (* C: :233 *) ([Rcv (PVal 4) End; End], SRole 1 SEnd)]
  ]].

(** tests/nuscr_mod/correct/recursion_correct.rs. Roles: 1 = A, 2 = B, 3 = C. Payloads: 0 = TestInit, 1 = Test0, 2 =
    Test1, 3 = Test2, 4 = Test3, 5 = Test4. Choice 0: A chooses (Choice_0_FromAToB, :164-167, Choice_0_FromAToC,
    :170-173): 0 = Branching0, 1 = Branching1. *)
Definition recursion_correct : proto := mkproto
  [
    (* A: Endpoint_0_ForA, :177-178 *) ([Snd (PVal 0) (Snd (PVal 1) (Snd (PChoice 0 2) End)); Snd (PChoice 0 3) End], SRole 2 (SRole 2 SBroadcast));
    (* B: Endpoint_0_ForB, :181-182 *) ([Rcv (PVal 0) (Rcv (PVal 1) (Rcv (PChoice 0 2) End)); End], SRole 1 (SRole 1 (SRole 1 SEnd)));
    (* C: Endpoint_0_ForC, :185-186 *) ([Rcv (PChoice 0 3) End; End], SRole 1 SEnd)
  ]
  [[
    (* 0.0 Branching0 *) [
      (* A: Endpoint_0_0_ForA, :215-220 *) ([Snd (PVal 2) (Snd (PVal 3) (Snd (PVal 4) (Snd (PVal 5) (Snd (PVal 1) (Snd (PChoice 0 2) End))))); Snd (PChoice 0 3) End], SRole 2 (SRole 2 (SRole 2 (SRole 2 (SRole 2 SBroadcast)))));
      (* B: :165 *) ([Rcv (PVal 2) (Rcv (PVal 3) (Rcv (PVal 4) (Rcv (PVal 5) (Rcv (PVal 1) (Rcv (PChoice 0 2) End))))); End], SRole 1 (SRole 1 (SRole 1 (SRole 1 (SRole 1 (SRole 1 SEnd))))));
      (* C: :171 *) ([Rcv (PChoice 0 3) End; End], SRole 1 SEnd)];
    (* 0.1 Branching1 *) [
      (* A: Endpoint_0_1_ForA, :190-195 *) ([Snd (PVal 2) (Snd (PVal 3) (Snd (PVal 4) (Snd (PVal 5) End))); End], SRole 2 (SRole 2 (SRole 2 (SRole 2 SEnd))));
      (* B: :166 *) ([Rcv (PVal 2) (Rcv (PVal 3) (Rcv (PVal 4) (Rcv (PVal 5) End))); End], SRole 1 (SRole 1 (SRole 1 (SRole 1 SEnd))));
      (* C: :172 *) ([End; End], SEnd)]
  ]].

(** tests/scribble/top_down.rs. Roles: 1 = A, 2 = B, 3 = C. Payloads: 0 = i32, 1 = (). Choice 0: C chooses (Branches0AtoC,
    :48-51, Branches0BtoC, :71-74): 0 = Add, 1 = Bye. *)
Definition top_down : proto := mkproto
  [
    (* A: EndpointA12, :58 *) ([End; Rcv (PVal 0) (Rcv (PChoice 0 1) End)], SRole 3 (SRole 3 SEnd));
    (* B: EndpointB14, :79 *) ([End; Rcv (PChoice 0 2) End], SRole 3 SEnd);
    (* C: EndpointC3, :84 *) ([Snd (PVal 0) (Snd (PChoice 0 1) End); Snd (PChoice 0 2) End], SRole 1 SBroadcast)
  ]
  [[
    (* 0.0 Add *) [
      (* A: :49 *) ([Rcv (PVal 0) End; End], SRole 2 SEnd);
      (* B: :72 *) ([Snd (PVal 0) End; Rcv (PVal 0) End], SRole 3 (SRole 1 SEnd));
      (* C: as used after :128 *) ([End; Snd (PVal 0) End], SRole 2 SEnd)];
    (* 0.1 Bye *) [
      (* A: :50 *) ([Rcv (PVal 1) End; End], SRole 2 SEnd);
      (* B: :73 *) ([Snd (PVal 1) End; Rcv (PVal 1) End], SRole 3 (SRole 1 SEnd));
      (* C: as used after :132 *) ([End; Snd (PVal 1) End], SRole 2 SEnd)]
  ]].

(** All of them: examples/ and tests/ except the benchmarks. *)
Definition corpus : list proto :=
  [calculator; circuit_breaker; distributed_calculators; dns_fowler; dns_imai; fib; http; logging; o_auth; online_wallet;
   remote_data; servo; servo_8257_fixed; simple_voting; smtp; three_buyers; travel_agency; video_stream; readme_example;
   adder; checking_basic; gravity_android; pinetime_heart_rate; proximity_based_car_key; atmp_three_buyers;
   atmp_travel_agency; artifact_atmp_basic; three_buyers_correct; macro_multi_recursion_message_option; macro_basics;
   macro_multi_send_recv_meshedchannels; a_usecase_recursive; b_usecase_recursive; cancel_00; cancel_02; cancel_03;
   cancel_04; cancel_05; cancel_06; bargain; commit_protocol; four_players_game_sync; two_peers_branchings_sync;
   basic_correct; choice_correct; recursion_correct; top_down].
