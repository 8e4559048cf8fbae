(** The ring benchmarks of examples/ring, as tables of types (see Corpus.v). Model only. *)
From Coq Require Import List.
From Verif Require Import Types Session Mesh Proto.
Import ListNotations.

(** examples/ring/ring_two_baking_mpst.rs. Roles: 1 = A, 2 = B. Payloads: 0 = (). Choice 0: B chooses (Branching0fromBtoA,
    :21-25): 0 = Forward, 1 = Backward, 2 = Done. The same types: examples/ring/ring_two_baking_ampst.rs,
    examples/ring/ring_two_baking_atmp.rs, examples/ring/ring_two_baking_cancel_inline.rs. *)
Definition ring_two : proto := mkproto
  [
    (* A: EndpointA, :34 *) ([Rcv (PChoice 0 1) End], SRole 2 SEnd);
    (* B: EndpointB, :35 *) ([Snd (PChoice 0 1) End], SBroadcast)
  ]
  [[
    (* 0.0 Forward *) [
      (* A: :22 *) ([Snd (PVal 0) (Rcv (PChoice 0 1) End)], SRole 2 (SRole 2 SEnd));
      (* B: EndpointForwardB, :30 *) ([Rcv (PVal 0) (Snd (PChoice 0 1) End)], SRole 1 SBroadcast)];
    (* 0.1 Backward *) [
      (* A: :23 *) ([Rcv (PVal 0) (Rcv (PChoice 0 1) End)], SRole 2 (SRole 2 SEnd));
      (* B: EndpointBackwardB, :31 *) ([Snd (PVal 0) (Snd (PChoice 0 1) End)], SRole 1 SBroadcast)];
    (* 0.2 Done *) [
      (* A: :24 *) ([End], SEnd);
      (* B: as used after :60 *) ([End], SEnd)]
  ]].

(** examples/ring/ring_three_baking_mpst.rs. Roles: 1 = A, 2 = B, 3 = C. Payloads: 0 = (). Choice 0: C chooses
    (Branching0fromCtoA, :21-25, Branching0fromCtoB, :29-37): 0 = Forward, 1 = Backward, 2 = Done. The same types:
    examples/ring/ring_three_baking_ampst.rs, examples/ring/ring_three_baking_atmp.rs,
    examples/ring/ring_three_baking_cancel_inline.rs. *)
Definition ring_three : proto := mkproto
  [
    (* A: EndpointA, :49 *) ([End; Rcv (PChoice 0 1) End], SRole 3 SEnd);
    (* B: EndpointB, :50 *) ([End; Rcv (PChoice 0 2) End], SRole 3 SEnd);
    (* C: EndpointC, :51 *) ([Snd (PChoice 0 1) End; Snd (PChoice 0 2) End], SBroadcast)
  ]
  [[
    (* 0.0 Forward *) [
      (* A: :22 *) ([Snd (PVal 0) End; Rcv (PChoice 0 1) End], SRole 2 (SRole 3 SEnd));
      (* B: :30-32 *) ([Rcv (PVal 0) End; Snd (PVal 0) (Rcv (PChoice 0 2) End)], SRole 1 (SRole 3 (SRole 3 SEnd)));
      (* C: EndpointForwardC, :43-44 *) ([Snd (PChoice 0 1) End; Rcv (PVal 0) (Snd (PChoice 0 2) End)], SRole 2 SBroadcast)];
    (* 0.1 Backward *) [
      (* A: :23 *) ([Rcv (PVal 0) End; Rcv (PChoice 0 1) End], SRole 2 (SRole 3 SEnd));
      (* B: :33-35 *) ([Snd (PVal 0) End; Rcv (PVal 0) (Rcv (PChoice 0 2) End)], SRole 3 (SRole 1 (SRole 3 SEnd)));
      (* C: EndpointBackwardC, :45-46 *) ([Snd (PChoice 0 1) End; Snd (PVal 0) (Snd (PChoice 0 2) End)], SRole 2 SBroadcast)];
    (* 0.2 Done *) [
      (* A: :24 *) ([End; End], SEnd);
      (* B: :36 *) ([End; End], SEnd);
      (* C: as used after :94 *) ([End; End], SEnd)]
  ]].

(** examples/ring/ring_four_baking_mpst.rs. Roles: 1 = A, 2 = B, 3 = C, 4 = D. Payloads: 0 = (). Choice 0: D chooses
    (Branching0fromDtoA, :21-25, Branching0fromDtoB, :29-49, Branching0fromDtoC, :53-73): 0 = Forward, 1 = Backward, 2 =
    Done. The same types: examples/ring/ring_four_baking_ampst.rs, examples/ring/ring_four_baking_atmp.rs,
    examples/ring/ring_four_baking_cancel_inline.rs. *)
Definition ring_four : proto := mkproto
  [
    (* A: EndpointA, :96 *) ([End; End; Rcv (PChoice 0 1) End], SRole 4 SEnd);
    (* B: EndpointB, :97 *) ([End; End; Rcv (PChoice 0 2) End], SRole 4 SEnd);
    (* C: EndpointC, :98 *) ([End; End; Rcv (PChoice 0 3) End], SRole 4 SEnd);
    (* D: EndpointD, :99-100 *) ([Snd (PChoice 0 1) End; Snd (PChoice 0 2) End; Snd (PChoice 0 3) End], SBroadcast)
  ]
  [[
    (* 0.0 Forward *) [
      (* A: :22 *) ([Snd (PVal 0) End; End; Rcv (PChoice 0 1) End], SRole 2 (SRole 4 SEnd));
      (* B: :30-38 *) ([Rcv (PVal 0) End; Snd (PVal 0) End; Rcv (PChoice 0 2) End], SRole 1 (SRole 3 (SRole 4 SEnd)));
      (* C: :54-62 *) ([End; Rcv (PVal 0) End; Snd (PVal 0) (Rcv (PChoice 0 3) End)], SRole 2 (SRole 4 (SRole 4 SEnd)));
      (* D: EndpointForwardD, :80-86 *) ([Snd (PChoice 0 1) End; Snd (PChoice 0 2) End; Rcv (PVal 0) (Snd (PChoice 0 3) End)], SRole 3 SBroadcast)];
    (* 0.1 Backward *) [
      (* A: :23 *) ([Rcv (PVal 0) End; End; Rcv (PChoice 0 1) End], SRole 2 (SRole 4 SEnd));
      (* B: :39-47 *) ([Snd (PVal 0) End; Rcv (PVal 0) End; Rcv (PChoice 0 2) End], SRole 3 (SRole 1 (SRole 4 SEnd)));
      (* C: :63-71 *) ([End; Snd (PVal 0) End; Rcv (PVal 0) (Rcv (PChoice 0 3) End)], SRole 4 (SRole 2 (SRole 4 SEnd)));
      (* D: EndpointBackwardD, :87-93 *) ([Snd (PChoice 0 1) End; Snd (PChoice 0 2) End; Snd (PVal 0) (Snd (PChoice 0 3) End)], SRole 3 SBroadcast)];
    (* 0.2 Done *) [
      (* A: :24 *) ([End; End; End], SEnd);
      (* B: :48 *) ([End; End; End], SEnd);
      (* C: :72 *) ([End; End; End], SEnd);
      (* D: as used after :161-166 *) ([End; End; End], SEnd)]
  ]].

(** examples/ring/ring_five_baking_mpst.rs. Roles: 1 = A, 2 = B, 3 = C, 4 = D, 5 = E. Payloads: 0 = (). Choice 0: E
    chooses (Branching0fromEtoA, :21-25, Branching0fromEtoB, :29-51, Branching0fromEtoC, :55-77, Branching0fromEtoD,
    :81-103): 0 = Forward, 1 = Backward, 2 = Done. The same types: examples/ring/ring_five_baking_ampst.rs,
    examples/ring/ring_five_baking_atmp.rs, examples/ring/ring_five_baking_cancel_inline.rs. *)
Definition ring_five : proto := mkproto
  [
    (* A: EndpointA, :129 *) ([End; End; End; Rcv (PChoice 0 1) End], SRole 5 SEnd);
    (* B: EndpointB, :130 *) ([End; End; End; Rcv (PChoice 0 2) End], SRole 5 SEnd);
    (* C: EndpointC, :131 *) ([End; End; End; Rcv (PChoice 0 3) End], SRole 5 SEnd);
    (* D: EndpointD, :132 *) ([End; End; End; Rcv (PChoice 0 4) End], SRole 5 SEnd);
    (* E: EndpointE, :133-140 *) ([Snd (PChoice 0 1) End; Snd (PChoice 0 2) End; Snd (PChoice 0 3) End; Snd (PChoice 0 4) End], SBroadcast)
  ]
  [[
    (* 0.0 Forward *) [
      (* A: :22 *) ([Snd (PVal 0) End; End; End; Rcv (PChoice 0 1) End], SRole 2 (SRole 5 SEnd));
      (* B: :30-39 *) ([Rcv (PVal 0) End; Snd (PVal 0) End; End; Rcv (PChoice 0 2) End], SRole 1 (SRole 3 (SRole 5 SEnd)));
      (* C: :56-65 *) ([End; Rcv (PVal 0) End; Snd (PVal 0) End; Rcv (PChoice 0 3) End], SRole 2 (SRole 4 (SRole 5 SEnd)));
      (* D: :82-91 *) ([End; End; Rcv (PVal 0) End; Snd (PVal 0) (Rcv (PChoice 0 4) End)], SRole 3 (SRole 5 (SRole 5 SEnd)));
      (* E: EndpointForwardE, :111-118 *) ([Snd (PChoice 0 1) End; Snd (PChoice 0 2) End; Snd (PChoice 0 3) End; Rcv (PVal 0) (Snd (PChoice 0 4) End)], SRole 4 SBroadcast)];
    (* 0.1 Backward *) [
      (* A: :23 *) ([Rcv (PVal 0) End; End; End; Rcv (PChoice 0 1) End], SRole 2 (SRole 5 SEnd));
      (* B: :40-49 *) ([Snd (PVal 0) End; Rcv (PVal 0) End; End; Rcv (PChoice 0 2) End], SRole 3 (SRole 1 (SRole 5 SEnd)));
      (* C: :66-75 *) ([End; Snd (PVal 0) End; Rcv (PVal 0) End; Rcv (PChoice 0 3) End], SRole 4 (SRole 2 (SRole 5 SEnd)));
      (* D: :92-101 *) ([End; End; Snd (PVal 0) End; Rcv (PVal 0) (Rcv (PChoice 0 4) End)], SRole 5 (SRole 3 (SRole 5 SEnd)));
      (* E: EndpointBackwardE, :119-126 *) ([Snd (PChoice 0 1) End; Snd (PChoice 0 2) End; Snd (PChoice 0 3) End; Snd (PVal 0) (Snd (PChoice 0 4) End)], SRole 4 SBroadcast)];
    (* 0.2 Done *) [
      (* A: :24 *) ([End; End; End; End], SEnd);
      (* B: :50 *) ([End; End; End; End], SEnd);
      (* C: :76 *) ([End; End; End; End], SEnd);
      (* D: :102 *) ([End; End; End; End], SEnd);
      (* E: as used after :219-225 *) ([End; End; End; End], SEnd)]
  ]].

(** examples/ring/ring_six_baking_mpst.rs. Roles: 1 = A, 2 = B, 3 = C, 4 = D, 5 = E, 6 = F. Payloads: 0 = (). Choice 0: F
    chooses (Branching0fromFtoA, :21-27, Branching0fromFtoB, :31-55, Branching0fromFtoC, :59-83, Branching0fromFtoD,
    :87-111, Branching0fromFtoE, :115-139): 0 = Forward, 1 = Backward, 2 = Done. The same types:
    examples/ring/ring_six_baking_ampst.rs, examples/ring/ring_six_baking_atmp.rs,
    examples/ring/ring_six_baking_cancel_inline.rs. *)
Definition ring_six : proto := mkproto
  [
    (* A: EndpointA, :168 *) ([End; End; End; End; Rcv (PChoice 0 1) End], SRole 6 SEnd);
    (* B: EndpointB, :169 *) ([End; End; End; End; Rcv (PChoice 0 2) End], SRole 6 SEnd);
    (* C: EndpointC, :170 *) ([End; End; End; End; Rcv (PChoice 0 3) End], SRole 6 SEnd);
    (* D: EndpointD, :171 *) ([End; End; End; End; Rcv (PChoice 0 4) End], SRole 6 SEnd);
    (* E: EndpointE, :172 *) ([End; End; End; End; Rcv (PChoice 0 5) End], SRole 6 SEnd);
    (* F: EndpointF, :173-181 *) ([Snd (PChoice 0 1) End; Snd (PChoice 0 2) End; Snd (PChoice 0 3) End; Snd (PChoice 0 4) End; Snd (PChoice 0 5) End], SBroadcast)
  ]
  [[
    (* 0.0 Forward *) [
      (* A: :22 *) ([Snd (PVal 0) End; End; End; End; Rcv (PChoice 0 1) End], SRole 2 (SRole 6 SEnd));
      (* B: :32-42 *) ([Rcv (PVal 0) End; Snd (PVal 0) End; End; End; Rcv (PChoice 0 2) End], SRole 1 (SRole 3 (SRole 6 SEnd)));
      (* C: :60-70 *) ([End; Rcv (PVal 0) End; Snd (PVal 0) End; End; Rcv (PChoice 0 3) End], SRole 2 (SRole 4 (SRole 6 SEnd)));
      (* D: :88-98 *) ([End; End; Rcv (PVal 0) End; Snd (PVal 0) End; Rcv (PChoice 0 4) End], SRole 3 (SRole 5 (SRole 6 SEnd)));
      (* E: :116-126 *) ([End; End; End; Rcv (PVal 0) End; Snd (PVal 0) (Rcv (PChoice 0 5) End)], SRole 4 (SRole 6 (SRole 6 SEnd)));
      (* F: EndpointForwardF, :148-156 *) ([Snd (PChoice 0 1) End; Snd (PChoice 0 2) End; Snd (PChoice 0 3) End; Snd (PChoice 0 4) End; Rcv (PVal 0) (Snd (PChoice 0 5) End)], SRole 5 SBroadcast)];
    (* 0.1 Backward *) [
      (* A: :23-25 *) ([Rcv (PVal 0) End; End; End; End; Rcv (PChoice 0 1) End], SRole 2 (SRole 6 SEnd));
      (* B: :43-53 *) ([Snd (PVal 0) End; Rcv (PVal 0) End; End; End; Rcv (PChoice 0 2) End], SRole 3 (SRole 1 (SRole 6 SEnd)));
      (* C: :71-81 *) ([End; Snd (PVal 0) End; Rcv (PVal 0) End; End; Rcv (PChoice 0 3) End], SRole 4 (SRole 2 (SRole 6 SEnd)));
      (* D: :99-109 *) ([End; End; Snd (PVal 0) End; Rcv (PVal 0) End; Rcv (PChoice 0 4) End], SRole 5 (SRole 3 (SRole 6 SEnd)));
      (* E: :127-137 *) ([End; End; End; Snd (PVal 0) End; Rcv (PVal 0) (Rcv (PChoice 0 5) End)], SRole 6 (SRole 4 (SRole 6 SEnd)));
      (* F: EndpointBackwardF, :157-165 *) ([Snd (PChoice 0 1) End; Snd (PChoice 0 2) End; Snd (PChoice 0 3) End; Snd (PChoice 0 4) End; Snd (PVal 0) (Snd (PChoice 0 5) End)], SRole 5 SBroadcast)];
    (* 0.2 Done *) [
      (* A: :26 *) ([End; End; End; End; End], SEnd);
      (* B: :54 *) ([End; End; End; End; End], SEnd);
      (* C: :82 *) ([End; End; End; End; End], SEnd);
      (* D: :110 *) ([End; End; End; End; End], SEnd);
      (* E: :138 *) ([End; End; End; End; End], SEnd);
      (* F: as used after :278-285 *) ([End; End; End; End; End], SEnd)]
  ]].

(** examples/ring/ring_seven_baking_mpst.rs. Roles: 1 = A, 2 = B, 3 = C, 4 = D, 5 = E, 6 = F, 7 = G. Payloads: 0 = ().
    Choice 0: G chooses (Branching0fromGtoA, :21-29, Branching0fromGtoB, :33-59, Branching0fromGtoC, :63-89,
    Branching0fromGtoD, :93-119, Branching0fromGtoE, :123-149, Branching0fromGtoF, :153-179): 0 = Forward, 1 = Backward, 2
    = Done. The same types: examples/ring/ring_seven_baking_ampst.rs, examples/ring/ring_seven_baking_atmp.rs,
    examples/ring/ring_seven_baking_cancel_inline.rs. *)
Definition ring_seven : proto := mkproto
  [
    (* A: EndpointA, :211 *) ([End; End; End; End; End; Rcv (PChoice 0 1) End], SRole 7 SEnd);
    (* B: EndpointB, :212 *) ([End; End; End; End; End; Rcv (PChoice 0 2) End], SRole 7 SEnd);
    (* C: EndpointC, :213 *) ([End; End; End; End; End; Rcv (PChoice 0 3) End], SRole 7 SEnd);
    (* D: EndpointD, :214 *) ([End; End; End; End; End; Rcv (PChoice 0 4) End], SRole 7 SEnd);
    (* E: EndpointE, :215 *) ([End; End; End; End; End; Rcv (PChoice 0 5) End], SRole 7 SEnd);
    (* F: EndpointF, :216 *) ([End; End; End; End; End; Rcv (PChoice 0 6) End], SRole 7 SEnd);
    (* G: EndpointG, :217-226 *) ([Snd (PChoice 0 1) End; Snd (PChoice 0 2) End; Snd (PChoice 0 3) End; Snd (PChoice 0 4) End; Snd (PChoice 0 5) End; Snd (PChoice 0 6) End], SBroadcast)
  ]
  [[
    (* 0.0 Forward *) [
      (* A: :22-24 *) ([Snd (PVal 0) End; End; End; End; End; Rcv (PChoice 0 1) End], SRole 2 (SRole 7 SEnd));
      (* B: :34-45 *) ([Rcv (PVal 0) End; Snd (PVal 0) End; End; End; End; Rcv (PChoice 0 2) End], SRole 1 (SRole 3 (SRole 7 SEnd)));
      (* C: :64-75 *) ([End; Rcv (PVal 0) End; Snd (PVal 0) End; End; End; Rcv (PChoice 0 3) End], SRole 2 (SRole 4 (SRole 7 SEnd)));
      (* D: :94-105 *) ([End; End; Rcv (PVal 0) End; Snd (PVal 0) End; End; Rcv (PChoice 0 4) End], SRole 3 (SRole 5 (SRole 7 SEnd)));
      (* E: :124-135 *) ([End; End; End; Rcv (PVal 0) End; Snd (PVal 0) End; Rcv (PChoice 0 5) End], SRole 4 (SRole 6 (SRole 7 SEnd)));
      (* F: :154-165 *) ([End; End; End; End; Rcv (PVal 0) End; Snd (PVal 0) (Rcv (PChoice 0 6) End)], SRole 5 (SRole 7 (SRole 7 SEnd)));
      (* G: EndpointForwardG, :189-198 *) ([Snd (PChoice 0 1) End; Snd (PChoice 0 2) End; Snd (PChoice 0 3) End; Snd (PChoice 0 4) End; Snd (PChoice 0 5) End; Rcv (PVal 0) (Snd (PChoice 0 6) End)], SRole 6 SBroadcast)];
    (* 0.1 Backward *) [
      (* A: :25-27 *) ([Rcv (PVal 0) End; End; End; End; End; Rcv (PChoice 0 1) End], SRole 2 (SRole 7 SEnd));
      (* B: :46-57 *) ([Snd (PVal 0) End; Rcv (PVal 0) End; End; End; End; Rcv (PChoice 0 2) End], SRole 3 (SRole 1 (SRole 7 SEnd)));
      (* C: :76-87 *) ([End; Snd (PVal 0) End; Rcv (PVal 0) End; End; End; Rcv (PChoice 0 3) End], SRole 4 (SRole 2 (SRole 7 SEnd)));
      (* D: :106-117 *) ([End; End; Snd (PVal 0) End; Rcv (PVal 0) End; End; Rcv (PChoice 0 4) End], SRole 5 (SRole 3 (SRole 7 SEnd)));
      (* E: :136-147 *) ([End; End; End; Snd (PVal 0) End; Rcv (PVal 0) End; Rcv (PChoice 0 5) End], SRole 6 (SRole 4 (SRole 7 SEnd)));
      (* F: :166-177 *) ([End; End; End; End; Snd (PVal 0) End; Rcv (PVal 0) (Rcv (PChoice 0 6) End)], SRole 7 (SRole 5 (SRole 7 SEnd)));
      (* G: EndpointBackwardG, :199-208 *) ([Snd (PChoice 0 1) End; Snd (PChoice 0 2) End; Snd (PChoice 0 3) End; Snd (PChoice 0 4) End; Snd (PChoice 0 5) End; Snd (PVal 0) (Snd (PChoice 0 6) End)], SRole 6 SBroadcast)];
    (* 0.2 Done *) [
      (* A: :28 *) ([End; End; End; End; End; End], SEnd);
      (* B: :58 *) ([End; End; End; End; End; End], SEnd);
      (* C: :88 *) ([End; End; End; End; End; End], SEnd);
      (* D: :118 *) ([End; End; End; End; End; End], SEnd);
      (* E: :148 *) ([End; End; End; End; End; End], SEnd);
      (* F: :178 *) ([End; End; End; End; End; End], SEnd);
      (* G: as used after :341-349 *) ([End; End; End; End; End; End], SEnd)]
  ]].

(** examples/ring/ring_eight_baking_mpst.rs. Roles: 1 = A, 2 = B, 3 = C, 4 = D, 5 = E, 6 = F, 7 = G, 8 = H. Payloads: 0 =
    (). Choice 0: H chooses (Branching0fromHtoA, :20-48 and so on): 0 = Forward, 1 = Backward, 2 = Done. The same types:
    examples/ring/ring_eight_baking_ampst.rs, examples/ring/ring_eight_baking_atmp.rs,
    examples/ring/ring_eight_baking_cancel_inline.rs. *)
Definition ring_eight : proto := mkproto
  [
    (* A: EndpointA, :275 *) ([End; End; End; End; End; End; Rcv (PChoice 0 1) End], SRole 8 SEnd);
    (* B: EndpointB, :276 *) ([End; End; End; End; End; End; Rcv (PChoice 0 2) End], SRole 8 SEnd);
    (* C: EndpointC, :277 *) ([End; End; End; End; End; End; Rcv (PChoice 0 3) End], SRole 8 SEnd);
    (* D: EndpointD, :278 *) ([End; End; End; End; End; End; Rcv (PChoice 0 4) End], SRole 8 SEnd);
    (* E: EndpointE, :279 *) ([End; End; End; End; End; End; Rcv (PChoice 0 5) End], SRole 8 SEnd);
    (* F: EndpointF, :280 *) ([End; End; End; End; End; End; Rcv (PChoice 0 6) End], SRole 8 SEnd);
    (* G: EndpointG, :281 *) ([End; End; End; End; End; End; Rcv (PChoice 0 7) End], SRole 8 SEnd);
    (* H: EndpointH, :282-292 *) ([Snd (PChoice 0 1) End; Snd (PChoice 0 2) End; Snd (PChoice 0 3) End; Snd (PChoice 0 4) End; Snd (PChoice 0 5) End; Snd (PChoice 0 6) End; Snd (PChoice 0 7) End], SBroadcast)
  ]
  [[
    (* 0.0 Forward *) [
      (* A: :21-33 *) ([Snd (PVal 0) End; End; End; End; End; End; Rcv (PChoice 0 1) End], SRole 2 (SRole 8 SEnd));
      (* B: :53-65 *) ([Rcv (PVal 0) End; Snd (PVal 0) End; End; End; End; End; Rcv (PChoice 0 2) End], SRole 1 (SRole 3 (SRole 8 SEnd)));
      (* C: :85-97 *) ([End; Rcv (PVal 0) End; Snd (PVal 0) End; End; End; End; Rcv (PChoice 0 3) End], SRole 2 (SRole 4 (SRole 8 SEnd)));
      (* D: :117-129 *) ([End; End; Rcv (PVal 0) End; Snd (PVal 0) End; End; End; Rcv (PChoice 0 4) End], SRole 3 (SRole 5 (SRole 8 SEnd)));
      (* E: :149-161 *) ([End; End; End; Rcv (PVal 0) End; Snd (PVal 0) End; End; Rcv (PChoice 0 5) End], SRole 4 (SRole 6 (SRole 8 SEnd)));
      (* F: :181-193 *) ([End; End; End; End; Rcv (PVal 0) End; Snd (PVal 0) End; Rcv (PChoice 0 6) End], SRole 5 (SRole 7 (SRole 8 SEnd)));
      (* G: :213-225 *) ([End; End; End; End; End; Rcv (PVal 0) End; Snd (PVal 0) (Rcv (PChoice 0 7) End)], SRole 6 (SRole 8 (SRole 8 SEnd)));
      (* H: EndpointForwardH, :251-261 *) ([Snd (PChoice 0 1) End; Snd (PChoice 0 2) End; Snd (PChoice 0 3) End; Snd (PChoice 0 4) End; Snd (PChoice 0 5) End; Snd (PChoice 0 6) End; Rcv (PVal 0) (Snd (PChoice 0 7) End)], SRole 7 SBroadcast)];
    (* 0.1 Backward *) [
      (* A: :34-46 *) ([Rcv (PVal 0) End; End; End; End; End; End; Rcv (PChoice 0 1) End], SRole 2 (SRole 8 SEnd));
      (* B: :66-78 *) ([Snd (PVal 0) End; Rcv (PVal 0) End; End; End; End; End; Rcv (PChoice 0 2) End], SRole 3 (SRole 1 (SRole 8 SEnd)));
      (* C: :98-110 *) ([End; Snd (PVal 0) End; Rcv (PVal 0) End; End; End; End; Rcv (PChoice 0 3) End], SRole 4 (SRole 2 (SRole 8 SEnd)));
      (* D: :130-142 *) ([End; End; Snd (PVal 0) End; Rcv (PVal 0) End; End; End; Rcv (PChoice 0 4) End], SRole 5 (SRole 3 (SRole 8 SEnd)));
      (* E: :162-174 *) ([End; End; End; Snd (PVal 0) End; Rcv (PVal 0) End; End; Rcv (PChoice 0 5) End], SRole 6 (SRole 4 (SRole 8 SEnd)));
      (* F: :194-206 *) ([End; End; End; End; Snd (PVal 0) End; Rcv (PVal 0) End; Rcv (PChoice 0 6) End], SRole 7 (SRole 5 (SRole 8 SEnd)));
      (* G: :226-238 *) ([End; End; End; End; End; Snd (PVal 0) End; Rcv (PVal 0) (Rcv (PChoice 0 7) End)], SRole 8 (SRole 6 (SRole 8 SEnd)));
      (* H: EndpointBackwardH, :262-272 *) ([Snd (PChoice 0 1) End; Snd (PChoice 0 2) End; Snd (PChoice 0 3) End; Snd (PChoice 0 4) End; Snd (PChoice 0 5) End; Snd (PChoice 0 6) End; Snd (PVal 0) (Snd (PChoice 0 7) End)], SRole 7 SBroadcast)];
    (* 0.2 Done *) [
      (* A: :47 *) ([End; End; End; End; End; End; End], SEnd);
      (* B: :79 *) ([End; End; End; End; End; End; End], SEnd);
      (* C: :111 *) ([End; End; End; End; End; End; End], SEnd);
      (* D: :143 *) ([End; End; End; End; End; End; End], SEnd);
      (* E: :175 *) ([End; End; End; End; End; End; End], SEnd);
      (* F: :207 *) ([End; End; End; End; End; End; End], SEnd);
      (* G: :239 *) ([End; End; End; End; End; End; End], SEnd);
      (* H: as used after :425-434 *) ([End; End; End; End; End; End; End], SEnd)]
  ]].

(** examples/ring/ring_nine_baking_mpst.rs. Roles: 1 = A, 2 = B, 3 = C, 4 = D, 5 = E, 6 = F, 7 = G, 8 = H, 9 = I.
    Payloads: 0 = (). Choice 0: I chooses (Branching0fromItoA, :21-51 and so on): 0 = Forward, 1 = Backward, 2 = Done. The
    same types: examples/ring/ring_nine_baking_ampst.rs, examples/ring/ring_nine_baking_atmp.rs,
    examples/ring/ring_nine_baking_cancel_inline.rs. *)
Definition ring_nine : proto := mkproto
  [
    (* A: EndpointA, :327-328 *) ([End; End; End; End; End; End; End; Rcv (PChoice 0 1) End], SRole 9 SEnd);
    (* B: EndpointB, :329-330 *) ([End; End; End; End; End; End; End; Rcv (PChoice 0 2) End], SRole 9 SEnd);
    (* C: EndpointC, :331-332 *) ([End; End; End; End; End; End; End; Rcv (PChoice 0 3) End], SRole 9 SEnd);
    (* D: EndpointD, :333-334 *) ([End; End; End; End; End; End; End; Rcv (PChoice 0 4) End], SRole 9 SEnd);
    (* E: EndpointE, :335-336 *) ([End; End; End; End; End; End; End; Rcv (PChoice 0 5) End], SRole 9 SEnd);
    (* F: EndpointF, :337-338 *) ([End; End; End; End; End; End; End; Rcv (PChoice 0 6) End], SRole 9 SEnd);
    (* G: EndpointG, :339-340 *) ([End; End; End; End; End; End; End; Rcv (PChoice 0 7) End], SRole 9 SEnd);
    (* H: EndpointH, :341-342 *) ([End; End; End; End; End; End; End; Rcv (PChoice 0 8) End], SRole 9 SEnd);
    (* I: EndpointI, :343-354 *) ([Snd (PChoice 0 1) End; Snd (PChoice 0 2) End; Snd (PChoice 0 3) End; Snd (PChoice 0 4) End; Snd (PChoice 0 5) End; Snd (PChoice 0 6) End; Snd (PChoice 0 7) End; Snd (PChoice 0 8) End], SBroadcast)
  ]
  [[
    (* 0.0 Forward *) [
      (* A: :22-35 *) ([Snd (PVal 0) End; End; End; End; End; End; End; Rcv (PChoice 0 1) End], SRole 2 (SRole 9 SEnd));
      (* B: :56-69 *) ([Rcv (PVal 0) End; Snd (PVal 0) End; End; End; End; End; End; Rcv (PChoice 0 2) End], SRole 1 (SRole 3 (SRole 9 SEnd)));
      (* C: :90-103 *) ([End; Rcv (PVal 0) End; Snd (PVal 0) End; End; End; End; End; Rcv (PChoice 0 3) End], SRole 2 (SRole 4 (SRole 9 SEnd)));
      (* D: :124-137 *) ([End; End; Rcv (PVal 0) End; Snd (PVal 0) End; End; End; End; Rcv (PChoice 0 4) End], SRole 3 (SRole 5 (SRole 9 SEnd)));
      (* E: :158-171 *) ([End; End; End; Rcv (PVal 0) End; Snd (PVal 0) End; End; End; Rcv (PChoice 0 5) End], SRole 4 (SRole 6 (SRole 9 SEnd)));
      (* F: :192-205 *) ([End; End; End; End; Rcv (PVal 0) End; Snd (PVal 0) End; End; Rcv (PChoice 0 6) End], SRole 5 (SRole 7 (SRole 9 SEnd)));
      (* G: :226-239 *) ([End; End; End; End; End; Rcv (PVal 0) End; Snd (PVal 0) End; Rcv (PChoice 0 7) End], SRole 6 (SRole 8 (SRole 9 SEnd)));
      (* H: :260-273 *) ([End; End; End; End; End; End; Rcv (PVal 0) End; Snd (PVal 0) (Rcv (PChoice 0 8) End)], SRole 7 (SRole 9 (SRole 9 SEnd)));
      (* I: EndpointForwardI, :301-312 *) ([Snd (PChoice 0 1) End; Snd (PChoice 0 2) End; Snd (PChoice 0 3) End; Snd (PChoice 0 4) End; Snd (PChoice 0 5) End; Snd (PChoice 0 6) End; Snd (PChoice 0 7) End; Rcv (PVal 0) (Snd (PChoice 0 8) End)], SRole 8 SBroadcast)];
    (* 0.1 Backward *) [
      (* A: :36-49 *) ([Rcv (PVal 0) End; End; End; End; End; End; End; Rcv (PChoice 0 1) End], SRole 2 (SRole 9 SEnd));
      (* B: :70-83 *) ([Snd (PVal 0) End; Rcv (PVal 0) End; End; End; End; End; End; Rcv (PChoice 0 2) End], SRole 3 (SRole 1 (SRole 9 SEnd)));
      (* C: :104-117 *) ([End; Snd (PVal 0) End; Rcv (PVal 0) End; End; End; End; End; Rcv (PChoice 0 3) End], SRole 4 (SRole 2 (SRole 9 SEnd)));
      (* D: :138-151 *) ([End; End; Snd (PVal 0) End; Rcv (PVal 0) End; End; End; End; Rcv (PChoice 0 4) End], SRole 5 (SRole 3 (SRole 9 SEnd)));
      (* E: :172-185 *) ([End; End; End; Snd (PVal 0) End; Rcv (PVal 0) End; End; End; Rcv (PChoice 0 5) End], SRole 6 (SRole 4 (SRole 9 SEnd)));
      (* F: :206-219 *) ([End; End; End; End; Snd (PVal 0) End; Rcv (PVal 0) End; End; Rcv (PChoice 0 6) End], SRole 7 (SRole 5 (SRole 9 SEnd)));
      (* G: :240-253 *) ([End; End; End; End; End; Snd (PVal 0) End; Rcv (PVal 0) End; Rcv (PChoice 0 7) End], SRole 8 (SRole 6 (SRole 9 SEnd)));
      (* H: :274-287 *) ([End; End; End; End; End; End; Snd (PVal 0) End; Rcv (PVal 0) (Rcv (PChoice 0 8) End)], SRole 9 (SRole 7 (SRole 9 SEnd)));
      (* I: EndpointBackwardI, :313-324 *) ([Snd (PChoice 0 1) End; Snd (PChoice 0 2) End; Snd (PChoice 0 3) End; Snd (PChoice 0 4) End; Snd (PChoice 0 5) End; Snd (PChoice 0 6) End; Snd (PChoice 0 7) End; Snd (PVal 0) (Snd (PChoice 0 8) End)], SRole 8 SBroadcast)];
    (* 0.2 Done *) [
      (* A: :50 *) ([End; End; End; End; End; End; End; End], SEnd);
      (* B: :84 *) ([End; End; End; End; End; End; End; End], SEnd);
      (* C: :118 *) ([End; End; End; End; End; End; End; End], SEnd);
      (* D: :152 *) ([End; End; End; End; End; End; End; End], SEnd);
      (* E: :186 *) ([End; End; End; End; End; End; End; End], SEnd);
      (* F: :220 *) ([End; End; End; End; End; End; End; End], SEnd);
      (* G: :254 *) ([End; End; End; End; End; End; End; End], SEnd);
      (* H: :288 *) ([End; End; End; End; End; End; End; End], SEnd);
      (* I: as used after :505-515 *) ([End; End; End; End; End; End; End; End], SEnd)]
  ]].

(** examples/ring/ring_ten_baking_mpst.rs. Roles: 1 = A, 2 = B, 3 = C, 4 = D, 5 = E, 6 = F, 7 = G, 8 = H, 9 = I, 10 = J.
    Payloads: 0 = (). Choice 0: J chooses (Branching0fromJtoA, :21-53 and so on): 0 = Forward, 1 = Backward, 2 = Done. The
    same types: examples/ring/ring_ten_baking_ampst.rs, examples/ring/ring_ten_baking_atmp.rs,
    examples/ring/ring_ten_baking_cancel_inline.rs. *)
Definition ring_ten : proto := mkproto
  [
    (* A: EndpointA, :382-383 *) ([End; End; End; End; End; End; End; End; Rcv (PChoice 0 1) End], SRole 10 SEnd);
    (* B: EndpointB, :384-385 *) ([End; End; End; End; End; End; End; End; Rcv (PChoice 0 2) End], SRole 10 SEnd);
    (* C: EndpointC, :386-387 *) ([End; End; End; End; End; End; End; End; Rcv (PChoice 0 3) End], SRole 10 SEnd);
    (* D: EndpointD, :388-389 *) ([End; End; End; End; End; End; End; End; Rcv (PChoice 0 4) End], SRole 10 SEnd);
    (* E: EndpointE, :390-391 *) ([End; End; End; End; End; End; End; End; Rcv (PChoice 0 5) End], SRole 10 SEnd);
    (* F: EndpointF, :392-393 *) ([End; End; End; End; End; End; End; End; Rcv (PChoice 0 6) End], SRole 10 SEnd);
    (* G: EndpointG, :394-395 *) ([End; End; End; End; End; End; End; End; Rcv (PChoice 0 7) End], SRole 10 SEnd);
    (* H: EndpointH, :396-397 *) ([End; End; End; End; End; End; End; End; Rcv (PChoice 0 8) End], SRole 10 SEnd);
    (* I: EndpointI, :398-399 *) ([End; End; End; End; End; End; End; End; Rcv (PChoice 0 9) End], SRole 10 SEnd);
    (* J: EndpointJ, :400-412 *) ([Snd (PChoice 0 1) End; Snd (PChoice 0 2) End; Snd (PChoice 0 3) End; Snd (PChoice 0 4) End; Snd (PChoice 0 5) End; Snd (PChoice 0 6) End; Snd (PChoice 0 7) End; Snd (PChoice 0 8) End; Snd (PChoice 0 9) End], SBroadcast)
  ]
  [[
    (* 0.0 Forward *) [
      (* A: :22-36 *) ([Snd (PVal 0) End; End; End; End; End; End; End; End; Rcv (PChoice 0 1) End], SRole 2 (SRole 10 SEnd));
      (* B: :58-72 *) ([Rcv (PVal 0) End; Snd (PVal 0) End; End; End; End; End; End; End; Rcv (PChoice 0 2) End], SRole 1 (SRole 3 (SRole 10 SEnd)));
      (* C: :94-108 *) ([End; Rcv (PVal 0) End; Snd (PVal 0) End; End; End; End; End; End; Rcv (PChoice 0 3) End], SRole 2 (SRole 4 (SRole 10 SEnd)));
      (* D: :130-144 *) ([End; End; Rcv (PVal 0) End; Snd (PVal 0) End; End; End; End; End; Rcv (PChoice 0 4) End], SRole 3 (SRole 5 (SRole 10 SEnd)));
      (* E: :166-180 *) ([End; End; End; Rcv (PVal 0) End; Snd (PVal 0) End; End; End; End; Rcv (PChoice 0 5) End], SRole 4 (SRole 6 (SRole 10 SEnd)));
      (* F: :202-216 *) ([End; End; End; End; Rcv (PVal 0) End; Snd (PVal 0) End; End; End; Rcv (PChoice 0 6) End], SRole 5 (SRole 7 (SRole 10 SEnd)));
      (* G: :238-252 *) ([End; End; End; End; End; Rcv (PVal 0) End; Snd (PVal 0) End; End; Rcv (PChoice 0 7) End], SRole 6 (SRole 8 (SRole 10 SEnd)));
      (* H: :274-288 *) ([End; End; End; End; End; End; Rcv (PVal 0) End; Snd (PVal 0) End; Rcv (PChoice 0 8) End], SRole 7 (SRole 9 (SRole 10 SEnd)));
      (* I: :310-324 *) ([End; End; End; End; End; End; End; Rcv (PVal 0) End; Snd (PVal 0) (Rcv (PChoice 0 9) End)], SRole 8 (SRole 10 (SRole 10 SEnd)));
      (* J: EndpointForwardJ, :354-366 *) ([Snd (PChoice 0 1) End; Snd (PChoice 0 2) End; Snd (PChoice 0 3) End; Snd (PChoice 0 4) End; Snd (PChoice 0 5) End; Snd (PChoice 0 6) End; Snd (PChoice 0 7) End; Snd (PChoice 0 8) End; Rcv (PVal 0) (Snd (PChoice 0 9) End)], SRole 9 SBroadcast)];
    (* 0.1 Backward *) [
      (* A: :37-51 *) ([Rcv (PVal 0) End; End; End; End; End; End; End; End; Rcv (PChoice 0 1) End], SRole 2 (SRole 10 SEnd));
      (* B: :73-87 *) ([Snd (PVal 0) End; Rcv (PVal 0) End; End; End; End; End; End; End; Rcv (PChoice 0 2) End], SRole 3 (SRole 1 (SRole 10 SEnd)));
      (* C: :109-123 *) ([End; Snd (PVal 0) End; Rcv (PVal 0) End; End; End; End; End; End; Rcv (PChoice 0 3) End], SRole 4 (SRole 2 (SRole 10 SEnd)));
      (* D: :145-159 *) ([End; End; Snd (PVal 0) End; Rcv (PVal 0) End; End; End; End; End; Rcv (PChoice 0 4) End], SRole 5 (SRole 3 (SRole 10 SEnd)));
      (* E: :181-195 *) ([End; End; End; Snd (PVal 0) End; Rcv (PVal 0) End; End; End; End; Rcv (PChoice 0 5) End], SRole 6 (SRole 4 (SRole 10 SEnd)));
      (* F: :217-231 *) ([End; End; End; End; Snd (PVal 0) End; Rcv (PVal 0) End; End; End; Rcv (PChoice 0 6) End], SRole 7 (SRole 5 (SRole 10 SEnd)));
      (* G: :253-267 *) ([End; End; End; End; End; Snd (PVal 0) End; Rcv (PVal 0) End; End; Rcv (PChoice 0 7) End], SRole 8 (SRole 6 (SRole 10 SEnd)));
      (* H: :289-303 *) ([End; End; End; End; End; End; Snd (PVal 0) End; Rcv (PVal 0) End; Rcv (PChoice 0 8) End], SRole 9 (SRole 7 (SRole 10 SEnd)));
      (* I: :325-339 *) ([End; End; End; End; End; End; End; Snd (PVal 0) End; Rcv (PVal 0) (Rcv (PChoice 0 9) End)], SRole 10 (SRole 8 (SRole 10 SEnd)));
      (* J: EndpointBackwardJ, :367-379 *) ([Snd (PChoice 0 1) End; Snd (PChoice 0 2) End; Snd (PChoice 0 3) End; Snd (PChoice 0 4) End; Snd (PChoice 0 5) End; Snd (PChoice 0 6) End; Snd (PChoice 0 7) End; Snd (PChoice 0 8) End; Snd (PVal 0) (Snd (PChoice 0 9) End)], SRole 9 SBroadcast)];
    (* 0.2 Done *) [
      (* A: :52 *) ([End; End; End; End; End; End; End; End; End], SEnd);
      (* B: :88 *) ([End; End; End; End; End; End; End; End; End], SEnd);
      (* C: :124 *) ([End; End; End; End; End; End; End; End; End], SEnd);
      (* D: :160 *) ([End; End; End; End; End; End; End; End; End], SEnd);
      (* E: :196 *) ([End; End; End; End; End; End; End; End; End], SEnd);
      (* F: :232 *) ([End; End; End; End; End; End; End; End; End], SEnd);
      (* G: :268 *) ([End; End; End; End; End; End; End; End; End], SEnd);
      (* H: :304 *) ([End; End; End; End; End; End; End; End; End], SEnd);
      (* I: :340 *) ([End; End; End; End; End; End; End; End; End], SEnd);
      (* J: as used after :581-592 *) ([End; End; End; End; End; End; End; End; End], SEnd)]
  ]].

(** examples/ring/ring_eleven_baking_mpst.rs. Roles: 1 = A, 2 = B, 3 = C, 4 = D, 5 = E, 6 = F, 7 = G, 8 = H, 9 = I, 10 =
    J, 11 = K. Payloads: 0 = (). Choice 0: K chooses (Branching0fromKtoA, :21-55 and so on): 0 = Forward, 1 = Backward, 2
    = Done. The same types: examples/ring/ring_eleven_baking_ampst.rs, examples/ring/ring_eleven_baking_cancel_inline.rs. *)
Definition ring_eleven : proto := mkproto
  [
    (* A: EndpointA, :441-442 *) ([End; End; End; End; End; End; End; End; End; Rcv (PChoice 0 1) End], SRole 11 SEnd);
    (* B: EndpointB, :443-444 *) ([End; End; End; End; End; End; End; End; End; Rcv (PChoice 0 2) End], SRole 11 SEnd);
    (* C: EndpointC, :445-446 *) ([End; End; End; End; End; End; End; End; End; Rcv (PChoice 0 3) End], SRole 11 SEnd);
    (* D: EndpointD, :447-448 *) ([End; End; End; End; End; End; End; End; End; Rcv (PChoice 0 4) End], SRole 11 SEnd);
    (* E: EndpointE, :449-450 *) ([End; End; End; End; End; End; End; End; End; Rcv (PChoice 0 5) End], SRole 11 SEnd);
    (* F: EndpointF, :451-452 *) ([End; End; End; End; End; End; End; End; End; Rcv (PChoice 0 6) End], SRole 11 SEnd);
    (* G: EndpointG, :453-454 *) ([End; End; End; End; End; End; End; End; End; Rcv (PChoice 0 7) End], SRole 11 SEnd);
    (* H: EndpointH, :455-456 *) ([End; End; End; End; End; End; End; End; End; Rcv (PChoice 0 8) End], SRole 11 SEnd);
    (* I: EndpointI, :457-458 *) ([End; End; End; End; End; End; End; End; End; Rcv (PChoice 0 9) End], SRole 11 SEnd);
    (* J: EndpointJ, :459-460 *) ([End; End; End; End; End; End; End; End; End; Rcv (PChoice 0 10) End], SRole 11 SEnd);
    (* K: EndpointK, :461-474 *) ([Snd (PChoice 0 1) End; Snd (PChoice 0 2) End; Snd (PChoice 0 3) End; Snd (PChoice 0 4) End; Snd (PChoice 0 5) End; Snd (PChoice 0 6) End; Snd (PChoice 0 7) End; Snd (PChoice 0 8) End; Snd (PChoice 0 9) End; Snd (PChoice 0 10) End], SBroadcast)
  ]
  [[
    (* 0.0 Forward *) [
      (* A: :22-37 *) ([Snd (PVal 0) End; End; End; End; End; End; End; End; End; Rcv (PChoice 0 1) End], SRole 2 (SRole 11 SEnd));
      (* B: :60-75 *) ([Rcv (PVal 0) End; Snd (PVal 0) End; End; End; End; End; End; End; End; Rcv (PChoice 0 2) End], SRole 1 (SRole 3 (SRole 11 SEnd)));
      (* C: :98-113 *) ([End; Rcv (PVal 0) End; Snd (PVal 0) End; End; End; End; End; End; End; Rcv (PChoice 0 3) End], SRole 2 (SRole 4 (SRole 11 SEnd)));
      (* D: :136-151 *) ([End; End; Rcv (PVal 0) End; Snd (PVal 0) End; End; End; End; End; End; Rcv (PChoice 0 4) End], SRole 3 (SRole 5 (SRole 11 SEnd)));
      (* E: :174-189 *) ([End; End; End; Rcv (PVal 0) End; Snd (PVal 0) End; End; End; End; End; Rcv (PChoice 0 5) End], SRole 4 (SRole 6 (SRole 11 SEnd)));
      (* F: :212-227 *) ([End; End; End; End; Rcv (PVal 0) End; Snd (PVal 0) End; End; End; End; Rcv (PChoice 0 6) End], SRole 5 (SRole 7 (SRole 11 SEnd)));
      (* G: :250-265 *) ([End; End; End; End; End; Rcv (PVal 0) End; Snd (PVal 0) End; End; End; Rcv (PChoice 0 7) End], SRole 6 (SRole 8 (SRole 11 SEnd)));
      (* H: :288-303 *) ([End; End; End; End; End; End; Rcv (PVal 0) End; Snd (PVal 0) End; End; Rcv (PChoice 0 8) End], SRole 7 (SRole 9 (SRole 11 SEnd)));
      (* I: :326-341 *) ([End; End; End; End; End; End; End; Rcv (PVal 0) End; Snd (PVal 0) End; Rcv (PChoice 0 9) End], SRole 8 (SRole 10 (SRole 11 SEnd)));
      (* J: :364-379 *) ([End; End; End; End; End; End; End; End; Rcv (PVal 0) End; Snd (PVal 0) (Rcv (PChoice 0 10) End)], SRole 9 (SRole 11 (SRole 11 SEnd)));
      (* K: EndpointForwardK, :411-424 *) ([Snd (PChoice 0 1) End; Snd (PChoice 0 2) End; Snd (PChoice 0 3) End; Snd (PChoice 0 4) End; Snd (PChoice 0 5) End; Snd (PChoice 0 6) End; Snd (PChoice 0 7) End; Snd (PChoice 0 8) End; Snd (PChoice 0 9) End; Rcv (PVal 0) (Snd (PChoice 0 10) End)], SRole 10 SBroadcast)];
    (* 0.1 Backward *) [
      (* A: :38-53 *) ([Rcv (PVal 0) End; End; End; End; End; End; End; End; End; Rcv (PChoice 0 1) End], SRole 2 (SRole 11 SEnd));
      (* B: :76-91 *) ([Snd (PVal 0) End; Rcv (PVal 0) End; End; End; End; End; End; End; End; Rcv (PChoice 0 2) End], SRole 3 (SRole 1 (SRole 11 SEnd)));
      (* C: :114-129 *) ([End; Snd (PVal 0) End; Rcv (PVal 0) End; End; End; End; End; End; End; Rcv (PChoice 0 3) End], SRole 4 (SRole 2 (SRole 11 SEnd)));
      (* D: :152-167 *) ([End; End; Snd (PVal 0) End; Rcv (PVal 0) End; End; End; End; End; End; Rcv (PChoice 0 4) End], SRole 5 (SRole 3 (SRole 11 SEnd)));
      (* E: :190-205 *) ([End; End; End; Snd (PVal 0) End; Rcv (PVal 0) End; End; End; End; End; Rcv (PChoice 0 5) End], SRole 6 (SRole 4 (SRole 11 SEnd)));
      (* F: :228-243 *) ([End; End; End; End; Snd (PVal 0) End; Rcv (PVal 0) End; End; End; End; Rcv (PChoice 0 6) End], SRole 7 (SRole 5 (SRole 11 SEnd)));
      (* G: :266-281 *) ([End; End; End; End; End; Snd (PVal 0) End; Rcv (PVal 0) End; End; End; Rcv (PChoice 0 7) End], SRole 8 (SRole 6 (SRole 11 SEnd)));
      (* H: :304-319 *) ([End; End; End; End; End; End; Snd (PVal 0) End; Rcv (PVal 0) End; End; Rcv (PChoice 0 8) End], SRole 9 (SRole 7 (SRole 11 SEnd)));
      (* I: :342-357 *) ([End; End; End; End; End; End; End; Snd (PVal 0) End; Rcv (PVal 0) End; Rcv (PChoice 0 9) End], SRole 10 (SRole 8 (SRole 11 SEnd)));
      (* J: :380-395 *) ([End; End; End; End; End; End; End; End; Snd (PVal 0) End; Rcv (PVal 0) (Rcv (PChoice 0 10) End)], SRole 11 (SRole 9 (SRole 11 SEnd)));
      (* K: EndpointBackwardK, :425-438 *) ([Snd (PChoice 0 1) End; Snd (PChoice 0 2) End; Snd (PChoice 0 3) End; Snd (PChoice 0 4) End; Snd (PChoice 0 5) End; Snd (PChoice 0 6) End; Snd (PChoice 0 7) End; Snd (PChoice 0 8) End; Snd (PChoice 0 9) End; Snd (PVal 0) (Snd (PChoice 0 10) End)], SRole 10 SBroadcast)];
    (* 0.2 Done *) [
      (* A: :54 *) ([End; End; End; End; End; End; End; End; End; End], SEnd);
      (* B: :92 *) ([End; End; End; End; End; End; End; End; End; End], SEnd);
      (* C: :130 *) ([End; End; End; End; End; End; End; End; End; End], SEnd);
      (* D: :168 *) ([End; End; End; End; End; End; End; End; End; End], SEnd);
      (* E: :206 *) ([End; End; End; End; End; End; End; End; End; End], SEnd);
      (* F: :244 *) ([End; End; End; End; End; End; End; End; End; End], SEnd);
      (* G: :282 *) ([End; End; End; End; End; End; End; End; End; End], SEnd);
      (* H: :320 *) ([End; End; End; End; End; End; End; End; End; End], SEnd);
      (* I: :358 *) ([End; End; End; End; End; End; End; End; End; End], SEnd);
      (* J: :396 *) ([End; End; End; End; End; End; End; End; End; End], SEnd);
      (* K: as used after :661-673 *) ([End; End; End; End; End; End; End; End; End; End], SEnd)]
  ]].

(** examples/ring/ring_twenty_baking_mpst.rs. Roles: 1 = A, 2 = B, 3 = C, 4 = D, 5 = E, 6 = F, 7 = G, 8 = H, 9 = I, 10 =
    J, 11 = K, 12 = L, 13 = M, 14 = N, 15 = O, 16 = P, 17 = Q, 18 = R, 19 = S, 20 = T. Payloads: 0 = (). Choice 0: T
    chooses (Branching0fromTtoA, :44-120 and so on): 0 = Forward, 1 = Backward, 2 = Done. The same types:
    examples/ring/ring_twenty_baking_ampst.rs, examples/ring/ring_twenty_baking_cancel_inline.rs. *)
Definition ring_twenty : proto := mkproto
  [
    (* A: EndpointA, :1631-1653 *) ([End; End; End; End; End; End; End; End; End; End; End; End; End; End; End; End; End; End; Rcv (PChoice 0 1) End], SRole 20 SEnd);
    (* B: EndpointB, :1654-1676 *) ([End; End; End; End; End; End; End; End; End; End; End; End; End; End; End; End; End; End; Rcv (PChoice 0 2) End], SRole 20 SEnd);
    (* C: EndpointC, :1677-1699 *) ([End; End; End; End; End; End; End; End; End; End; End; End; End; End; End; End; End; End; Rcv (PChoice 0 3) End], SRole 20 SEnd);
    (* D: EndpointD, :1700-1722 *) ([End; End; End; End; End; End; End; End; End; End; End; End; End; End; End; End; End; End; Rcv (PChoice 0 4) End], SRole 20 SEnd);
    (* E: EndpointE, :1723-1745 *) ([End; End; End; End; End; End; End; End; End; End; End; End; End; End; End; End; End; End; Rcv (PChoice 0 5) End], SRole 20 SEnd);
    (* F: EndpointF, :1746-1768 *) ([End; End; End; End; End; End; End; End; End; End; End; End; End; End; End; End; End; End; Rcv (PChoice 0 6) End], SRole 20 SEnd);
    (* G: EndpointG, :1769-1791 *) ([End; End; End; End; End; End; End; End; End; End; End; End; End; End; End; End; End; End; Rcv (PChoice 0 7) End], SRole 20 SEnd);
    (* H: EndpointH, :1792-1814 *) ([End; End; End; End; End; End; End; End; End; End; End; End; End; End; End; End; End; End; Rcv (PChoice 0 8) End], SRole 20 SEnd);
    (* I: EndpointI, :1815-1837 *) ([End; End; End; End; End; End; End; End; End; End; End; End; End; End; End; End; End; End; Rcv (PChoice 0 9) End], SRole 20 SEnd);
    (* J: EndpointJ, :1838-1860 *) ([End; End; End; End; End; End; End; End; End; End; End; End; End; End; End; End; End; End; Rcv (PChoice 0 10) End], SRole 20 SEnd);
    (* K: EndpointK, :1861-1883 *) ([End; End; End; End; End; End; End; End; End; End; End; End; End; End; End; End; End; End; Rcv (PChoice 0 11) End], SRole 20 SEnd);
    (* L: EndpointL, :1884-1906 *) ([End; End; End; End; End; End; End; End; End; End; End; End; End; End; End; End; End; End; Rcv (PChoice 0 12) End], SRole 20 SEnd);
    (* M: EndpointM, :1907-1929 *) ([End; End; End; End; End; End; End; End; End; End; End; End; End; End; End; End; End; End; Rcv (PChoice 0 13) End], SRole 20 SEnd);
    (* N: EndpointN, :1930-1952 *) ([End; End; End; End; End; End; End; End; End; End; End; End; End; End; End; End; End; End; Rcv (PChoice 0 14) End], SRole 20 SEnd);
    (* O: EndpointO, :1953-1975 *) ([End; End; End; End; End; End; End; End; End; End; End; End; End; End; End; End; End; End; Rcv (PChoice 0 15) End], SRole 20 SEnd);
    (* P: EndpointP, :1976-1998 *) ([End; End; End; End; End; End; End; End; End; End; End; End; End; End; End; End; End; End; Rcv (PChoice 0 16) End], SRole 20 SEnd);
    (* Q: EndpointQ, :1999-2021 *) ([End; End; End; End; End; End; End; End; End; End; End; End; End; End; End; End; End; End; Rcv (PChoice 0 17) End], SRole 20 SEnd);
    (* R: EndpointR, :2022-2044 *) ([End; End; End; End; End; End; End; End; End; End; End; End; End; End; End; End; End; End; Rcv (PChoice 0 18) End], SRole 20 SEnd);
    (* S: EndpointS, :2045-2067 *) ([End; End; End; End; End; End; End; End; End; End; End; End; End; End; End; End; End; End; Rcv (PChoice 0 19) End], SRole 20 SEnd);
    (* T: EndpointT, :2068-2090 *) ([Snd (PChoice 0 1) End; Snd (PChoice 0 2) End; Snd (PChoice 0 3) End; Snd (PChoice 0 4) End; Snd (PChoice 0 5) End; Snd (PChoice 0 6) End; Snd (PChoice 0 7) End; Snd (PChoice 0 8) End; Snd (PChoice 0 9) End; Snd (PChoice 0 10) End; Snd (PChoice 0 11) End; Snd (PChoice 0 12) End; Snd (PChoice 0 13) End; Snd (PChoice 0 14) End; Snd (PChoice 0 15) End; Snd (PChoice 0 16) End; Snd (PChoice 0 17) End; Snd (PChoice 0 18) End; Snd (PChoice 0 19) End], SBroadcast)
  ]
  [[
    (* 0.0 Forward *) [
      (* A: :45-69 *) ([Snd (PVal 0) End; End; End; End; End; End; End; End; End; End; End; End; End; End; End; End; End; End; Rcv (PChoice 0 1) End], SRole 2 (SRole 20 SEnd));
      (* B: :125-149 *) ([Rcv (PVal 0) End; Snd (PVal 0) End; End; End; End; End; End; End; End; End; End; End; End; End; End; End; End; End; Rcv (PChoice 0 2) End], SRole 1 (SRole 3 (SRole 20 SEnd)));
      (* C: :205-229 *) ([End; Rcv (PVal 0) End; Snd (PVal 0) End; End; End; End; End; End; End; End; End; End; End; End; End; End; End; End; Rcv (PChoice 0 3) End], SRole 2 (SRole 4 (SRole 20 SEnd)));
      (* D: :285-309 *) ([End; End; Rcv (PVal 0) End; Snd (PVal 0) End; End; End; End; End; End; End; End; End; End; End; End; End; End; End; Rcv (PChoice 0 4) End], SRole 3 (SRole 5 (SRole 20 SEnd)));
      (* E: :365-389 *) ([End; End; End; Rcv (PVal 0) End; Snd (PVal 0) End; End; End; End; End; End; End; End; End; End; End; End; End; End; Rcv (PChoice 0 5) End], SRole 4 (SRole 6 (SRole 20 SEnd)));
      (* F: :445-469 *) ([End; End; End; End; Rcv (PVal 0) End; Snd (PVal 0) End; End; End; End; End; End; End; End; End; End; End; End; End; Rcv (PChoice 0 6) End], SRole 5 (SRole 7 (SRole 20 SEnd)));
      (* G: :525-549 *) ([End; End; End; End; End; Rcv (PVal 0) End; Snd (PVal 0) End; End; End; End; End; End; End; End; End; End; End; End; Rcv (PChoice 0 7) End], SRole 6 (SRole 8 (SRole 20 SEnd)));
      (* H: :605-629 *) ([End; End; End; End; End; End; Rcv (PVal 0) End; Snd (PVal 0) End; End; End; End; End; End; End; End; End; End; End; Rcv (PChoice 0 8) End], SRole 7 (SRole 9 (SRole 20 SEnd)));
      (* I: :685-709 *) ([End; End; End; End; End; End; End; Rcv (PVal 0) End; Snd (PVal 0) End; End; End; End; End; End; End; End; End; End; Rcv (PChoice 0 9) End], SRole 8 (SRole 10 (SRole 20 SEnd)));
      (* J: :765-789 *) ([End; End; End; End; End; End; End; End; Rcv (PVal 0) End; Snd (PVal 0) End; End; End; End; End; End; End; End; End; Rcv (PChoice 0 10) End], SRole 9 (SRole 11 (SRole 20 SEnd)));
      (* K: :845-869 *) ([End; End; End; End; End; End; End; End; End; Rcv (PVal 0) End; Snd (PVal 0) End; End; End; End; End; End; End; End; Rcv (PChoice 0 11) End], SRole 10 (SRole 12 (SRole 20 SEnd)));
      (* L: :925-949 *) ([End; End; End; End; End; End; End; End; End; End; Rcv (PVal 0) End; Snd (PVal 0) End; End; End; End; End; End; End; Rcv (PChoice 0 12) End], SRole 11 (SRole 13 (SRole 20 SEnd)));
      (* M: :1005-1029 *) ([End; End; End; End; End; End; End; End; End; End; End; Rcv (PVal 0) End; Snd (PVal 0) End; End; End; End; End; End; Rcv (PChoice 0 13) End], SRole 12 (SRole 14 (SRole 20 SEnd)));
      (* N: :1085-1109 *) ([End; End; End; End; End; End; End; End; End; End; End; End; Rcv (PVal 0) End; Snd (PVal 0) End; End; End; End; End; Rcv (PChoice 0 14) End], SRole 13 (SRole 15 (SRole 20 SEnd)));
      (* O: :1165-1189 *) ([End; End; End; End; End; End; End; End; End; End; End; End; End; Rcv (PVal 0) End; Snd (PVal 0) End; End; End; End; Rcv (PChoice 0 15) End], SRole 14 (SRole 16 (SRole 20 SEnd)));
      (* P: :1245-1269 *) ([End; End; End; End; End; End; End; End; End; End; End; End; End; End; Rcv (PVal 0) End; Snd (PVal 0) End; End; End; Rcv (PChoice 0 16) End], SRole 15 (SRole 17 (SRole 20 SEnd)));
      (* Q: :1325-1349 *) ([End; End; End; End; End; End; End; End; End; End; End; End; End; End; End; Rcv (PVal 0) End; Snd (PVal 0) End; End; Rcv (PChoice 0 17) End], SRole 16 (SRole 18 (SRole 20 SEnd)));
      (* R: :1405-1429 *) ([End; End; End; End; End; End; End; End; End; End; End; End; End; End; End; End; Rcv (PVal 0) End; Snd (PVal 0) End; Rcv (PChoice 0 18) End], SRole 17 (SRole 19 (SRole 20 SEnd)));
      (* S: :1485-1509 *) ([End; End; End; End; End; End; End; End; End; End; End; End; End; End; End; End; End; Rcv (PVal 0) End; Snd (PVal 0) (Rcv (PChoice 0 19) End)], SRole 18 (SRole 20 (SRole 20 SEnd)));
      (* T: EndpointForwardT, :1583-1605 *) ([Snd (PChoice 0 1) End; Snd (PChoice 0 2) End; Snd (PChoice 0 3) End; Snd (PChoice 0 4) End; Snd (PChoice 0 5) End; Snd (PChoice 0 6) End; Snd (PChoice 0 7) End; Snd (PChoice 0 8) End; Snd (PChoice 0 9) End; Snd (PChoice 0 10) End; Snd (PChoice 0 11) End; Snd (PChoice 0 12) End; Snd (PChoice 0 13) End; Snd (PChoice 0 14) End; Snd (PChoice 0 15) End; Snd (PChoice 0 16) End; Snd (PChoice 0 17) End; Snd (PChoice 0 18) End; Rcv (PVal 0) (Snd (PChoice 0 19) End)], SRole 19 SBroadcast)];
    (* 0.1 Backward *) [
      (* A: :70-94 *) ([Rcv (PVal 0) End; End; End; End; End; End; End; End; End; End; End; End; End; End; End; End; End; End; Rcv (PChoice 0 1) End], SRole 2 (SRole 20 SEnd));
      (* B: :150-174 *) ([Snd (PVal 0) End; Rcv (PVal 0) End; End; End; End; End; End; End; End; End; End; End; End; End; End; End; End; End; Rcv (PChoice 0 2) End], SRole 3 (SRole 1 (SRole 20 SEnd)));
      (* C: :230-254 *) ([End; Snd (PVal 0) End; Rcv (PVal 0) End; End; End; End; End; End; End; End; End; End; End; End; End; End; End; End; Rcv (PChoice 0 3) End], SRole 4 (SRole 2 (SRole 20 SEnd)));
      (* D: :310-334 *) ([End; End; Snd (PVal 0) End; Rcv (PVal 0) End; End; End; End; End; End; End; End; End; End; End; End; End; End; End; Rcv (PChoice 0 4) End], SRole 5 (SRole 3 (SRole 20 SEnd)));
      (* E: :390-414 *) ([End; End; End; Snd (PVal 0) End; Rcv (PVal 0) End; End; End; End; End; End; End; End; End; End; End; End; End; End; Rcv (PChoice 0 5) End], SRole 6 (SRole 4 (SRole 20 SEnd)));
      (* F: :470-494 *) ([End; End; End; End; Snd (PVal 0) End; Rcv (PVal 0) End; End; End; End; End; End; End; End; End; End; End; End; End; Rcv (PChoice 0 6) End], SRole 7 (SRole 5 (SRole 20 SEnd)));
      (* G: :550-574 *) ([End; End; End; End; End; Snd (PVal 0) End; Rcv (PVal 0) End; End; End; End; End; End; End; End; End; End; End; End; Rcv (PChoice 0 7) End], SRole 8 (SRole 6 (SRole 20 SEnd)));
      (* H: :630-654 *) ([End; End; End; End; End; End; Snd (PVal 0) End; Rcv (PVal 0) End; End; End; End; End; End; End; End; End; End; End; Rcv (PChoice 0 8) End], SRole 9 (SRole 7 (SRole 20 SEnd)));
      (* I: :710-734 *) ([End; End; End; End; End; End; End; Snd (PVal 0) End; Rcv (PVal 0) End; End; End; End; End; End; End; End; End; End; Rcv (PChoice 0 9) End], SRole 10 (SRole 8 (SRole 20 SEnd)));
      (* J: :790-814 *) ([End; End; End; End; End; End; End; End; Snd (PVal 0) End; Rcv (PVal 0) End; End; End; End; End; End; End; End; End; Rcv (PChoice 0 10) End], SRole 11 (SRole 9 (SRole 20 SEnd)));
      (* K: :870-894 *) ([End; End; End; End; End; End; End; End; End; Snd (PVal 0) End; Rcv (PVal 0) End; End; End; End; End; End; End; End; Rcv (PChoice 0 11) End], SRole 12 (SRole 10 (SRole 20 SEnd)));
      (* L: :950-974 *) ([End; End; End; End; End; End; End; End; End; End; Snd (PVal 0) End; Rcv (PVal 0) End; End; End; End; End; End; End; Rcv (PChoice 0 12) End], SRole 13 (SRole 11 (SRole 20 SEnd)));
      (* M: :1030-1054 *) ([End; End; End; End; End; End; End; End; End; End; End; Snd (PVal 0) End; Rcv (PVal 0) End; End; End; End; End; End; Rcv (PChoice 0 13) End], SRole 14 (SRole 12 (SRole 20 SEnd)));
      (* N: :1110-1134 *) ([End; End; End; End; End; End; End; End; End; End; End; End; Snd (PVal 0) End; Rcv (PVal 0) End; End; End; End; End; Rcv (PChoice 0 14) End], SRole 15 (SRole 13 (SRole 20 SEnd)));
      (* O: :1190-1214 *) ([End; End; End; End; End; End; End; End; End; End; End; End; End; Snd (PVal 0) End; Rcv (PVal 0) End; End; End; End; Rcv (PChoice 0 15) End], SRole 16 (SRole 14 (SRole 20 SEnd)));
      (* P: :1270-1294 *) ([End; End; End; End; End; End; End; End; End; End; End; End; End; End; Snd (PVal 0) End; Rcv (PVal 0) End; End; End; Rcv (PChoice 0 16) End], SRole 17 (SRole 15 (SRole 20 SEnd)));
      (* Q: :1350-1374 *) ([End; End; End; End; End; End; End; End; End; End; End; End; End; End; End; Snd (PVal 0) End; Rcv (PVal 0) End; End; Rcv (PChoice 0 17) End], SRole 18 (SRole 16 (SRole 20 SEnd)));
      (* R: :1430-1454 *) ([End; End; End; End; End; End; End; End; End; End; End; End; End; End; End; End; Snd (PVal 0) End; Rcv (PVal 0) End; Rcv (PChoice 0 18) End], SRole 19 (SRole 17 (SRole 20 SEnd)));
      (* S: :1510-1534 *) ([End; End; End; End; End; End; End; End; End; End; End; End; End; End; End; End; End; Snd (PVal 0) End; Rcv (PVal 0) (Rcv (PChoice 0 19) End)], SRole 20 (SRole 18 (SRole 20 SEnd)));
      (* T: EndpointBackwardT, :1606-1628 *) ([Snd (PChoice 0 1) End; Snd (PChoice 0 2) End; Snd (PChoice 0 3) End; Snd (PChoice 0 4) End; Snd (PChoice 0 5) End; Snd (PChoice 0 6) End; Snd (PChoice 0 7) End; Snd (PChoice 0 8) End; Snd (PChoice 0 9) End; Snd (PChoice 0 10) End; Snd (PChoice 0 11) End; Snd (PChoice 0 12) End; Snd (PChoice 0 13) End; Snd (PChoice 0 14) End; Snd (PChoice 0 15) End; Snd (PChoice 0 16) End; Snd (PChoice 0 17) End; Snd (PChoice 0 18) End; Snd (PVal 0) (Snd (PChoice 0 19) End)], SRole 19 SBroadcast)];
    (* 0.2 Done *) [
      (* A: :95-119 *) ([End; End; End; End; End; End; End; End; End; End; End; End; End; End; End; End; End; End; End], SEnd);
      (* B: :175-199 *) ([End; End; End; End; End; End; End; End; End; End; End; End; End; End; End; End; End; End; End], SEnd);
      (* C: :255-279 *) ([End; End; End; End; End; End; End; End; End; End; End; End; End; End; End; End; End; End; End], SEnd);
      (* D: :335-359 *) ([End; End; End; End; End; End; End; End; End; End; End; End; End; End; End; End; End; End; End], SEnd);
      (* E: :415-439 *) ([End; End; End; End; End; End; End; End; End; End; End; End; End; End; End; End; End; End; End], SEnd);
      (* F: :495-519 *) ([End; End; End; End; End; End; End; End; End; End; End; End; End; End; End; End; End; End; End], SEnd);
      (* G: :575-599 *) ([End; End; End; End; End; End; End; End; End; End; End; End; End; End; End; End; End; End; End], SEnd);
      (* H: :655-679 *) ([End; End; End; End; End; End; End; End; End; End; End; End; End; End; End; End; End; End; End], SEnd);
      (* I: :735-759 *) ([End; End; End; End; End; End; End; End; End; End; End; End; End; End; End; End; End; End; End], SEnd);
      (* J: :815-839 *) ([End; End; End; End; End; End; End; End; End; End; End; End; End; End; End; End; End; End; End], SEnd);
      (* K: :895-919 *) ([End; End; End; End; End; End; End; End; End; End; End; End; End; End; End; End; End; End; End], SEnd);
      (* L: :975-999 *) ([End; End; End; End; End; End; End; End; End; End; End; End; End; End; End; End; End; End; End], SEnd);
      (* M: :1055-1079 *) ([End; End; End; End; End; End; End; End; End; End; End; End; End; End; End; End; End; End; End], SEnd);
      (* N: :1135-1159 *) ([End; End; End; End; End; End; End; End; End; End; End; End; End; End; End; End; End; End; End], SEnd);
      (* O: :1215-1239 *) ([End; End; End; End; End; End; End; End; End; End; End; End; End; End; End; End; End; End; End], SEnd);
      (* P: :1295-1319 *) ([End; End; End; End; End; End; End; End; End; End; End; End; End; End; End; End; End; End; End], SEnd);
      (* Q: :1375-1399 *) ([End; End; End; End; End; End; End; End; End; End; End; End; End; End; End; End; End; End; End], SEnd);
      (* R: :1455-1479 *) ([End; End; End; End; End; End; End; End; End; End; End; End; End; End; End; End; End; End; End], SEnd);
      (* S: :1535-1559 *) ([End; End; End; End; End; End; End; End; End; End; End; End; End; End; End; End; End; End; End], SEnd);
      (* T: as used after :2439-2460 *) ([End; End; End; End; End; End; End; End; End; End; End; End; End; End; End; End; End; End; End], SEnd)]
  ]].

(** All of them: examples/ring. *)
Definition rings : list proto :=
  [ring_two; ring_three; ring_four; ring_five; ring_six; ring_seven; ring_eight; ring_nine; ring_ten; ring_eleven;
   ring_twenty].
