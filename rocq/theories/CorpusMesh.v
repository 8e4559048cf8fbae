(** The mesh benchmarks of examples/mesh, as tables of types (see Corpus.v). Model only. *)
From Coq Require Import List.
From Verif Require Import Types Session Mesh Proto.
Import ListNotations.

(** examples/mesh/mesh_two_baking_mpst.rs. Roles: 1 = A, 2 = B. Payloads: 0 = (). Choice 0: B chooses (Branching0fromBtoA,
    :21-24): 0 = More, 1 = Done. The same types: examples/mesh/mesh_two_baking_ampst.rs,
    examples/mesh/mesh_two_baking_atmp.rs, examples/mesh/mesh_two_baking_cancel_inline.rs. *)
Definition mesh_two : proto := mkproto
  [
    (* A: EndpointA, :33 *) ([Rcv (PChoice 0 1) End], SRole 2 SEnd);
    (* B: EndpointB, :34 *) ([Snd (PChoice 0 1) End], SBroadcast)
  ]
  [[
    (* 0.0 More *) [
      (* A: :22 *) ([Rcv (PVal 0) (Snd (PVal 0) (Rcv (PChoice 0 1) End))], SRole 2 (SRole 2 (SRole 2 SEnd)));
      (* B: EndpointMoreB, :29-30 *) ([Snd (PVal 0) (Rcv (PVal 0) (Snd (PChoice 0 1) End))], SRole 1 (SRole 1 SBroadcast))];
    (* 0.1 Done *) [
      (* A: :23 *) ([End], SEnd);
      (* B: as used after :56 *) ([End], SEnd)]
  ]].

(** examples/mesh/mesh_three_baking_mpst.rs. Roles: 1 = A, 2 = B, 3 = C. Payloads: 0 = (). Choice 0: C chooses
    (Branching0fromCtoA, :30-33, Branching0fromCtoB, :37-40): 0 = More, 1 = Done. The same types:
    examples/mesh/mesh_three_baking_ampst.rs, examples/mesh/mesh_three_baking_atmp.rs,
    examples/mesh/mesh_three_baking_cancel_inline.rs. *)
Definition mesh_three : proto := mkproto
  [
    (* A: EndpointA, :54 *) ([End; Rcv (PChoice 0 1) End], SRole 3 SEnd);
    (* B: EndpointB, :55 *) ([End; Rcv (PChoice 0 2) End], SRole 3 SEnd);
    (* C: EndpointC, :56 *) ([Snd (PChoice 0 1) End; Snd (PChoice 0 2) End], SBroadcast)
  ]
  [[
    (* 0.0 More *) [
      (* A: :31 *) ([Rcv (PVal 0) (Snd (PVal 0) End); Rcv (PVal 0) (Snd (PVal 0) (Rcv (PChoice 0 1) End))], SRole 3 (SRole 3 (SRole 2 (SRole 2 (SRole 3 SEnd)))));
      (* B: :38 *) ([Snd (PVal 0) (Rcv (PVal 0) End); Rcv (PVal 0) (Snd (PVal 0) (Rcv (PChoice 0 2) End))], SRole 3 (SRole 3 (SRole 1 (SRole 1 (SRole 3 SEnd)))));
      (* C: EndpointMoreC, :46-51 *) ([Snd (PVal 0) (Rcv (PVal 0) (Snd (PChoice 0 1) End)); Snd (PVal 0) (Rcv (PVal 0) (Snd (PChoice 0 2) End))], SRole 1 (SRole 1 (SRole 2 (SRole 2 SBroadcast))))];
    (* 0.1 Done *) [
      (* A: :32 *) ([End; End], SEnd);
      (* B: :39 *) ([End; End], SEnd);
      (* C: as used after :95 *) ([End; End], SEnd)]
  ]].

(** examples/mesh/mesh_four_baking_mpst.rs. Roles: 1 = A, 2 = B, 3 = C, 4 = D. Payloads: 0 = (). Choice 0: D chooses
    (Branching0fromDtoA, :31-42, Branching0fromDtoB, :46-57, Branching0fromDtoC, :61-72): 0 = More, 1 = Done. The same
    types: examples/mesh/mesh_four_baking_ampst.rs, examples/mesh/mesh_four_baking_atmp.rs,
    examples/mesh/mesh_four_baking_cancel_inline.rs. *)
Definition mesh_four : proto := mkproto
  [
    (* A: EndpointA, :88 *) ([End; End; Rcv (PChoice 0 1) End], SRole 4 SEnd);
    (* B: EndpointB, :89 *) ([End; End; Rcv (PChoice 0 2) End], SRole 4 SEnd);
    (* C: EndpointC, :90 *) ([End; End; Rcv (PChoice 0 3) End], SRole 4 SEnd);
    (* D: EndpointD, :91-92 *) ([Snd (PChoice 0 1) End; Snd (PChoice 0 2) End; Snd (PChoice 0 3) End], SBroadcast)
  ]
  [[
    (* 0.0 More *) [
      (* A: :32-40 *) ([Rcv (PVal 0) (Snd (PVal 0) End); Rcv (PVal 0) (Snd (PVal 0) End); Rcv (PVal 0) (Snd (PVal 0) (Rcv (PChoice 0 1) End))], SRole 4 (SRole 4 (SRole 2 (SRole 2 (SRole 3 (SRole 3 (SRole 4 SEnd)))))));
      (* B: :47-55 *) ([Snd (PVal 0) (Rcv (PVal 0) End); Rcv (PVal 0) (Snd (PVal 0) End); Rcv (PVal 0) (Snd (PVal 0) (Rcv (PChoice 0 2) End))], SRole 4 (SRole 4 (SRole 1 (SRole 1 (SRole 3 (SRole 3 (SRole 4 SEnd)))))));
      (* C: :62-70 *) ([Snd (PVal 0) (Rcv (PVal 0) End); Snd (PVal 0) (Rcv (PVal 0) End); Rcv (PVal 0) (Snd (PVal 0) (Rcv (PChoice 0 3) End))], SRole 4 (SRole 4 (SRole 1 (SRole 1 (SRole 2 (SRole 2 (SRole 4 SEnd)))))));
      (* D: EndpointMoreD, :79-85 *) ([Snd (PVal 0) (Rcv (PVal 0) (Snd (PChoice 0 1) End)); Snd (PVal 0) (Rcv (PVal 0) (Snd (PChoice 0 2) End)); Snd (PVal 0) (Rcv (PVal 0) (Snd (PChoice 0 3) End))], SRole 1 (SRole 1 (SRole 2 (SRole 2 (SRole 3 (SRole 3 SBroadcast))))))];
    (* 0.1 Done *) [
      (* A: :41 *) ([End; End; End], SEnd);
      (* B: :56 *) ([End; End; End], SEnd);
      (* C: :71 *) ([End; End; End], SEnd);
      (* D: as used after :152-157 *) ([End; End; End], SEnd)]
  ]].

(** examples/mesh/mesh_five_baking_mpst.rs. Roles: 1 = A, 2 = B, 3 = C, 4 = D, 5 = E. Payloads: 0 = (). Choice 0: E
    chooses (Branching0fromEtoA, :32-44, Branching0fromEtoB, :48-60, Branching0fromEtoC, :64-76, Branching0fromEtoD,
    :80-92): 0 = More, 1 = Done. The same types: examples/mesh/mesh_five_baking_ampst.rs,
    examples/mesh/mesh_five_baking_atmp.rs, examples/mesh/mesh_five_baking_cancel_inline.rs. *)
Definition mesh_five : proto := mkproto
  [
    (* A: EndpointA, :110 *) ([End; End; End; Rcv (PChoice 0 1) End], SRole 5 SEnd);
    (* B: EndpointB, :111 *) ([End; End; End; Rcv (PChoice 0 2) End], SRole 5 SEnd);
    (* C: EndpointC, :112 *) ([End; End; End; Rcv (PChoice 0 3) End], SRole 5 SEnd);
    (* D: EndpointD, :113 *) ([End; End; End; Rcv (PChoice 0 4) End], SRole 5 SEnd);
    (* E: EndpointE, :114-121 *) ([Snd (PChoice 0 1) End; Snd (PChoice 0 2) End; Snd (PChoice 0 3) End; Snd (PChoice 0 4) End], SBroadcast)
  ]
  [[
    (* 0.0 More *) [
      (* A: :33-42 *) ([Rcv (PVal 0) (Snd (PVal 0) End); Rcv (PVal 0) (Snd (PVal 0) End); Rcv (PVal 0) (Snd (PVal 0) End); Rcv (PVal 0) (Snd (PVal 0) (Rcv (PChoice 0 1) End))], SRole 5 (SRole 5 (SRole 2 (SRole 2 (SRole 3 (SRole 3 (SRole 4 (SRole 4 (SRole 5 SEnd)))))))));
      (* B: :49-58 *) ([Snd (PVal 0) (Rcv (PVal 0) End); Rcv (PVal 0) (Snd (PVal 0) End); Rcv (PVal 0) (Snd (PVal 0) End); Rcv (PVal 0) (Snd (PVal 0) (Rcv (PChoice 0 2) End))], SRole 5 (SRole 5 (SRole 1 (SRole 1 (SRole 3 (SRole 3 (SRole 4 (SRole 4 (SRole 5 SEnd)))))))));
      (* C: :65-74 *) ([Snd (PVal 0) (Rcv (PVal 0) End); Snd (PVal 0) (Rcv (PVal 0) End); Rcv (PVal 0) (Snd (PVal 0) End); Rcv (PVal 0) (Snd (PVal 0) (Rcv (PChoice 0 3) End))], SRole 5 (SRole 5 (SRole 1 (SRole 1 (SRole 2 (SRole 2 (SRole 4 (SRole 4 (SRole 5 SEnd)))))))));
      (* D: :81-90 *) ([Snd (PVal 0) (Rcv (PVal 0) End); Snd (PVal 0) (Rcv (PVal 0) End); Snd (PVal 0) (Rcv (PVal 0) End); Rcv (PVal 0) (Snd (PVal 0) (Rcv (PChoice 0 4) End))], SRole 5 (SRole 5 (SRole 1 (SRole 1 (SRole 2 (SRole 2 (SRole 3 (SRole 3 (SRole 5 SEnd)))))))));
      (* E: EndpointMoreE, :100-107 *) ([Snd (PVal 0) (Rcv (PVal 0) (Snd (PChoice 0 1) End)); Snd (PVal 0) (Rcv (PVal 0) (Snd (PChoice 0 2) End)); Snd (PVal 0) (Rcv (PVal 0) (Snd (PChoice 0 3) End)); Snd (PVal 0) (Rcv (PVal 0) (Snd (PChoice 0 4) End))], SRole 1 (SRole 1 (SRole 2 (SRole 2 (SRole 3 (SRole 3 (SRole 4 (SRole 4 SBroadcast))))))))];
    (* 0.1 Done *) [
      (* A: :43 *) ([End; End; End; End], SEnd);
      (* B: :59 *) ([End; End; End; End], SEnd);
      (* C: :75 *) ([End; End; End; End], SEnd);
      (* D: :91 *) ([End; End; End; End], SEnd);
      (* E: as used after :206-212 *) ([End; End; End; End], SEnd)]
  ]].

(** examples/mesh/mesh_six_baking_mpst.rs. Roles: 1 = A, 2 = B, 3 = C, 4 = D, 5 = E, 6 = F. Payloads: 0 = (). Choice 0: F
    chooses (Branching0fromFtoA, :33-46, Branching0fromFtoB, :50-63, Branching0fromFtoC, :67-80, Branching0fromFtoD,
    :84-97, Branching0fromFtoE, :101-114): 0 = More, 1 = Done. The same types: examples/mesh/mesh_six_baking_ampst.rs,
    examples/mesh/mesh_six_baking_atmp.rs, examples/mesh/mesh_six_baking_cancel_inline.rs. *)
Definition mesh_six : proto := mkproto
  [
    (* A: EndpointA, :134 *) ([End; End; End; End; Rcv (PChoice 0 1) End], SRole 6 SEnd);
    (* B: EndpointB, :135 *) ([End; End; End; End; Rcv (PChoice 0 2) End], SRole 6 SEnd);
    (* C: EndpointC, :136 *) ([End; End; End; End; Rcv (PChoice 0 3) End], SRole 6 SEnd);
    (* D: EndpointD, :137 *) ([End; End; End; End; Rcv (PChoice 0 4) End], SRole 6 SEnd);
    (* E: EndpointE, :138 *) ([End; End; End; End; Rcv (PChoice 0 5) End], SRole 6 SEnd);
    (* F: EndpointF, :139-147 *) ([Snd (PChoice 0 1) End; Snd (PChoice 0 2) End; Snd (PChoice 0 3) End; Snd (PChoice 0 4) End; Snd (PChoice 0 5) End], SBroadcast)
  ]
  [[
    (* 0.0 More *) [
      (* A: :34-44 *) ([Rcv (PVal 0) (Snd (PVal 0) End); Rcv (PVal 0) (Snd (PVal 0) End); Rcv (PVal 0) (Snd (PVal 0) End); Rcv (PVal 0) (Snd (PVal 0) End); Rcv (PVal 0) (Snd (PVal 0) (Rcv (PChoice 0 1) End))], SRole 6 (SRole 6 (SRole 2 (SRole 2 (SRole 3 (SRole 3 (SRole 4 (SRole 4 (SRole 5 (SRole 5 (SRole 6 SEnd)))))))))));
      (* B: :51-61 *) ([Snd (PVal 0) (Rcv (PVal 0) End); Rcv (PVal 0) (Snd (PVal 0) End); Rcv (PVal 0) (Snd (PVal 0) End); Rcv (PVal 0) (Snd (PVal 0) End); Rcv (PVal 0) (Snd (PVal 0) (Rcv (PChoice 0 2) End))], SRole 6 (SRole 6 (SRole 1 (SRole 1 (SRole 3 (SRole 3 (SRole 4 (SRole 4 (SRole 5 (SRole 5 (SRole 6 SEnd)))))))))));
      (* C: :68-78 *) ([Snd (PVal 0) (Rcv (PVal 0) End); Snd (PVal 0) (Rcv (PVal 0) End); Rcv (PVal 0) (Snd (PVal 0) End); Rcv (PVal 0) (Snd (PVal 0) End); Rcv (PVal 0) (Snd (PVal 0) (Rcv (PChoice 0 3) End))], SRole 6 (SRole 6 (SRole 1 (SRole 1 (SRole 2 (SRole 2 (SRole 4 (SRole 4 (SRole 5 (SRole 5 (SRole 6 SEnd)))))))))));
      (* D: :85-95 *) ([Snd (PVal 0) (Rcv (PVal 0) End); Snd (PVal 0) (Rcv (PVal 0) End); Snd (PVal 0) (Rcv (PVal 0) End); Rcv (PVal 0) (Snd (PVal 0) End); Rcv (PVal 0) (Snd (PVal 0) (Rcv (PChoice 0 4) End))], SRole 6 (SRole 6 (SRole 1 (SRole 1 (SRole 2 (SRole 2 (SRole 3 (SRole 3 (SRole 5 (SRole 5 (SRole 6 SEnd)))))))))));
      (* E: :102-112 *) ([Snd (PVal 0) (Rcv (PVal 0) End); Snd (PVal 0) (Rcv (PVal 0) End); Snd (PVal 0) (Rcv (PVal 0) End); Snd (PVal 0) (Rcv (PVal 0) End); Rcv (PVal 0) (Snd (PVal 0) (Rcv (PChoice 0 5) End))], SRole 6 (SRole 6 (SRole 1 (SRole 1 (SRole 2 (SRole 2 (SRole 3 (SRole 3 (SRole 4 (SRole 4 (SRole 6 SEnd)))))))))));
      (* F: EndpointMoreF, :123-131 *) ([Snd (PVal 0) (Rcv (PVal 0) (Snd (PChoice 0 1) End)); Snd (PVal 0) (Rcv (PVal 0) (Snd (PChoice 0 2) End)); Snd (PVal 0) (Rcv (PVal 0) (Snd (PChoice 0 3) End)); Snd (PVal 0) (Rcv (PVal 0) (Snd (PChoice 0 4) End)); Snd (PVal 0) (Rcv (PVal 0) (Snd (PChoice 0 5) End))], SRole 1 (SRole 1 (SRole 2 (SRole 2 (SRole 3 (SRole 3 (SRole 4 (SRole 4 (SRole 5 (SRole 5 SBroadcast))))))))))];
    (* 0.1 Done *) [
      (* A: :45 *) ([End; End; End; End; End], SEnd);
      (* B: :62 *) ([End; End; End; End; End], SEnd);
      (* C: :79 *) ([End; End; End; End; End], SEnd);
      (* D: :96 *) ([End; End; End; End; End], SEnd);
      (* E: :113 *) ([End; End; End; End; End], SEnd);
      (* F: as used after :261-268 *) ([End; End; End; End; End], SEnd)]
  ]].

(** examples/mesh/mesh_seven_baking_mpst.rs. Roles: 1 = A, 2 = B, 3 = C, 4 = D, 5 = E, 6 = F, 7 = G. Payloads: 0 = ().
    Choice 0: G chooses (Branching0fromGtoA, :34-48, Branching0fromGtoB, :52-66, Branching0fromGtoC, :70-84,
    Branching0fromGtoD, :88-102, Branching0fromGtoE, :106-120, Branching0fromGtoF, :124-138): 0 = More, 1 = Done. The same
    types: examples/mesh/mesh_seven_baking_ampst.rs, examples/mesh/mesh_seven_baking_atmp.rs,
    examples/mesh/mesh_seven_baking_cancel_inline.rs. *)
Definition mesh_seven : proto := mkproto
  [
    (* A: EndpointA, :160 *) ([End; End; End; End; End; Rcv (PChoice 0 1) End], SRole 7 SEnd);
    (* B: EndpointB, :161 *) ([End; End; End; End; End; Rcv (PChoice 0 2) End], SRole 7 SEnd);
    (* C: EndpointC, :162 *) ([End; End; End; End; End; Rcv (PChoice 0 3) End], SRole 7 SEnd);
    (* D: EndpointD, :163 *) ([End; End; End; End; End; Rcv (PChoice 0 4) End], SRole 7 SEnd);
    (* E: EndpointE, :164 *) ([End; End; End; End; End; Rcv (PChoice 0 5) End], SRole 7 SEnd);
    (* F: EndpointF, :165 *) ([End; End; End; End; End; Rcv (PChoice 0 6) End], SRole 7 SEnd);
    (* G: EndpointG, :166-175 *) ([Snd (PChoice 0 1) End; Snd (PChoice 0 2) End; Snd (PChoice 0 3) End; Snd (PChoice 0 4) End; Snd (PChoice 0 5) End; Snd (PChoice 0 6) End], SBroadcast)
  ]
  [[
    (* 0.0 More *) [
      (* A: :35-46 *) ([Rcv (PVal 0) (Snd (PVal 0) End); Rcv (PVal 0) (Snd (PVal 0) End); Rcv (PVal 0) (Snd (PVal 0) End); Rcv (PVal 0) (Snd (PVal 0) End); Rcv (PVal 0) (Snd (PVal 0) End); Rcv (PVal 0) (Snd (PVal 0) (Rcv (PChoice 0 1) End))], SRole 7 (SRole 7 (SRole 2 (SRole 2 (SRole 3 (SRole 3 (SRole 4 (SRole 4 (SRole 5 (SRole 5 (SRole 6 (SRole 6 (SRole 7 SEnd)))))))))))));
      (* B: :53-64 *) ([Snd (PVal 0) (Rcv (PVal 0) End); Rcv (PVal 0) (Snd (PVal 0) End); Rcv (PVal 0) (Snd (PVal 0) End); Rcv (PVal 0) (Snd (PVal 0) End); Rcv (PVal 0) (Snd (PVal 0) End); Rcv (PVal 0) (Snd (PVal 0) (Rcv (PChoice 0 2) End))], SRole 7 (SRole 7 (SRole 1 (SRole 1 (SRole 3 (SRole 3 (SRole 4 (SRole 4 (SRole 5 (SRole 5 (SRole 6 (SRole 6 (SRole 7 SEnd)))))))))))));
      (* C: :71-82 *) ([Snd (PVal 0) (Rcv (PVal 0) End); Snd (PVal 0) (Rcv (PVal 0) End); Rcv (PVal 0) (Snd (PVal 0) End); Rcv (PVal 0) (Snd (PVal 0) End); Rcv (PVal 0) (Snd (PVal 0) End); Rcv (PVal 0) (Snd (PVal 0) (Rcv (PChoice 0 3) End))], SRole 7 (SRole 7 (SRole 1 (SRole 1 (SRole 2 (SRole 2 (SRole 4 (SRole 4 (SRole 5 (SRole 5 (SRole 6 (SRole 6 (SRole 7 SEnd)))))))))))));
      (* D: :89-100 *) ([Snd (PVal 0) (Rcv (PVal 0) End); Snd (PVal 0) (Rcv (PVal 0) End); Snd (PVal 0) (Rcv (PVal 0) End); Rcv (PVal 0) (Snd (PVal 0) End); Rcv (PVal 0) (Snd (PVal 0) End); Rcv (PVal 0) (Snd (PVal 0) (Rcv (PChoice 0 4) End))], SRole 7 (SRole 7 (SRole 1 (SRole 1 (SRole 2 (SRole 2 (SRole 3 (SRole 3 (SRole 5 (SRole 5 (SRole 6 (SRole 6 (SRole 7 SEnd)))))))))))));
      (* E: :107-118 *) ([Snd (PVal 0) (Rcv (PVal 0) End); Snd (PVal 0) (Rcv (PVal 0) End); Snd (PVal 0) (Rcv (PVal 0) End); Snd (PVal 0) (Rcv (PVal 0) End); Rcv (PVal 0) (Snd (PVal 0) End); Rcv (PVal 0) (Snd (PVal 0) (Rcv (PChoice 0 5) End))], SRole 7 (SRole 7 (SRole 1 (SRole 1 (SRole 2 (SRole 2 (SRole 3 (SRole 3 (SRole 4 (SRole 4 (SRole 6 (SRole 6 (SRole 7 SEnd)))))))))))));
      (* F: :125-136 *) ([Snd (PVal 0) (Rcv (PVal 0) End); Snd (PVal 0) (Rcv (PVal 0) End); Snd (PVal 0) (Rcv (PVal 0) End); Snd (PVal 0) (Rcv (PVal 0) End); Snd (PVal 0) (Rcv (PVal 0) End); Rcv (PVal 0) (Snd (PVal 0) (Rcv (PChoice 0 6) End))], SRole 7 (SRole 7 (SRole 1 (SRole 1 (SRole 2 (SRole 2 (SRole 3 (SRole 3 (SRole 4 (SRole 4 (SRole 5 (SRole 5 (SRole 7 SEnd)))))))))))));
      (* G: EndpointMoreG, :148-157 *) ([Snd (PVal 0) (Rcv (PVal 0) (Snd (PChoice 0 1) End)); Snd (PVal 0) (Rcv (PVal 0) (Snd (PChoice 0 2) End)); Snd (PVal 0) (Rcv (PVal 0) (Snd (PChoice 0 3) End)); Snd (PVal 0) (Rcv (PVal 0) (Snd (PChoice 0 4) End)); Snd (PVal 0) (Rcv (PVal 0) (Snd (PChoice 0 5) End)); Snd (PVal 0) (Rcv (PVal 0) (Snd (PChoice 0 6) End))], SRole 1 (SRole 1 (SRole 2 (SRole 2 (SRole 3 (SRole 3 (SRole 4 (SRole 4 (SRole 5 (SRole 5 (SRole 6 (SRole 6 SBroadcast))))))))))))];
    (* 0.1 Done *) [
      (* A: :47 *) ([End; End; End; End; End; End], SEnd);
      (* B: :65 *) ([End; End; End; End; End; End], SEnd);
      (* C: :83 *) ([End; End; End; End; End; End], SEnd);
      (* D: :101 *) ([End; End; End; End; End; End], SEnd);
      (* E: :119 *) ([End; End; End; End; End; End], SEnd);
      (* F: :137 *) ([End; End; End; End; End; End], SEnd);
      (* G: as used after :322-330 *) ([End; End; End; End; End; End], SEnd)]
  ]].

(** examples/mesh/mesh_eight_baking_mpst.rs. Roles: 1 = A, 2 = B, 3 = C, 4 = D, 5 = E, 6 = F, 7 = G, 8 = H. Payloads: 0 =
    (). Choice 0: H chooses (Branching0fromHtoA, :35-50 and so on): 0 = More, 1 = Done. The same types:
    examples/mesh/mesh_eight_baking_ampst.rs, examples/mesh/mesh_eight_baking_atmp.rs,
    examples/mesh/mesh_eight_baking_cancel_inline.rs. *)
Definition mesh_eight : proto := mkproto
  [
    (* A: EndpointA, :188 *) ([End; End; End; End; End; End; Rcv (PChoice 0 1) End], SRole 8 SEnd);
    (* B: EndpointB, :189 *) ([End; End; End; End; End; End; Rcv (PChoice 0 2) End], SRole 8 SEnd);
    (* C: EndpointC, :190 *) ([End; End; End; End; End; End; Rcv (PChoice 0 3) End], SRole 8 SEnd);
    (* D: EndpointD, :191 *) ([End; End; End; End; End; End; Rcv (PChoice 0 4) End], SRole 8 SEnd);
    (* E: EndpointE, :192 *) ([End; End; End; End; End; End; Rcv (PChoice 0 5) End], SRole 8 SEnd);
    (* F: EndpointF, :193 *) ([End; End; End; End; End; End; Rcv (PChoice 0 6) End], SRole 8 SEnd);
    (* G: EndpointG, :194 *) ([End; End; End; End; End; End; Rcv (PChoice 0 7) End], SRole 8 SEnd);
    (* H: EndpointH, :195-205 *) ([Snd (PChoice 0 1) End; Snd (PChoice 0 2) End; Snd (PChoice 0 3) End; Snd (PChoice 0 4) End; Snd (PChoice 0 5) End; Snd (PChoice 0 6) End; Snd (PChoice 0 7) End], SBroadcast)
  ]
  [[
    (* 0.0 More *) [
      (* A: :36-48 *) ([Rcv (PVal 0) (Snd (PVal 0) End); Rcv (PVal 0) (Snd (PVal 0) End); Rcv (PVal 0) (Snd (PVal 0) End); Rcv (PVal 0) (Snd (PVal 0) End); Rcv (PVal 0) (Snd (PVal 0) End); Rcv (PVal 0) (Snd (PVal 0) End); Rcv (PVal 0) (Snd (PVal 0) (Rcv (PChoice 0 1) End))], SRole 8 (SRole 8 (SRole 2 (SRole 2 (SRole 3 (SRole 3 (SRole 4 (SRole 4 (SRole 5 (SRole 5 (SRole 6 (SRole 6 (SRole 7 (SRole 7 (SRole 8 SEnd)))))))))))))));
      (* B: :55-67 *) ([Snd (PVal 0) (Rcv (PVal 0) End); Rcv (PVal 0) (Snd (PVal 0) End); Rcv (PVal 0) (Snd (PVal 0) End); Rcv (PVal 0) (Snd (PVal 0) End); Rcv (PVal 0) (Snd (PVal 0) End); Rcv (PVal 0) (Snd (PVal 0) End); Rcv (PVal 0) (Snd (PVal 0) (Rcv (PChoice 0 2) End))], SRole 8 (SRole 8 (SRole 1 (SRole 1 (SRole 3 (SRole 3 (SRole 4 (SRole 4 (SRole 5 (SRole 5 (SRole 6 (SRole 6 (SRole 7 (SRole 7 (SRole 8 SEnd)))))))))))))));
      (* C: :74-86 *) ([Snd (PVal 0) (Rcv (PVal 0) End); Snd (PVal 0) (Rcv (PVal 0) End); Rcv (PVal 0) (Snd (PVal 0) End); Rcv (PVal 0) (Snd (PVal 0) End); Rcv (PVal 0) (Snd (PVal 0) End); Rcv (PVal 0) (Snd (PVal 0) End); Rcv (PVal 0) (Snd (PVal 0) (Rcv (PChoice 0 3) End))], SRole 8 (SRole 8 (SRole 1 (SRole 1 (SRole 2 (SRole 2 (SRole 4 (SRole 4 (SRole 5 (SRole 5 (SRole 6 (SRole 6 (SRole 7 (SRole 7 (SRole 8 SEnd)))))))))))))));
      (* D: :93-105 *) ([Snd (PVal 0) (Rcv (PVal 0) End); Snd (PVal 0) (Rcv (PVal 0) End); Snd (PVal 0) (Rcv (PVal 0) End); Rcv (PVal 0) (Snd (PVal 0) End); Rcv (PVal 0) (Snd (PVal 0) End); Rcv (PVal 0) (Snd (PVal 0) End); Rcv (PVal 0) (Snd (PVal 0) (Rcv (PChoice 0 4) End))], SRole 8 (SRole 8 (SRole 1 (SRole 1 (SRole 2 (SRole 2 (SRole 3 (SRole 3 (SRole 5 (SRole 5 (SRole 6 (SRole 6 (SRole 7 (SRole 7 (SRole 8 SEnd)))))))))))))));
      (* E: :112-124 *) ([Snd (PVal 0) (Rcv (PVal 0) End); Snd (PVal 0) (Rcv (PVal 0) End); Snd (PVal 0) (Rcv (PVal 0) End); Snd (PVal 0) (Rcv (PVal 0) End); Rcv (PVal 0) (Snd (PVal 0) End); Rcv (PVal 0) (Snd (PVal 0) End); Rcv (PVal 0) (Snd (PVal 0) (Rcv (PChoice 0 5) End))], SRole 8 (SRole 8 (SRole 1 (SRole 1 (SRole 2 (SRole 2 (SRole 3 (SRole 3 (SRole 4 (SRole 4 (SRole 6 (SRole 6 (SRole 7 (SRole 7 (SRole 8 SEnd)))))))))))))));
      (* F: :131-143 *) ([Snd (PVal 0) (Rcv (PVal 0) End); Snd (PVal 0) (Rcv (PVal 0) End); Snd (PVal 0) (Rcv (PVal 0) End); Snd (PVal 0) (Rcv (PVal 0) End); Snd (PVal 0) (Rcv (PVal 0) End); Rcv (PVal 0) (Snd (PVal 0) End); Rcv (PVal 0) (Snd (PVal 0) (Rcv (PChoice 0 6) End))], SRole 8 (SRole 8 (SRole 1 (SRole 1 (SRole 2 (SRole 2 (SRole 3 (SRole 3 (SRole 4 (SRole 4 (SRole 5 (SRole 5 (SRole 7 (SRole 7 (SRole 8 SEnd)))))))))))))));
      (* G: :150-162 *) ([Snd (PVal 0) (Rcv (PVal 0) End); Snd (PVal 0) (Rcv (PVal 0) End); Snd (PVal 0) (Rcv (PVal 0) End); Snd (PVal 0) (Rcv (PVal 0) End); Snd (PVal 0) (Rcv (PVal 0) End); Snd (PVal 0) (Rcv (PVal 0) End); Rcv (PVal 0) (Snd (PVal 0) (Rcv (PChoice 0 7) End))], SRole 8 (SRole 8 (SRole 1 (SRole 1 (SRole 2 (SRole 2 (SRole 3 (SRole 3 (SRole 4 (SRole 4 (SRole 5 (SRole 5 (SRole 6 (SRole 6 (SRole 8 SEnd)))))))))))))));
      (* H: EndpointMoreH, :175-185 *) ([Snd (PVal 0) (Rcv (PVal 0) (Snd (PChoice 0 1) End)); Snd (PVal 0) (Rcv (PVal 0) (Snd (PChoice 0 2) End)); Snd (PVal 0) (Rcv (PVal 0) (Snd (PChoice 0 3) End)); Snd (PVal 0) (Rcv (PVal 0) (Snd (PChoice 0 4) End)); Snd (PVal 0) (Rcv (PVal 0) (Snd (PChoice 0 5) End)); Snd (PVal 0) (Rcv (PVal 0) (Snd (PChoice 0 6) End)); Snd (PVal 0) (Rcv (PVal 0) (Snd (PChoice 0 7) End))], SRole 1 (SRole 1 (SRole 2 (SRole 2 (SRole 3 (SRole 3 (SRole 4 (SRole 4 (SRole 5 (SRole 5 (SRole 6 (SRole 6 (SRole 7 (SRole 7 SBroadcast))))))))))))))];
    (* 0.1 Done *) [
      (* A: :49 *) ([End; End; End; End; End; End; End], SEnd);
      (* B: :68 *) ([End; End; End; End; End; End; End], SEnd);
      (* C: :87 *) ([End; End; End; End; End; End; End], SEnd);
      (* D: :106 *) ([End; End; End; End; End; End; End], SEnd);
      (* E: :125 *) ([End; End; End; End; End; End; End], SEnd);
      (* F: :144 *) ([End; End; End; End; End; End; End], SEnd);
      (* G: :163 *) ([End; End; End; End; End; End; End], SEnd);
      (* H: as used after :389-398 *) ([End; End; End; End; End; End; End], SEnd)]
  ]].

(** examples/mesh/mesh_nine_baking_mpst.rs. Roles: 1 = A, 2 = B, 3 = C, 4 = D, 5 = E, 6 = F, 7 = G, 8 = H, 9 = I.
    Payloads: 0 = (). Choice 0: I chooses (Branching0fromItoA, :36-52 and so on): 0 = More, 1 = Done. The same types:
    examples/mesh/mesh_nine_baking_ampst.rs, examples/mesh/mesh_nine_baking_atmp.rs,
    examples/mesh/mesh_nine_baking_cancel_inline.rs. *)
Definition mesh_nine : proto := mkproto
  [
    (* A: EndpointA, :218-219 *) ([End; End; End; End; End; End; End; Rcv (PChoice 0 1) End], SRole 9 SEnd);
    (* B: EndpointB, :220-221 *) ([End; End; End; End; End; End; End; Rcv (PChoice 0 2) End], SRole 9 SEnd);
    (* C: EndpointC, :222-223 *) ([End; End; End; End; End; End; End; Rcv (PChoice 0 3) End], SRole 9 SEnd);
    (* D: EndpointD, :224-225 *) ([End; End; End; End; End; End; End; Rcv (PChoice 0 4) End], SRole 9 SEnd);
    (* E: EndpointE, :226-227 *) ([End; End; End; End; End; End; End; Rcv (PChoice 0 5) End], SRole 9 SEnd);
    (* F: EndpointF, :228-229 *) ([End; End; End; End; End; End; End; Rcv (PChoice 0 6) End], SRole 9 SEnd);
    (* G: EndpointG, :230-231 *) ([End; End; End; End; End; End; End; Rcv (PChoice 0 7) End], SRole 9 SEnd);
    (* H: EndpointH, :232-233 *) ([End; End; End; End; End; End; End; Rcv (PChoice 0 8) End], SRole 9 SEnd);
    (* I: EndpointI, :234-245 *) ([Snd (PChoice 0 1) End; Snd (PChoice 0 2) End; Snd (PChoice 0 3) End; Snd (PChoice 0 4) End; Snd (PChoice 0 5) End; Snd (PChoice 0 6) End; Snd (PChoice 0 7) End; Snd (PChoice 0 8) End], SBroadcast)
  ]
  [[
    (* 0.0 More *) [
      (* A: :37-50 *) ([Rcv (PVal 0) (Snd (PVal 0) End); Rcv (PVal 0) (Snd (PVal 0) End); Rcv (PVal 0) (Snd (PVal 0) End); Rcv (PVal 0) (Snd (PVal 0) End); Rcv (PVal 0) (Snd (PVal 0) End); Rcv (PVal 0) (Snd (PVal 0) End); Rcv (PVal 0) (Snd (PVal 0) End); Rcv (PVal 0) (Snd (PVal 0) (Rcv (PChoice 0 1) End))], SRole 9 (SRole 9 (SRole 2 (SRole 2 (SRole 3 (SRole 3 (SRole 4 (SRole 4 (SRole 5 (SRole 5 (SRole 6 (SRole 6 (SRole 7 (SRole 7 (SRole 8 (SRole 8 (SRole 9 SEnd)))))))))))))))));
      (* B: :57-70 *) ([Snd (PVal 0) (Rcv (PVal 0) End); Rcv (PVal 0) (Snd (PVal 0) End); Rcv (PVal 0) (Snd (PVal 0) End); Rcv (PVal 0) (Snd (PVal 0) End); Rcv (PVal 0) (Snd (PVal 0) End); Rcv (PVal 0) (Snd (PVal 0) End); Rcv (PVal 0) (Snd (PVal 0) End); Rcv (PVal 0) (Snd (PVal 0) (Rcv (PChoice 0 2) End))], SRole 9 (SRole 9 (SRole 1 (SRole 1 (SRole 3 (SRole 3 (SRole 4 (SRole 4 (SRole 5 (SRole 5 (SRole 6 (SRole 6 (SRole 7 (SRole 7 (SRole 8 (SRole 8 (SRole 9 SEnd)))))))))))))))));
      (* C: :77-90 *) ([Snd (PVal 0) (Rcv (PVal 0) End); Snd (PVal 0) (Rcv (PVal 0) End); Rcv (PVal 0) (Snd (PVal 0) End); Rcv (PVal 0) (Snd (PVal 0) End); Rcv (PVal 0) (Snd (PVal 0) End); Rcv (PVal 0) (Snd (PVal 0) End); Rcv (PVal 0) (Snd (PVal 0) End); Rcv (PVal 0) (Snd (PVal 0) (Rcv (PChoice 0 3) End))], SRole 9 (SRole 9 (SRole 1 (SRole 1 (SRole 2 (SRole 2 (SRole 4 (SRole 4 (SRole 5 (SRole 5 (SRole 6 (SRole 6 (SRole 7 (SRole 7 (SRole 8 (SRole 8 (SRole 9 SEnd)))))))))))))))));
      (* D: :97-110 *) ([Snd (PVal 0) (Rcv (PVal 0) End); Snd (PVal 0) (Rcv (PVal 0) End); Snd (PVal 0) (Rcv (PVal 0) End); Rcv (PVal 0) (Snd (PVal 0) End); Rcv (PVal 0) (Snd (PVal 0) End); Rcv (PVal 0) (Snd (PVal 0) End); Rcv (PVal 0) (Snd (PVal 0) End); Rcv (PVal 0) (Snd (PVal 0) (Rcv (PChoice 0 4) End))], SRole 9 (SRole 9 (SRole 1 (SRole 1 (SRole 2 (SRole 2 (SRole 3 (SRole 3 (SRole 5 (SRole 5 (SRole 6 (SRole 6 (SRole 7 (SRole 7 (SRole 8 (SRole 8 (SRole 9 SEnd)))))))))))))))));
      (* E: :117-130 *) ([Snd (PVal 0) (Rcv (PVal 0) End); Snd (PVal 0) (Rcv (PVal 0) End); Snd (PVal 0) (Rcv (PVal 0) End); Snd (PVal 0) (Rcv (PVal 0) End); Rcv (PVal 0) (Snd (PVal 0) End); Rcv (PVal 0) (Snd (PVal 0) End); Rcv (PVal 0) (Snd (PVal 0) End); Rcv (PVal 0) (Snd (PVal 0) (Rcv (PChoice 0 5) End))], SRole 9 (SRole 9 (SRole 1 (SRole 1 (SRole 2 (SRole 2 (SRole 3 (SRole 3 (SRole 4 (SRole 4 (SRole 6 (SRole 6 (SRole 7 (SRole 7 (SRole 8 (SRole 8 (SRole 9 SEnd)))))))))))))))));
      (* F: :137-150 *) ([Snd (PVal 0) (Rcv (PVal 0) End); Snd (PVal 0) (Rcv (PVal 0) End); Snd (PVal 0) (Rcv (PVal 0) End); Snd (PVal 0) (Rcv (PVal 0) End); Snd (PVal 0) (Rcv (PVal 0) End); Rcv (PVal 0) (Snd (PVal 0) End); Rcv (PVal 0) (Snd (PVal 0) End); Rcv (PVal 0) (Snd (PVal 0) (Rcv (PChoice 0 6) End))], SRole 9 (SRole 9 (SRole 1 (SRole 1 (SRole 2 (SRole 2 (SRole 3 (SRole 3 (SRole 4 (SRole 4 (SRole 5 (SRole 5 (SRole 7 (SRole 7 (SRole 8 (SRole 8 (SRole 9 SEnd)))))))))))))))));
      (* G: :157-170 *) ([Snd (PVal 0) (Rcv (PVal 0) End); Snd (PVal 0) (Rcv (PVal 0) End); Snd (PVal 0) (Rcv (PVal 0) End); Snd (PVal 0) (Rcv (PVal 0) End); Snd (PVal 0) (Rcv (PVal 0) End); Snd (PVal 0) (Rcv (PVal 0) End); Rcv (PVal 0) (Snd (PVal 0) End); Rcv (PVal 0) (Snd (PVal 0) (Rcv (PChoice 0 7) End))], SRole 9 (SRole 9 (SRole 1 (SRole 1 (SRole 2 (SRole 2 (SRole 3 (SRole 3 (SRole 4 (SRole 4 (SRole 5 (SRole 5 (SRole 6 (SRole 6 (SRole 8 (SRole 8 (SRole 9 SEnd)))))))))))))))));
      (* H: :177-190 *) ([Snd (PVal 0) (Rcv (PVal 0) End); Snd (PVal 0) (Rcv (PVal 0) End); Snd (PVal 0) (Rcv (PVal 0) End); Snd (PVal 0) (Rcv (PVal 0) End); Snd (PVal 0) (Rcv (PVal 0) End); Snd (PVal 0) (Rcv (PVal 0) End); Snd (PVal 0) (Rcv (PVal 0) End); Rcv (PVal 0) (Snd (PVal 0) (Rcv (PChoice 0 8) End))], SRole 9 (SRole 9 (SRole 1 (SRole 1 (SRole 2 (SRole 2 (SRole 3 (SRole 3 (SRole 4 (SRole 4 (SRole 5 (SRole 5 (SRole 6 (SRole 6 (SRole 7 (SRole 7 (SRole 9 SEnd)))))))))))))))));
      (* I: EndpointMoreI, :204-215 *) ([Snd (PVal 0) (Rcv (PVal 0) (Snd (PChoice 0 1) End)); Snd (PVal 0) (Rcv (PVal 0) (Snd (PChoice 0 2) End)); Snd (PVal 0) (Rcv (PVal 0) (Snd (PChoice 0 3) End)); Snd (PVal 0) (Rcv (PVal 0) (Snd (PChoice 0 4) End)); Snd (PVal 0) (Rcv (PVal 0) (Snd (PChoice 0 5) End)); Snd (PVal 0) (Rcv (PVal 0) (Snd (PChoice 0 6) End)); Snd (PVal 0) (Rcv (PVal 0) (Snd (PChoice 0 7) End)); Snd (PVal 0) (Rcv (PVal 0) (Snd (PChoice 0 8) End))], SRole 1 (SRole 1 (SRole 2 (SRole 2 (SRole 3 (SRole 3 (SRole 4 (SRole 4 (SRole 5 (SRole 5 (SRole 6 (SRole 6 (SRole 7 (SRole 7 (SRole 8 (SRole 8 SBroadcast))))))))))))))))];
    (* 0.1 Done *) [
      (* A: :51 *) ([End; End; End; End; End; End; End; End], SEnd);
      (* B: :71 *) ([End; End; End; End; End; End; End; End], SEnd);
      (* C: :91 *) ([End; End; End; End; End; End; End; End], SEnd);
      (* D: :111 *) ([End; End; End; End; End; End; End; End], SEnd);
      (* E: :131 *) ([End; End; End; End; End; End; End; End], SEnd);
      (* F: :151 *) ([End; End; End; End; End; End; End; End], SEnd);
      (* G: :171 *) ([End; End; End; End; End; End; End; End], SEnd);
      (* H: :191 *) ([End; End; End; End; End; End; End; End], SEnd);
      (* I: as used after :470-480 *) ([End; End; End; End; End; End; End; End], SEnd)]
  ]].

(** examples/mesh/mesh_ten_baking_mpst.rs. Roles: 1 = A, 2 = B, 3 = C, 4 = D, 5 = E, 6 = F, 7 = G, 8 = H, 9 = I, 10 = J.
    Payloads: 0 = (). Choice 0: J chooses (Branching0fromJtoA, :37-54 and so on): 0 = More, 1 = Done. The same types:
    examples/mesh/mesh_ten_baking_ampst.rs, examples/mesh/mesh_ten_baking_atmp.rs,
    examples/mesh/mesh_ten_baking_cancel_inline.rs. *)
Definition mesh_ten : proto := mkproto
  [
    (* A: EndpointA, :250-251 *) ([End; End; End; End; End; End; End; End; Rcv (PChoice 0 1) End], SRole 10 SEnd);
    (* B: EndpointB, :252-253 *) ([End; End; End; End; End; End; End; End; Rcv (PChoice 0 2) End], SRole 10 SEnd);
    (* C: EndpointC, :254-255 *) ([End; End; End; End; End; End; End; End; Rcv (PChoice 0 3) End], SRole 10 SEnd);
    (* D: EndpointD, :256-257 *) ([End; End; End; End; End; End; End; End; Rcv (PChoice 0 4) End], SRole 10 SEnd);
    (* E: EndpointE, :258-259 *) ([End; End; End; End; End; End; End; End; Rcv (PChoice 0 5) End], SRole 10 SEnd);
    (* F: EndpointF, :260-261 *) ([End; End; End; End; End; End; End; End; Rcv (PChoice 0 6) End], SRole 10 SEnd);
    (* G: EndpointG, :262-263 *) ([End; End; End; End; End; End; End; End; Rcv (PChoice 0 7) End], SRole 10 SEnd);
    (* H: EndpointH, :264-265 *) ([End; End; End; End; End; End; End; End; Rcv (PChoice 0 8) End], SRole 10 SEnd);
    (* I: EndpointI, :266-267 *) ([End; End; End; End; End; End; End; End; Rcv (PChoice 0 9) End], SRole 10 SEnd);
    (* J: EndpointJ, :268-280 *) ([Snd (PChoice 0 1) End; Snd (PChoice 0 2) End; Snd (PChoice 0 3) End; Snd (PChoice 0 4) End; Snd (PChoice 0 5) End; Snd (PChoice 0 6) End; Snd (PChoice 0 7) End; Snd (PChoice 0 8) End; Snd (PChoice 0 9) End], SBroadcast)
  ]
  [[
    (* 0.0 More *) [
      (* A: :38-52 *) ([Rcv (PVal 0) (Snd (PVal 0) End); Rcv (PVal 0) (Snd (PVal 0) End); Rcv (PVal 0) (Snd (PVal 0) End); Rcv (PVal 0) (Snd (PVal 0) End); Rcv (PVal 0) (Snd (PVal 0) End); Rcv (PVal 0) (Snd (PVal 0) End); Rcv (PVal 0) (Snd (PVal 0) End); Rcv (PVal 0) (Snd (PVal 0) End); Rcv (PVal 0) (Snd (PVal 0) (Rcv (PChoice 0 1) End))], SRole 10 (SRole 10 (SRole 2 (SRole 2 (SRole 3 (SRole 3 (SRole 4 (SRole 4 (SRole 5 (SRole 5 (SRole 6 (SRole 6 (SRole 7 (SRole 7 (SRole 8 (SRole 8 (SRole 9 (SRole 9 (SRole 10 SEnd)))))))))))))))))));
      (* B: :59-73 *) ([Snd (PVal 0) (Rcv (PVal 0) End); Rcv (PVal 0) (Snd (PVal 0) End); Rcv (PVal 0) (Snd (PVal 0) End); Rcv (PVal 0) (Snd (PVal 0) End); Rcv (PVal 0) (Snd (PVal 0) End); Rcv (PVal 0) (Snd (PVal 0) End); Rcv (PVal 0) (Snd (PVal 0) End); Rcv (PVal 0) (Snd (PVal 0) End); Rcv (PVal 0) (Snd (PVal 0) (Rcv (PChoice 0 2) End))], SRole 10 (SRole 10 (SRole 1 (SRole 1 (SRole 3 (SRole 3 (SRole 4 (SRole 4 (SRole 5 (SRole 5 (SRole 6 (SRole 6 (SRole 7 (SRole 7 (SRole 8 (SRole 8 (SRole 9 (SRole 9 (SRole 10 SEnd)))))))))))))))))));
      (* C: :80-94 *) ([Snd (PVal 0) (Rcv (PVal 0) End); Snd (PVal 0) (Rcv (PVal 0) End); Rcv (PVal 0) (Snd (PVal 0) End); Rcv (PVal 0) (Snd (PVal 0) End); Rcv (PVal 0) (Snd (PVal 0) End); Rcv (PVal 0) (Snd (PVal 0) End); Rcv (PVal 0) (Snd (PVal 0) End); Rcv (PVal 0) (Snd (PVal 0) End); Rcv (PVal 0) (Snd (PVal 0) (Rcv (PChoice 0 3) End))], SRole 10 (SRole 10 (SRole 1 (SRole 1 (SRole 2 (SRole 2 (SRole 4 (SRole 4 (SRole 5 (SRole 5 (SRole 6 (SRole 6 (SRole 7 (SRole 7 (SRole 8 (SRole 8 (SRole 9 (SRole 9 (SRole 10 SEnd)))))))))))))))))));
      (* D: :101-115 *) ([Snd (PVal 0) (Rcv (PVal 0) End); Snd (PVal 0) (Rcv (PVal 0) End); Snd (PVal 0) (Rcv (PVal 0) End); Rcv (PVal 0) (Snd (PVal 0) End); Rcv (PVal 0) (Snd (PVal 0) End); Rcv (PVal 0) (Snd (PVal 0) End); Rcv (PVal 0) (Snd (PVal 0) End); Rcv (PVal 0) (Snd (PVal 0) End); Rcv (PVal 0) (Snd (PVal 0) (Rcv (PChoice 0 4) End))], SRole 10 (SRole 10 (SRole 1 (SRole 1 (SRole 2 (SRole 2 (SRole 3 (SRole 3 (SRole 5 (SRole 5 (SRole 6 (SRole 6 (SRole 7 (SRole 7 (SRole 8 (SRole 8 (SRole 9 (SRole 9 (SRole 10 SEnd)))))))))))))))))));
      (* E: :122-136 *) ([Snd (PVal 0) (Rcv (PVal 0) End); Snd (PVal 0) (Rcv (PVal 0) End); Snd (PVal 0) (Rcv (PVal 0) End); Snd (PVal 0) (Rcv (PVal 0) End); Rcv (PVal 0) (Snd (PVal 0) End); Rcv (PVal 0) (Snd (PVal 0) End); Rcv (PVal 0) (Snd (PVal 0) End); Rcv (PVal 0) (Snd (PVal 0) End); Rcv (PVal 0) (Snd (PVal 0) (Rcv (PChoice 0 5) End))], SRole 10 (SRole 10 (SRole 1 (SRole 1 (SRole 2 (SRole 2 (SRole 3 (SRole 3 (SRole 4 (SRole 4 (SRole 6 (SRole 6 (SRole 7 (SRole 7 (SRole 8 (SRole 8 (SRole 9 (SRole 9 (SRole 10 SEnd)))))))))))))))))));
      (* F: :143-157 *) ([Snd (PVal 0) (Rcv (PVal 0) End); Snd (PVal 0) (Rcv (PVal 0) End); Snd (PVal 0) (Rcv (PVal 0) End); Snd (PVal 0) (Rcv (PVal 0) End); Snd (PVal 0) (Rcv (PVal 0) End); Rcv (PVal 0) (Snd (PVal 0) End); Rcv (PVal 0) (Snd (PVal 0) End); Rcv (PVal 0) (Snd (PVal 0) End); Rcv (PVal 0) (Snd (PVal 0) (Rcv (PChoice 0 6) End))], SRole 10 (SRole 10 (SRole 1 (SRole 1 (SRole 2 (SRole 2 (SRole 3 (SRole 3 (SRole 4 (SRole 4 (SRole 5 (SRole 5 (SRole 7 (SRole 7 (SRole 8 (SRole 8 (SRole 9 (SRole 9 (SRole 10 SEnd)))))))))))))))))));
      (* G: :164-178 *) ([Snd (PVal 0) (Rcv (PVal 0) End); Snd (PVal 0) (Rcv (PVal 0) End); Snd (PVal 0) (Rcv (PVal 0) End); Snd (PVal 0) (Rcv (PVal 0) End); Snd (PVal 0) (Rcv (PVal 0) End); Snd (PVal 0) (Rcv (PVal 0) End); Rcv (PVal 0) (Snd (PVal 0) End); Rcv (PVal 0) (Snd (PVal 0) End); Rcv (PVal 0) (Snd (PVal 0) (Rcv (PChoice 0 7) End))], SRole 10 (SRole 10 (SRole 1 (SRole 1 (SRole 2 (SRole 2 (SRole 3 (SRole 3 (SRole 4 (SRole 4 (SRole 5 (SRole 5 (SRole 6 (SRole 6 (SRole 8 (SRole 8 (SRole 9 (SRole 9 (SRole 10 SEnd)))))))))))))))))));
      (* H: :185-199 *) ([Snd (PVal 0) (Rcv (PVal 0) End); Snd (PVal 0) (Rcv (PVal 0) End); Snd (PVal 0) (Rcv (PVal 0) End); Snd (PVal 0) (Rcv (PVal 0) End); Snd (PVal 0) (Rcv (PVal 0) End); Snd (PVal 0) (Rcv (PVal 0) End); Snd (PVal 0) (Rcv (PVal 0) End); Rcv (PVal 0) (Snd (PVal 0) End); Rcv (PVal 0) (Snd (PVal 0) (Rcv (PChoice 0 8) End))], SRole 10 (SRole 10 (SRole 1 (SRole 1 (SRole 2 (SRole 2 (SRole 3 (SRole 3 (SRole 4 (SRole 4 (SRole 5 (SRole 5 (SRole 6 (SRole 6 (SRole 7 (SRole 7 (SRole 9 (SRole 9 (SRole 10 SEnd)))))))))))))))))));
      (* I: :206-220 *) ([Snd (PVal 0) (Rcv (PVal 0) End); Snd (PVal 0) (Rcv (PVal 0) End); Snd (PVal 0) (Rcv (PVal 0) End); Snd (PVal 0) (Rcv (PVal 0) End); Snd (PVal 0) (Rcv (PVal 0) End); Snd (PVal 0) (Rcv (PVal 0) End); Snd (PVal 0) (Rcv (PVal 0) End); Snd (PVal 0) (Rcv (PVal 0) End); Rcv (PVal 0) (Snd (PVal 0) (Rcv (PChoice 0 9) End))], SRole 10 (SRole 10 (SRole 1 (SRole 1 (SRole 2 (SRole 2 (SRole 3 (SRole 3 (SRole 4 (SRole 4 (SRole 5 (SRole 5 (SRole 6 (SRole 6 (SRole 7 (SRole 7 (SRole 8 (SRole 8 (SRole 10 SEnd)))))))))))))))))));
      (* J: EndpointMoreJ, :235-247 *) ([Snd (PVal 0) (Rcv (PVal 0) (Snd (PChoice 0 1) End)); Snd (PVal 0) (Rcv (PVal 0) (Snd (PChoice 0 2) End)); Snd (PVal 0) (Rcv (PVal 0) (Snd (PChoice 0 3) End)); Snd (PVal 0) (Rcv (PVal 0) (Snd (PChoice 0 4) End)); Snd (PVal 0) (Rcv (PVal 0) (Snd (PChoice 0 5) End)); Snd (PVal 0) (Rcv (PVal 0) (Snd (PChoice 0 6) End)); Snd (PVal 0) (Rcv (PVal 0) (Snd (PChoice 0 7) End)); Snd (PVal 0) (Rcv (PVal 0) (Snd (PChoice 0 8) End)); Snd (PVal 0) (Rcv (PVal 0) (Snd (PChoice 0 9) End))], SRole 1 (SRole 1 (SRole 2 (SRole 2 (SRole 3 (SRole 3 (SRole 4 (SRole 4 (SRole 5 (SRole 5 (SRole 6 (SRole 6 (SRole 7 (SRole 7 (SRole 8 (SRole 8 (SRole 9 (SRole 9 SBroadcast))))))))))))))))))];
    (* 0.1 Done *) [
      (* A: :53 *) ([End; End; End; End; End; End; End; End; End], SEnd);
      (* B: :74 *) ([End; End; End; End; End; End; End; End; End], SEnd);
      (* C: :95 *) ([End; End; End; End; End; End; End; End; End], SEnd);
      (* D: :116 *) ([End; End; End; End; End; End; End; End; End], SEnd);
      (* E: :137 *) ([End; End; End; End; End; End; End; End; End], SEnd);
      (* F: :158 *) ([End; End; End; End; End; End; End; End; End], SEnd);
      (* G: :179 *) ([End; End; End; End; End; End; End; End; End], SEnd);
      (* H: :200 *) ([End; End; End; End; End; End; End; End; End], SEnd);
      (* I: :221 *) ([End; End; End; End; End; End; End; End; End], SEnd);
      (* J: as used after :550-561 *) ([End; End; End; End; End; End; End; End; End], SEnd)]
  ]].

(** examples/mesh/mesh_eleven_baking_mpst.rs. Roles: 1 = A, 2 = B, 3 = C, 4 = D, 5 = E, 6 = F, 7 = G, 8 = H, 9 = I, 10 =
    J, 11 = K. Payloads: 0 = (). Choice 0: K chooses (Branching0fromKtoA, :38-56 and so on): 0 = More, 1 = Done. The same
    types: examples/mesh/mesh_eleven_baking_ampst.rs, examples/mesh/mesh_eleven_baking_cancel_inline.rs. *)
Definition mesh_eleven : proto := mkproto
  [
    (* A: EndpointA, :284-285 *) ([End; End; End; End; End; End; End; End; End; Rcv (PChoice 0 1) End], SRole 11 SEnd);
    (* B: EndpointB, :286-287 *) ([End; End; End; End; End; End; End; End; End; Rcv (PChoice 0 2) End], SRole 11 SEnd);
    (* C: EndpointC, :288-289 *) ([End; End; End; End; End; End; End; End; End; Rcv (PChoice 0 3) End], SRole 11 SEnd);
    (* D: EndpointD, :290-291 *) ([End; End; End; End; End; End; End; End; End; Rcv (PChoice 0 4) End], SRole 11 SEnd);
    (* E: EndpointE, :292-293 *) ([End; End; End; End; End; End; End; End; End; Rcv (PChoice 0 5) End], SRole 11 SEnd);
    (* F: EndpointF, :294-295 *) ([End; End; End; End; End; End; End; End; End; Rcv (PChoice 0 6) End], SRole 11 SEnd);
    (* G: EndpointG, :296-297 *) ([End; End; End; End; End; End; End; End; End; Rcv (PChoice 0 7) End], SRole 11 SEnd);
    (* H: EndpointH, :298-299 *) ([End; End; End; End; End; End; End; End; End; Rcv (PChoice 0 8) End], SRole 11 SEnd);
    (* I: EndpointI, :300-301 *) ([End; End; End; End; End; End; End; End; End; Rcv (PChoice 0 9) End], SRole 11 SEnd);
    (* J: EndpointJ, :302-303 *) ([End; End; End; End; End; End; End; End; End; Rcv (PChoice 0 10) End], SRole 11 SEnd);
    (* K: EndpointK, :304-317 *) ([Snd (PChoice 0 1) End; Snd (PChoice 0 2) End; Snd (PChoice 0 3) End; Snd (PChoice 0 4) End; Snd (PChoice 0 5) End; Snd (PChoice 0 6) End; Snd (PChoice 0 7) End; Snd (PChoice 0 8) End; Snd (PChoice 0 9) End; Snd (PChoice 0 10) End], SBroadcast)
  ]
  [[
    (* 0.0 More *) [
      (* A: :39-54 *) ([Rcv (PVal 0) (Snd (PVal 0) End); Rcv (PVal 0) (Snd (PVal 0) End); Rcv (PVal 0) (Snd (PVal 0) End); Rcv (PVal 0) (Snd (PVal 0) End); Rcv (PVal 0) (Snd (PVal 0) End); Rcv (PVal 0) (Snd (PVal 0) End); Rcv (PVal 0) (Snd (PVal 0) End); Rcv (PVal 0) (Snd (PVal 0) End); Rcv (PVal 0) (Snd (PVal 0) End); Rcv (PVal 0) (Snd (PVal 0) (Rcv (PChoice 0 1) End))], SRole 11 (SRole 11 (SRole 2 (SRole 2 (SRole 3 (SRole 3 (SRole 4 (SRole 4 (SRole 5 (SRole 5 (SRole 6 (SRole 6 (SRole 7 (SRole 7 (SRole 8 (SRole 8 (SRole 9 (SRole 9 (SRole 10 (SRole 10 (SRole 11 SEnd)))))))))))))))))))));
      (* B: :61-76 *) ([Snd (PVal 0) (Rcv (PVal 0) End); Rcv (PVal 0) (Snd (PVal 0) End); Rcv (PVal 0) (Snd (PVal 0) End); Rcv (PVal 0) (Snd (PVal 0) End); Rcv (PVal 0) (Snd (PVal 0) End); Rcv (PVal 0) (Snd (PVal 0) End); Rcv (PVal 0) (Snd (PVal 0) End); Rcv (PVal 0) (Snd (PVal 0) End); Rcv (PVal 0) (Snd (PVal 0) End); Rcv (PVal 0) (Snd (PVal 0) (Rcv (PChoice 0 2) End))], SRole 11 (SRole 11 (SRole 1 (SRole 1 (SRole 3 (SRole 3 (SRole 4 (SRole 4 (SRole 5 (SRole 5 (SRole 6 (SRole 6 (SRole 7 (SRole 7 (SRole 8 (SRole 8 (SRole 9 (SRole 9 (SRole 10 (SRole 10 (SRole 11 SEnd)))))))))))))))))))));
      (* C: :83-98 *) ([Snd (PVal 0) (Rcv (PVal 0) End); Snd (PVal 0) (Rcv (PVal 0) End); Rcv (PVal 0) (Snd (PVal 0) End); Rcv (PVal 0) (Snd (PVal 0) End); Rcv (PVal 0) (Snd (PVal 0) End); Rcv (PVal 0) (Snd (PVal 0) End); Rcv (PVal 0) (Snd (PVal 0) End); Rcv (PVal 0) (Snd (PVal 0) End); Rcv (PVal 0) (Snd (PVal 0) End); Rcv (PVal 0) (Snd (PVal 0) (Rcv (PChoice 0 3) End))], SRole 11 (SRole 11 (SRole 1 (SRole 1 (SRole 2 (SRole 2 (SRole 4 (SRole 4 (SRole 5 (SRole 5 (SRole 6 (SRole 6 (SRole 7 (SRole 7 (SRole 8 (SRole 8 (SRole 9 (SRole 9 (SRole 10 (SRole 10 (SRole 11 SEnd)))))))))))))))))))));
      (* D: :105-120 *) ([Snd (PVal 0) (Rcv (PVal 0) End); Snd (PVal 0) (Rcv (PVal 0) End); Snd (PVal 0) (Rcv (PVal 0) End); Rcv (PVal 0) (Snd (PVal 0) End); Rcv (PVal 0) (Snd (PVal 0) End); Rcv (PVal 0) (Snd (PVal 0) End); Rcv (PVal 0) (Snd (PVal 0) End); Rcv (PVal 0) (Snd (PVal 0) End); Rcv (PVal 0) (Snd (PVal 0) End); Rcv (PVal 0) (Snd (PVal 0) (Rcv (PChoice 0 4) End))], SRole 11 (SRole 11 (SRole 1 (SRole 1 (SRole 2 (SRole 2 (SRole 3 (SRole 3 (SRole 5 (SRole 5 (SRole 6 (SRole 6 (SRole 7 (SRole 7 (SRole 8 (SRole 8 (SRole 9 (SRole 9 (SRole 10 (SRole 10 (SRole 11 SEnd)))))))))))))))))))));
      (* E: :127-142 *) ([Snd (PVal 0) (Rcv (PVal 0) End); Snd (PVal 0) (Rcv (PVal 0) End); Snd (PVal 0) (Rcv (PVal 0) End); Snd (PVal 0) (Rcv (PVal 0) End); Rcv (PVal 0) (Snd (PVal 0) End); Rcv (PVal 0) (Snd (PVal 0) End); Rcv (PVal 0) (Snd (PVal 0) End); Rcv (PVal 0) (Snd (PVal 0) End); Rcv (PVal 0) (Snd (PVal 0) End); Rcv (PVal 0) (Snd (PVal 0) (Rcv (PChoice 0 5) End))], SRole 11 (SRole 11 (SRole 1 (SRole 1 (SRole 2 (SRole 2 (SRole 3 (SRole 3 (SRole 4 (SRole 4 (SRole 6 (SRole 6 (SRole 7 (SRole 7 (SRole 8 (SRole 8 (SRole 9 (SRole 9 (SRole 10 (SRole 10 (SRole 11 SEnd)))))))))))))))))))));
      (* F: :149-164 *) ([Snd (PVal 0) (Rcv (PVal 0) End); Snd (PVal 0) (Rcv (PVal 0) End); Snd (PVal 0) (Rcv (PVal 0) End); Snd (PVal 0) (Rcv (PVal 0) End); Snd (PVal 0) (Rcv (PVal 0) End); Rcv (PVal 0) (Snd (PVal 0) End); Rcv (PVal 0) (Snd (PVal 0) End); Rcv (PVal 0) (Snd (PVal 0) End); Rcv (PVal 0) (Snd (PVal 0) End); Rcv (PVal 0) (Snd (PVal 0) (Rcv (PChoice 0 6) End))], SRole 11 (SRole 11 (SRole 1 (SRole 1 (SRole 2 (SRole 2 (SRole 3 (SRole 3 (SRole 4 (SRole 4 (SRole 5 (SRole 5 (SRole 7 (SRole 7 (SRole 8 (SRole 8 (SRole 9 (SRole 9 (SRole 10 (SRole 10 (SRole 11 SEnd)))))))))))))))))))));
      (* G: :171-186 *) ([Snd (PVal 0) (Rcv (PVal 0) End); Snd (PVal 0) (Rcv (PVal 0) End); Snd (PVal 0) (Rcv (PVal 0) End); Snd (PVal 0) (Rcv (PVal 0) End); Snd (PVal 0) (Rcv (PVal 0) End); Snd (PVal 0) (Rcv (PVal 0) End); Rcv (PVal 0) (Snd (PVal 0) End); Rcv (PVal 0) (Snd (PVal 0) End); Rcv (PVal 0) (Snd (PVal 0) End); Rcv (PVal 0) (Snd (PVal 0) (Rcv (PChoice 0 7) End))], SRole 11 (SRole 11 (SRole 1 (SRole 1 (SRole 2 (SRole 2 (SRole 3 (SRole 3 (SRole 4 (SRole 4 (SRole 5 (SRole 5 (SRole 6 (SRole 6 (SRole 8 (SRole 8 (SRole 9 (SRole 9 (SRole 10 (SRole 10 (SRole 11 SEnd)))))))))))))))))))));
      (* H: :193-208 *) ([Snd (PVal 0) (Rcv (PVal 0) End); Snd (PVal 0) (Rcv (PVal 0) End); Snd (PVal 0) (Rcv (PVal 0) End); Snd (PVal 0) (Rcv (PVal 0) End); Snd (PVal 0) (Rcv (PVal 0) End); Snd (PVal 0) (Rcv (PVal 0) End); Snd (PVal 0) (Rcv (PVal 0) End); Rcv (PVal 0) (Snd (PVal 0) End); Rcv (PVal 0) (Snd (PVal 0) End); Rcv (PVal 0) (Snd (PVal 0) (Rcv (PChoice 0 8) End))], SRole 11 (SRole 11 (SRole 1 (SRole 1 (SRole 2 (SRole 2 (SRole 3 (SRole 3 (SRole 4 (SRole 4 (SRole 5 (SRole 5 (SRole 6 (SRole 6 (SRole 7 (SRole 7 (SRole 9 (SRole 9 (SRole 10 (SRole 10 (SRole 11 SEnd)))))))))))))))))))));
      (* I: :215-230 *) ([Snd (PVal 0) (Rcv (PVal 0) End); Snd (PVal 0) (Rcv (PVal 0) End); Snd (PVal 0) (Rcv (PVal 0) End); Snd (PVal 0) (Rcv (PVal 0) End); Snd (PVal 0) (Rcv (PVal 0) End); Snd (PVal 0) (Rcv (PVal 0) End); Snd (PVal 0) (Rcv (PVal 0) End); Snd (PVal 0) (Rcv (PVal 0) End); Rcv (PVal 0) (Snd (PVal 0) End); Rcv (PVal 0) (Snd (PVal 0) (Rcv (PChoice 0 9) End))], SRole 11 (SRole 11 (SRole 1 (SRole 1 (SRole 2 (SRole 2 (SRole 3 (SRole 3 (SRole 4 (SRole 4 (SRole 5 (SRole 5 (SRole 6 (SRole 6 (SRole 7 (SRole 7 (SRole 8 (SRole 8 (SRole 10 (SRole 10 (SRole 11 SEnd)))))))))))))))))))));
      (* J: :237-252 *) ([Snd (PVal 0) (Rcv (PVal 0) End); Snd (PVal 0) (Rcv (PVal 0) End); Snd (PVal 0) (Rcv (PVal 0) End); Snd (PVal 0) (Rcv (PVal 0) End); Snd (PVal 0) (Rcv (PVal 0) End); Snd (PVal 0) (Rcv (PVal 0) End); Snd (PVal 0) (Rcv (PVal 0) End); Snd (PVal 0) (Rcv (PVal 0) End); Snd (PVal 0) (Rcv (PVal 0) End); Rcv (PVal 0) (Snd (PVal 0) (Rcv (PChoice 0 10) End))], SRole 11 (SRole 11 (SRole 1 (SRole 1 (SRole 2 (SRole 2 (SRole 3 (SRole 3 (SRole 4 (SRole 4 (SRole 5 (SRole 5 (SRole 6 (SRole 6 (SRole 7 (SRole 7 (SRole 8 (SRole 8 (SRole 9 (SRole 9 (SRole 11 SEnd)))))))))))))))))))));
      (* K: EndpointMoreK, :268-281 *) ([Snd (PVal 0) (Rcv (PVal 0) (Snd (PChoice 0 1) End)); Snd (PVal 0) (Rcv (PVal 0) (Snd (PChoice 0 2) End)); Snd (PVal 0) (Rcv (PVal 0) (Snd (PChoice 0 3) End)); Snd (PVal 0) (Rcv (PVal 0) (Snd (PChoice 0 4) End)); Snd (PVal 0) (Rcv (PVal 0) (Snd (PChoice 0 5) End)); Snd (PVal 0) (Rcv (PVal 0) (Snd (PChoice 0 6) End)); Snd (PVal 0) (Rcv (PVal 0) (Snd (PChoice 0 7) End)); Snd (PVal 0) (Rcv (PVal 0) (Snd (PChoice 0 8) End)); Snd (PVal 0) (Rcv (PVal 0) (Snd (PChoice 0 9) End)); Snd (PVal 0) (Rcv (PVal 0) (Snd (PChoice 0 10) End))], SRole 1 (SRole 1 (SRole 2 (SRole 2 (SRole 3 (SRole 3 (SRole 4 (SRole 4 (SRole 5 (SRole 5 (SRole 6 (SRole 6 (SRole 7 (SRole 7 (SRole 8 (SRole 8 (SRole 9 (SRole 9 (SRole 10 (SRole 10 SBroadcast))))))))))))))))))))];
    (* 0.1 Done *) [
      (* A: :55 *) ([End; End; End; End; End; End; End; End; End; End], SEnd);
      (* B: :77 *) ([End; End; End; End; End; End; End; End; End; End], SEnd);
      (* C: :99 *) ([End; End; End; End; End; End; End; End; End; End], SEnd);
      (* D: :121 *) ([End; End; End; End; End; End; End; End; End; End], SEnd);
      (* E: :143 *) ([End; End; End; End; End; End; End; End; End; End], SEnd);
      (* F: :165 *) ([End; End; End; End; End; End; End; End; End; End], SEnd);
      (* G: :187 *) ([End; End; End; End; End; End; End; End; End; End], SEnd);
      (* H: :209 *) ([End; End; End; End; End; End; End; End; End; End], SEnd);
      (* I: :231 *) ([End; End; End; End; End; End; End; End; End; End], SEnd);
      (* J: :253 *) ([End; End; End; End; End; End; End; End; End; End], SEnd);
      (* K: as used after :636-648 *) ([End; End; End; End; End; End; End; End; End; End], SEnd)]
  ]].

(** examples/mesh/mesh_twenty_baking_mpst.rs. Roles: 1 = A, 2 = B, 3 = C, 4 = D, 5 = E, 6 = F, 7 = G, 8 = H, 9 = I, 10 =
    J, 11 = K, 12 = L, 13 = M, 14 = N, 15 = O, 16 = P, 17 = Q, 18 = R, 19 = S, 20 = T. Payloads: 0 = (). Choice 0: T
    chooses (Branching0fromTtoA, :70-161 and so on): 0 = More, 1 = Done. The same types:
    examples/mesh/mesh_twenty_baking_ampst.rs, examples/mesh/mesh_twenty_baking_cancel_inline.rs. *)
Definition mesh_twenty : proto := mkproto
  [
    (* A: EndpointA, :1945-1967 *) ([End; End; End; End; End; End; End; End; End; End; End; End; End; End; End; End; End; End; Rcv (PChoice 0 1) End], SRole 20 SEnd);
    (* B: EndpointB, :1968-1990 *) ([End; End; End; End; End; End; End; End; End; End; End; End; End; End; End; End; End; End; Rcv (PChoice 0 2) End], SRole 20 SEnd);
    (* C: EndpointC, :1991-2013 *) ([End; End; End; End; End; End; End; End; End; End; End; End; End; End; End; End; End; End; Rcv (PChoice 0 3) End], SRole 20 SEnd);
    (* D: EndpointD, :2014-2036 *) ([End; End; End; End; End; End; End; End; End; End; End; End; End; End; End; End; End; End; Rcv (PChoice 0 4) End], SRole 20 SEnd);
    (* E: EndpointE, :2037-2059 *) ([End; End; End; End; End; End; End; End; End; End; End; End; End; End; End; End; End; End; Rcv (PChoice 0 5) End], SRole 20 SEnd);
    (* F: EndpointF, :2060-2082 *) ([End; End; End; End; End; End; End; End; End; End; End; End; End; End; End; End; End; End; Rcv (PChoice 0 6) End], SRole 20 SEnd);
    (* G: EndpointG, :2083-2105 *) ([End; End; End; End; End; End; End; End; End; End; End; End; End; End; End; End; End; End; Rcv (PChoice 0 7) End], SRole 20 SEnd);
    (* H: EndpointH, :2106-2128 *) ([End; End; End; End; End; End; End; End; End; End; End; End; End; End; End; End; End; End; Rcv (PChoice 0 8) End], SRole 20 SEnd);
    (* I: EndpointI, :2129-2151 *) ([End; End; End; End; End; End; End; End; End; End; End; End; End; End; End; End; End; End; Rcv (PChoice 0 9) End], SRole 20 SEnd);
    (* J: EndpointJ, :2152-2174 *) ([End; End; End; End; End; End; End; End; End; End; End; End; End; End; End; End; End; End; Rcv (PChoice 0 10) End], SRole 20 SEnd);
    (* K: EndpointK, :2175-2197 *) ([End; End; End; End; End; End; End; End; End; End; End; End; End; End; End; End; End; End; Rcv (PChoice 0 11) End], SRole 20 SEnd);
    (* L: EndpointL, :2198-2220 *) ([End; End; End; End; End; End; End; End; End; End; End; End; End; End; End; End; End; End; Rcv (PChoice 0 12) End], SRole 20 SEnd);
    (* M: EndpointM, :2221-2243 *) ([End; End; End; End; End; End; End; End; End; End; End; End; End; End; End; End; End; End; Rcv (PChoice 0 13) End], SRole 20 SEnd);
    (* N: EndpointN, :2244-2266 *) ([End; End; End; End; End; End; End; End; End; End; End; End; End; End; End; End; End; End; Rcv (PChoice 0 14) End], SRole 20 SEnd);
    (* O: EndpointO, :2267-2289 *) ([End; End; End; End; End; End; End; End; End; End; End; End; End; End; End; End; End; End; Rcv (PChoice 0 15) End], SRole 20 SEnd);
    (* P: EndpointP, :2290-2312 *) ([End; End; End; End; End; End; End; End; End; End; End; End; End; End; End; End; End; End; Rcv (PChoice 0 16) End], SRole 20 SEnd);
    (* Q: EndpointQ, :2313-2335 *) ([End; End; End; End; End; End; End; End; End; End; End; End; End; End; End; End; End; End; Rcv (PChoice 0 17) End], SRole 20 SEnd);
    (* R: EndpointR, :2336-2358 *) ([End; End; End; End; End; End; End; End; End; End; End; End; End; End; End; End; End; End; Rcv (PChoice 0 18) End], SRole 20 SEnd);
    (* S: EndpointS, :2359-2381 *) ([End; End; End; End; End; End; End; End; End; End; End; End; End; End; End; End; End; End; Rcv (PChoice 0 19) End], SRole 20 SEnd);
    (* T: EndpointT, :2382-2404 *) ([Snd (PChoice 0 1) End; Snd (PChoice 0 2) End; Snd (PChoice 0 3) End; Snd (PChoice 0 4) End; Snd (PChoice 0 5) End; Snd (PChoice 0 6) End; Snd (PChoice 0 7) End; Snd (PChoice 0 8) End; Snd (PChoice 0 9) End; Snd (PChoice 0 10) End; Snd (PChoice 0 11) End; Snd (PChoice 0 12) End; Snd (PChoice 0 13) End; Snd (PChoice 0 14) End; Snd (PChoice 0 15) End; Snd (PChoice 0 16) End; Snd (PChoice 0 17) End; Snd (PChoice 0 18) End; Snd (PChoice 0 19) End], SBroadcast)
  ]
  [[
    (* 0.0 More *) [
      (* A: :71-135 *) ([Rcv (PVal 0) (Snd (PVal 0) End); Rcv (PVal 0) (Snd (PVal 0) End); Rcv (PVal 0) (Snd (PVal 0) End); Rcv (PVal 0) (Snd (PVal 0) End); Rcv (PVal 0) (Snd (PVal 0) End); Rcv (PVal 0) (Snd (PVal 0) End); Rcv (PVal 0) (Snd (PVal 0) End); Rcv (PVal 0) (Snd (PVal 0) End); Rcv (PVal 0) (Snd (PVal 0) End); Rcv (PVal 0) (Snd (PVal 0) End); Rcv (PVal 0) (Snd (PVal 0) End); Rcv (PVal 0) (Snd (PVal 0) End); Rcv (PVal 0) (Snd (PVal 0) End); Rcv (PVal 0) (Snd (PVal 0) End); Rcv (PVal 0) (Snd (PVal 0) End); Rcv (PVal 0) (Snd (PVal 0) End); Rcv (PVal 0) (Snd (PVal 0) End); Rcv (PVal 0) (Snd (PVal 0) End); Rcv (PVal 0) (Snd (PVal 0) (Rcv (PChoice 0 1) End))], SRole 20 (SRole 20 (SRole 2 (SRole 2 (SRole 3 (SRole 3 (SRole 4 (SRole 4 (SRole 5 (SRole 5 (SRole 6 (SRole 6 (SRole 7 (SRole 7 (SRole 8 (SRole 8 (SRole 9 (SRole 9 (SRole 10 (SRole 10 (SRole 11 (SRole 11 (SRole 12 (SRole 12 (SRole 13 (SRole 13 (SRole 14 (SRole 14 (SRole 15 (SRole 15 (SRole 16 (SRole 16 (SRole 17 (SRole 17 (SRole 18 (SRole 18 (SRole 19 (SRole 19 (SRole 20 SEnd)))))))))))))))))))))))))))))))))))))));
      (* B: :166-230 *) ([Snd (PVal 0) (Rcv (PVal 0) End); Rcv (PVal 0) (Snd (PVal 0) End); Rcv (PVal 0) (Snd (PVal 0) End); Rcv (PVal 0) (Snd (PVal 0) End); Rcv (PVal 0) (Snd (PVal 0) End); Rcv (PVal 0) (Snd (PVal 0) End); Rcv (PVal 0) (Snd (PVal 0) End); Rcv (PVal 0) (Snd (PVal 0) End); Rcv (PVal 0) (Snd (PVal 0) End); Rcv (PVal 0) (Snd (PVal 0) End); Rcv (PVal 0) (Snd (PVal 0) End); Rcv (PVal 0) (Snd (PVal 0) End); Rcv (PVal 0) (Snd (PVal 0) End); Rcv (PVal 0) (Snd (PVal 0) End); Rcv (PVal 0) (Snd (PVal 0) End); Rcv (PVal 0) (Snd (PVal 0) End); Rcv (PVal 0) (Snd (PVal 0) End); Rcv (PVal 0) (Snd (PVal 0) End); Rcv (PVal 0) (Snd (PVal 0) (Rcv (PChoice 0 2) End))], SRole 20 (SRole 20 (SRole 1 (SRole 1 (SRole 3 (SRole 3 (SRole 4 (SRole 4 (SRole 5 (SRole 5 (SRole 6 (SRole 6 (SRole 7 (SRole 7 (SRole 8 (SRole 8 (SRole 9 (SRole 9 (SRole 10 (SRole 10 (SRole 11 (SRole 11 (SRole 12 (SRole 12 (SRole 13 (SRole 13 (SRole 14 (SRole 14 (SRole 15 (SRole 15 (SRole 16 (SRole 16 (SRole 17 (SRole 17 (SRole 18 (SRole 18 (SRole 19 (SRole 19 (SRole 20 SEnd)))))))))))))))))))))))))))))))))))))));
      (* C: :261-325 *) ([Snd (PVal 0) (Rcv (PVal 0) End); Snd (PVal 0) (Rcv (PVal 0) End); Rcv (PVal 0) (Snd (PVal 0) End); Rcv (PVal 0) (Snd (PVal 0) End); Rcv (PVal 0) (Snd (PVal 0) End); Rcv (PVal 0) (Snd (PVal 0) End); Rcv (PVal 0) (Snd (PVal 0) End); Rcv (PVal 0) (Snd (PVal 0) End); Rcv (PVal 0) (Snd (PVal 0) End); Rcv (PVal 0) (Snd (PVal 0) End); Rcv (PVal 0) (Snd (PVal 0) End); Rcv (PVal 0) (Snd (PVal 0) End); Rcv (PVal 0) (Snd (PVal 0) End); Rcv (PVal 0) (Snd (PVal 0) End); Rcv (PVal 0) (Snd (PVal 0) End); Rcv (PVal 0) (Snd (PVal 0) End); Rcv (PVal 0) (Snd (PVal 0) End); Rcv (PVal 0) (Snd (PVal 0) End); Rcv (PVal 0) (Snd (PVal 0) (Rcv (PChoice 0 3) End))], SRole 20 (SRole 20 (SRole 1 (SRole 1 (SRole 2 (SRole 2 (SRole 4 (SRole 4 (SRole 5 (SRole 5 (SRole 6 (SRole 6 (SRole 7 (SRole 7 (SRole 8 (SRole 8 (SRole 9 (SRole 9 (SRole 10 (SRole 10 (SRole 11 (SRole 11 (SRole 12 (SRole 12 (SRole 13 (SRole 13 (SRole 14 (SRole 14 (SRole 15 (SRole 15 (SRole 16 (SRole 16 (SRole 17 (SRole 17 (SRole 18 (SRole 18 (SRole 19 (SRole 19 (SRole 20 SEnd)))))))))))))))))))))))))))))))))))))));
      (* D: :356-420 *) ([Snd (PVal 0) (Rcv (PVal 0) End); Snd (PVal 0) (Rcv (PVal 0) End); Snd (PVal 0) (Rcv (PVal 0) End); Rcv (PVal 0) (Snd (PVal 0) End); Rcv (PVal 0) (Snd (PVal 0) End); Rcv (PVal 0) (Snd (PVal 0) End); Rcv (PVal 0) (Snd (PVal 0) End); Rcv (PVal 0) (Snd (PVal 0) End); Rcv (PVal 0) (Snd (PVal 0) End); Rcv (PVal 0) (Snd (PVal 0) End); Rcv (PVal 0) (Snd (PVal 0) End); Rcv (PVal 0) (Snd (PVal 0) End); Rcv (PVal 0) (Snd (PVal 0) End); Rcv (PVal 0) (Snd (PVal 0) End); Rcv (PVal 0) (Snd (PVal 0) End); Rcv (PVal 0) (Snd (PVal 0) End); Rcv (PVal 0) (Snd (PVal 0) End); Rcv (PVal 0) (Snd (PVal 0) End); Rcv (PVal 0) (Snd (PVal 0) (Rcv (PChoice 0 4) End))], SRole 20 (SRole 20 (SRole 1 (SRole 1 (SRole 2 (SRole 2 (SRole 3 (SRole 3 (SRole 5 (SRole 5 (SRole 6 (SRole 6 (SRole 7 (SRole 7 (SRole 8 (SRole 8 (SRole 9 (SRole 9 (SRole 10 (SRole 10 (SRole 11 (SRole 11 (SRole 12 (SRole 12 (SRole 13 (SRole 13 (SRole 14 (SRole 14 (SRole 15 (SRole 15 (SRole 16 (SRole 16 (SRole 17 (SRole 17 (SRole 18 (SRole 18 (SRole 19 (SRole 19 (SRole 20 SEnd)))))))))))))))))))))))))))))))))))))));
      (* E: :451-515 *) ([Snd (PVal 0) (Rcv (PVal 0) End); Snd (PVal 0) (Rcv (PVal 0) End); Snd (PVal 0) (Rcv (PVal 0) End); Snd (PVal 0) (Rcv (PVal 0) End); Rcv (PVal 0) (Snd (PVal 0) End); Rcv (PVal 0) (Snd (PVal 0) End); Rcv (PVal 0) (Snd (PVal 0) End); Rcv (PVal 0) (Snd (PVal 0) End); Rcv (PVal 0) (Snd (PVal 0) End); Rcv (PVal 0) (Snd (PVal 0) End); Rcv (PVal 0) (Snd (PVal 0) End); Rcv (PVal 0) (Snd (PVal 0) End); Rcv (PVal 0) (Snd (PVal 0) End); Rcv (PVal 0) (Snd (PVal 0) End); Rcv (PVal 0) (Snd (PVal 0) End); Rcv (PVal 0) (Snd (PVal 0) End); Rcv (PVal 0) (Snd (PVal 0) End); Rcv (PVal 0) (Snd (PVal 0) End); Rcv (PVal 0) (Snd (PVal 0) (Rcv (PChoice 0 5) End))], SRole 20 (SRole 20 (SRole 1 (SRole 1 (SRole 2 (SRole 2 (SRole 3 (SRole 3 (SRole 4 (SRole 4 (SRole 6 (SRole 6 (SRole 7 (SRole 7 (SRole 8 (SRole 8 (SRole 9 (SRole 9 (SRole 10 (SRole 10 (SRole 11 (SRole 11 (SRole 12 (SRole 12 (SRole 13 (SRole 13 (SRole 14 (SRole 14 (SRole 15 (SRole 15 (SRole 16 (SRole 16 (SRole 17 (SRole 17 (SRole 18 (SRole 18 (SRole 19 (SRole 19 (SRole 20 SEnd)))))))))))))))))))))))))))))))))))))));
      (* F: :546-610 *) ([Snd (PVal 0) (Rcv (PVal 0) End); Snd (PVal 0) (Rcv (PVal 0) End); Snd (PVal 0) (Rcv (PVal 0) End); Snd (PVal 0) (Rcv (PVal 0) End); Snd (PVal 0) (Rcv (PVal 0) End); Rcv (PVal 0) (Snd (PVal 0) End); Rcv (PVal 0) (Snd (PVal 0) End); Rcv (PVal 0) (Snd (PVal 0) End); Rcv (PVal 0) (Snd (PVal 0) End); Rcv (PVal 0) (Snd (PVal 0) End); Rcv (PVal 0) (Snd (PVal 0) End); Rcv (PVal 0) (Snd (PVal 0) End); Rcv (PVal 0) (Snd (PVal 0) End); Rcv (PVal 0) (Snd (PVal 0) End); Rcv (PVal 0) (Snd (PVal 0) End); Rcv (PVal 0) (Snd (PVal 0) End); Rcv (PVal 0) (Snd (PVal 0) End); Rcv (PVal 0) (Snd (PVal 0) End); Rcv (PVal 0) (Snd (PVal 0) (Rcv (PChoice 0 6) End))], SRole 20 (SRole 20 (SRole 1 (SRole 1 (SRole 2 (SRole 2 (SRole 3 (SRole 3 (SRole 4 (SRole 4 (SRole 5 (SRole 5 (SRole 7 (SRole 7 (SRole 8 (SRole 8 (SRole 9 (SRole 9 (SRole 10 (SRole 10 (SRole 11 (SRole 11 (SRole 12 (SRole 12 (SRole 13 (SRole 13 (SRole 14 (SRole 14 (SRole 15 (SRole 15 (SRole 16 (SRole 16 (SRole 17 (SRole 17 (SRole 18 (SRole 18 (SRole 19 (SRole 19 (SRole 20 SEnd)))))))))))))))))))))))))))))))))))))));
      (* G: :641-705 *) ([Snd (PVal 0) (Rcv (PVal 0) End); Snd (PVal 0) (Rcv (PVal 0) End); Snd (PVal 0) (Rcv (PVal 0) End); Snd (PVal 0) (Rcv (PVal 0) End); Snd (PVal 0) (Rcv (PVal 0) End); Snd (PVal 0) (Rcv (PVal 0) End); Rcv (PVal 0) (Snd (PVal 0) End); Rcv (PVal 0) (Snd (PVal 0) End); Rcv (PVal 0) (Snd (PVal 0) End); Rcv (PVal 0) (Snd (PVal 0) End); Rcv (PVal 0) (Snd (PVal 0) End); Rcv (PVal 0) (Snd (PVal 0) End); Rcv (PVal 0) (Snd (PVal 0) End); Rcv (PVal 0) (Snd (PVal 0) End); Rcv (PVal 0) (Snd (PVal 0) End); Rcv (PVal 0) (Snd (PVal 0) End); Rcv (PVal 0) (Snd (PVal 0) End); Rcv (PVal 0) (Snd (PVal 0) End); Rcv (PVal 0) (Snd (PVal 0) (Rcv (PChoice 0 7) End))], SRole 20 (SRole 20 (SRole 1 (SRole 1 (SRole 2 (SRole 2 (SRole 3 (SRole 3 (SRole 4 (SRole 4 (SRole 5 (SRole 5 (SRole 6 (SRole 6 (SRole 8 (SRole 8 (SRole 9 (SRole 9 (SRole 10 (SRole 10 (SRole 11 (SRole 11 (SRole 12 (SRole 12 (SRole 13 (SRole 13 (SRole 14 (SRole 14 (SRole 15 (SRole 15 (SRole 16 (SRole 16 (SRole 17 (SRole 17 (SRole 18 (SRole 18 (SRole 19 (SRole 19 (SRole 20 SEnd)))))))))))))))))))))))))))))))))))))));
      (* H: :736-800 *) ([Snd (PVal 0) (Rcv (PVal 0) End); Snd (PVal 0) (Rcv (PVal 0) End); Snd (PVal 0) (Rcv (PVal 0) End); Snd (PVal 0) (Rcv (PVal 0) End); Snd (PVal 0) (Rcv (PVal 0) End); Snd (PVal 0) (Rcv (PVal 0) End); Snd (PVal 0) (Rcv (PVal 0) End); Rcv (PVal 0) (Snd (PVal 0) End); Rcv (PVal 0) (Snd (PVal 0) End); Rcv (PVal 0) (Snd (PVal 0) End); Rcv (PVal 0) (Snd (PVal 0) End); Rcv (PVal 0) (Snd (PVal 0) End); Rcv (PVal 0) (Snd (PVal 0) End); Rcv (PVal 0) (Snd (PVal 0) End); Rcv (PVal 0) (Snd (PVal 0) End); Rcv (PVal 0) (Snd (PVal 0) End); Rcv (PVal 0) (Snd (PVal 0) End); Rcv (PVal 0) (Snd (PVal 0) End); Rcv (PVal 0) (Snd (PVal 0) (Rcv (PChoice 0 8) End))], SRole 20 (SRole 20 (SRole 1 (SRole 1 (SRole 2 (SRole 2 (SRole 3 (SRole 3 (SRole 4 (SRole 4 (SRole 5 (SRole 5 (SRole 6 (SRole 6 (SRole 7 (SRole 7 (SRole 9 (SRole 9 (SRole 10 (SRole 10 (SRole 11 (SRole 11 (SRole 12 (SRole 12 (SRole 13 (SRole 13 (SRole 14 (SRole 14 (SRole 15 (SRole 15 (SRole 16 (SRole 16 (SRole 17 (SRole 17 (SRole 18 (SRole 18 (SRole 19 (SRole 19 (SRole 20 SEnd)))))))))))))))))))))))))))))))))))))));
      (* I: :831-895 *) ([Snd (PVal 0) (Rcv (PVal 0) End); Snd (PVal 0) (Rcv (PVal 0) End); Snd (PVal 0) (Rcv (PVal 0) End); Snd (PVal 0) (Rcv (PVal 0) End); Snd (PVal 0) (Rcv (PVal 0) End); Snd (PVal 0) (Rcv (PVal 0) End); Snd (PVal 0) (Rcv (PVal 0) End); Snd (PVal 0) (Rcv (PVal 0) End); Rcv (PVal 0) (Snd (PVal 0) End); Rcv (PVal 0) (Snd (PVal 0) End); Rcv (PVal 0) (Snd (PVal 0) End); Rcv (PVal 0) (Snd (PVal 0) End); Rcv (PVal 0) (Snd (PVal 0) End); Rcv (PVal 0) (Snd (PVal 0) End); Rcv (PVal 0) (Snd (PVal 0) End); Rcv (PVal 0) (Snd (PVal 0) End); Rcv (PVal 0) (Snd (PVal 0) End); Rcv (PVal 0) (Snd (PVal 0) End); Rcv (PVal 0) (Snd (PVal 0) (Rcv (PChoice 0 9) End))], SRole 20 (SRole 20 (SRole 1 (SRole 1 (SRole 2 (SRole 2 (SRole 3 (SRole 3 (SRole 4 (SRole 4 (SRole 5 (SRole 5 (SRole 6 (SRole 6 (SRole 7 (SRole 7 (SRole 8 (SRole 8 (SRole 10 (SRole 10 (SRole 11 (SRole 11 (SRole 12 (SRole 12 (SRole 13 (SRole 13 (SRole 14 (SRole 14 (SRole 15 (SRole 15 (SRole 16 (SRole 16 (SRole 17 (SRole 17 (SRole 18 (SRole 18 (SRole 19 (SRole 19 (SRole 20 SEnd)))))))))))))))))))))))))))))))))))))));
      (* J: :926-990 *) ([Snd (PVal 0) (Rcv (PVal 0) End); Snd (PVal 0) (Rcv (PVal 0) End); Snd (PVal 0) (Rcv (PVal 0) End); Snd (PVal 0) (Rcv (PVal 0) End); Snd (PVal 0) (Rcv (PVal 0) End); Snd (PVal 0) (Rcv (PVal 0) End); Snd (PVal 0) (Rcv (PVal 0) End); Snd (PVal 0) (Rcv (PVal 0) End); Snd (PVal 0) (Rcv (PVal 0) End); Rcv (PVal 0) (Snd (PVal 0) End); Rcv (PVal 0) (Snd (PVal 0) End); Rcv (PVal 0) (Snd (PVal 0) End); Rcv (PVal 0) (Snd (PVal 0) End); Rcv (PVal 0) (Snd (PVal 0) End); Rcv (PVal 0) (Snd (PVal 0) End); Rcv (PVal 0) (Snd (PVal 0) End); Rcv (PVal 0) (Snd (PVal 0) End); Rcv (PVal 0) (Snd (PVal 0) End); Rcv (PVal 0) (Snd (PVal 0) (Rcv (PChoice 0 10) End))], SRole 20 (SRole 20 (SRole 1 (SRole 1 (SRole 2 (SRole 2 (SRole 3 (SRole 3 (SRole 4 (SRole 4 (SRole 5 (SRole 5 (SRole 6 (SRole 6 (SRole 7 (SRole 7 (SRole 8 (SRole 8 (SRole 9 (SRole 9 (SRole 11 (SRole 11 (SRole 12 (SRole 12 (SRole 13 (SRole 13 (SRole 14 (SRole 14 (SRole 15 (SRole 15 (SRole 16 (SRole 16 (SRole 17 (SRole 17 (SRole 18 (SRole 18 (SRole 19 (SRole 19 (SRole 20 SEnd)))))))))))))))))))))))))))))))))))))));
      (* K: :1021-1085 *) ([Snd (PVal 0) (Rcv (PVal 0) End); Snd (PVal 0) (Rcv (PVal 0) End); Snd (PVal 0) (Rcv (PVal 0) End); Snd (PVal 0) (Rcv (PVal 0) End); Snd (PVal 0) (Rcv (PVal 0) End); Snd (PVal 0) (Rcv (PVal 0) End); Snd (PVal 0) (Rcv (PVal 0) End); Snd (PVal 0) (Rcv (PVal 0) End); Snd (PVal 0) (Rcv (PVal 0) End); Snd (PVal 0) (Rcv (PVal 0) End); Rcv (PVal 0) (Snd (PVal 0) End); Rcv (PVal 0) (Snd (PVal 0) End); Rcv (PVal 0) (Snd (PVal 0) End); Rcv (PVal 0) (Snd (PVal 0) End); Rcv (PVal 0) (Snd (PVal 0) End); Rcv (PVal 0) (Snd (PVal 0) End); Rcv (PVal 0) (Snd (PVal 0) End); Rcv (PVal 0) (Snd (PVal 0) End); Rcv (PVal 0) (Snd (PVal 0) (Rcv (PChoice 0 11) End))], SRole 20 (SRole 20 (SRole 1 (SRole 1 (SRole 2 (SRole 2 (SRole 3 (SRole 3 (SRole 4 (SRole 4 (SRole 5 (SRole 5 (SRole 6 (SRole 6 (SRole 7 (SRole 7 (SRole 8 (SRole 8 (SRole 9 (SRole 9 (SRole 10 (SRole 10 (SRole 12 (SRole 12 (SRole 13 (SRole 13 (SRole 14 (SRole 14 (SRole 15 (SRole 15 (SRole 16 (SRole 16 (SRole 17 (SRole 17 (SRole 18 (SRole 18 (SRole 19 (SRole 19 (SRole 20 SEnd)))))))))))))))))))))))))))))))))))))));
      (* L: :1116-1180 *) ([Snd (PVal 0) (Rcv (PVal 0) End); Snd (PVal 0) (Rcv (PVal 0) End); Snd (PVal 0) (Rcv (PVal 0) End); Snd (PVal 0) (Rcv (PVal 0) End); Snd (PVal 0) (Rcv (PVal 0) End); Snd (PVal 0) (Rcv (PVal 0) End); Snd (PVal 0) (Rcv (PVal 0) End); Snd (PVal 0) (Rcv (PVal 0) End); Snd (PVal 0) (Rcv (PVal 0) End); Snd (PVal 0) (Rcv (PVal 0) End); Snd (PVal 0) (Rcv (PVal 0) End); Rcv (PVal 0) (Snd (PVal 0) End); Rcv (PVal 0) (Snd (PVal 0) End); Rcv (PVal 0) (Snd (PVal 0) End); Rcv (PVal 0) (Snd (PVal 0) End); Rcv (PVal 0) (Snd (PVal 0) End); Rcv (PVal 0) (Snd (PVal 0) End); Rcv (PVal 0) (Snd (PVal 0) End); Rcv (PVal 0) (Snd (PVal 0) (Rcv (PChoice 0 12) End))], SRole 20 (SRole 20 (SRole 1 (SRole 1 (SRole 2 (SRole 2 (SRole 3 (SRole 3 (SRole 4 (SRole 4 (SRole 5 (SRole 5 (SRole 6 (SRole 6 (SRole 7 (SRole 7 (SRole 8 (SRole 8 (SRole 9 (SRole 9 (SRole 10 (SRole 10 (SRole 11 (SRole 11 (SRole 13 (SRole 13 (SRole 14 (SRole 14 (SRole 15 (SRole 15 (SRole 16 (SRole 16 (SRole 17 (SRole 17 (SRole 18 (SRole 18 (SRole 19 (SRole 19 (SRole 20 SEnd)))))))))))))))))))))))))))))))))))))));
      (* M: :1211-1275 *) ([Snd (PVal 0) (Rcv (PVal 0) End); Snd (PVal 0) (Rcv (PVal 0) End); Snd (PVal 0) (Rcv (PVal 0) End); Snd (PVal 0) (Rcv (PVal 0) End); Snd (PVal 0) (Rcv (PVal 0) End); Snd (PVal 0) (Rcv (PVal 0) End); Snd (PVal 0) (Rcv (PVal 0) End); Snd (PVal 0) (Rcv (PVal 0) End); Snd (PVal 0) (Rcv (PVal 0) End); Snd (PVal 0) (Rcv (PVal 0) End); Snd (PVal 0) (Rcv (PVal 0) End); Snd (PVal 0) (Rcv (PVal 0) End); Rcv (PVal 0) (Snd (PVal 0) End); Rcv (PVal 0) (Snd (PVal 0) End); Rcv (PVal 0) (Snd (PVal 0) End); Rcv (PVal 0) (Snd (PVal 0) End); Rcv (PVal 0) (Snd (PVal 0) End); Rcv (PVal 0) (Snd (PVal 0) End); Rcv (PVal 0) (Snd (PVal 0) (Rcv (PChoice 0 13) End))], SRole 20 (SRole 20 (SRole 1 (SRole 1 (SRole 2 (SRole 2 (SRole 3 (SRole 3 (SRole 4 (SRole 4 (SRole 5 (SRole 5 (SRole 6 (SRole 6 (SRole 7 (SRole 7 (SRole 8 (SRole 8 (SRole 9 (SRole 9 (SRole 10 (SRole 10 (SRole 11 (SRole 11 (SRole 12 (SRole 12 (SRole 14 (SRole 14 (SRole 15 (SRole 15 (SRole 16 (SRole 16 (SRole 17 (SRole 17 (SRole 18 (SRole 18 (SRole 19 (SRole 19 (SRole 20 SEnd)))))))))))))))))))))))))))))))))))))));
      (* N: :1306-1370 *) ([Snd (PVal 0) (Rcv (PVal 0) End); Snd (PVal 0) (Rcv (PVal 0) End); Snd (PVal 0) (Rcv (PVal 0) End); Snd (PVal 0) (Rcv (PVal 0) End); Snd (PVal 0) (Rcv (PVal 0) End); Snd (PVal 0) (Rcv (PVal 0) End); Snd (PVal 0) (Rcv (PVal 0) End); Snd (PVal 0) (Rcv (PVal 0) End); Snd (PVal 0) (Rcv (PVal 0) End); Snd (PVal 0) (Rcv (PVal 0) End); Snd (PVal 0) (Rcv (PVal 0) End); Snd (PVal 0) (Rcv (PVal 0) End); Snd (PVal 0) (Rcv (PVal 0) End); Rcv (PVal 0) (Snd (PVal 0) End); Rcv (PVal 0) (Snd (PVal 0) End); Rcv (PVal 0) (Snd (PVal 0) End); Rcv (PVal 0) (Snd (PVal 0) End); Rcv (PVal 0) (Snd (PVal 0) End); Rcv (PVal 0) (Snd (PVal 0) (Rcv (PChoice 0 14) End))], SRole 20 (SRole 20 (SRole 1 (SRole 1 (SRole 2 (SRole 2 (SRole 3 (SRole 3 (SRole 4 (SRole 4 (SRole 5 (SRole 5 (SRole 6 (SRole 6 (SRole 7 (SRole 7 (SRole 8 (SRole 8 (SRole 9 (SRole 9 (SRole 10 (SRole 10 (SRole 11 (SRole 11 (SRole 12 (SRole 12 (SRole 13 (SRole 13 (SRole 15 (SRole 15 (SRole 16 (SRole 16 (SRole 17 (SRole 17 (SRole 18 (SRole 18 (SRole 19 (SRole 19 (SRole 20 SEnd)))))))))))))))))))))))))))))))))))))));
      (* O: :1401-1465 *) ([Snd (PVal 0) (Rcv (PVal 0) End); Snd (PVal 0) (Rcv (PVal 0) End); Snd (PVal 0) (Rcv (PVal 0) End); Snd (PVal 0) (Rcv (PVal 0) End); Snd (PVal 0) (Rcv (PVal 0) End); Snd (PVal 0) (Rcv (PVal 0) End); Snd (PVal 0) (Rcv (PVal 0) End); Snd (PVal 0) (Rcv (PVal 0) End); Snd (PVal 0) (Rcv (PVal 0) End); Snd (PVal 0) (Rcv (PVal 0) End); Snd (PVal 0) (Rcv (PVal 0) End); Snd (PVal 0) (Rcv (PVal 0) End); Snd (PVal 0) (Rcv (PVal 0) End); Snd (PVal 0) (Rcv (PVal 0) End); Rcv (PVal 0) (Snd (PVal 0) End); Rcv (PVal 0) (Snd (PVal 0) End); Rcv (PVal 0) (Snd (PVal 0) End); Rcv (PVal 0) (Snd (PVal 0) End); Rcv (PVal 0) (Snd (PVal 0) (Rcv (PChoice 0 15) End))], SRole 20 (SRole 20 (SRole 1 (SRole 1 (SRole 2 (SRole 2 (SRole 3 (SRole 3 (SRole 4 (SRole 4 (SRole 5 (SRole 5 (SRole 6 (SRole 6 (SRole 7 (SRole 7 (SRole 8 (SRole 8 (SRole 9 (SRole 9 (SRole 10 (SRole 10 (SRole 11 (SRole 11 (SRole 12 (SRole 12 (SRole 13 (SRole 13 (SRole 14 (SRole 14 (SRole 16 (SRole 16 (SRole 17 (SRole 17 (SRole 18 (SRole 18 (SRole 19 (SRole 19 (SRole 20 SEnd)))))))))))))))))))))))))))))))))))))));
      (* P: :1496-1560 *) ([Snd (PVal 0) (Rcv (PVal 0) End); Snd (PVal 0) (Rcv (PVal 0) End); Snd (PVal 0) (Rcv (PVal 0) End); Snd (PVal 0) (Rcv (PVal 0) End); Snd (PVal 0) (Rcv (PVal 0) End); Snd (PVal 0) (Rcv (PVal 0) End); Snd (PVal 0) (Rcv (PVal 0) End); Snd (PVal 0) (Rcv (PVal 0) End); Snd (PVal 0) (Rcv (PVal 0) End); Snd (PVal 0) (Rcv (PVal 0) End); Snd (PVal 0) (Rcv (PVal 0) End); Snd (PVal 0) (Rcv (PVal 0) End); Snd (PVal 0) (Rcv (PVal 0) End); Snd (PVal 0) (Rcv (PVal 0) End); Snd (PVal 0) (Rcv (PVal 0) End); Rcv (PVal 0) (Snd (PVal 0) End); Rcv (PVal 0) (Snd (PVal 0) End); Rcv (PVal 0) (Snd (PVal 0) End); Rcv (PVal 0) (Snd (PVal 0) (Rcv (PChoice 0 16) End))], SRole 20 (SRole 20 (SRole 1 (SRole 1 (SRole 2 (SRole 2 (SRole 3 (SRole 3 (SRole 4 (SRole 4 (SRole 5 (SRole 5 (SRole 6 (SRole 6 (SRole 7 (SRole 7 (SRole 8 (SRole 8 (SRole 9 (SRole 9 (SRole 10 (SRole 10 (SRole 11 (SRole 11 (SRole 12 (SRole 12 (SRole 13 (SRole 13 (SRole 14 (SRole 14 (SRole 15 (SRole 15 (SRole 17 (SRole 17 (SRole 18 (SRole 18 (SRole 19 (SRole 19 (SRole 20 SEnd)))))))))))))))))))))))))))))))))))))));
      (* Q: :1591-1655 *) ([Snd (PVal 0) (Rcv (PVal 0) End); Snd (PVal 0) (Rcv (PVal 0) End); Snd (PVal 0) (Rcv (PVal 0) End); Snd (PVal 0) (Rcv (PVal 0) End); Snd (PVal 0) (Rcv (PVal 0) End); Snd (PVal 0) (Rcv (PVal 0) End); Snd (PVal 0) (Rcv (PVal 0) End); Snd (PVal 0) (Rcv (PVal 0) End); Snd (PVal 0) (Rcv (PVal 0) End); Snd (PVal 0) (Rcv (PVal 0) End); Snd (PVal 0) (Rcv (PVal 0) End); Snd (PVal 0) (Rcv (PVal 0) End); Snd (PVal 0) (Rcv (PVal 0) End); Snd (PVal 0) (Rcv (PVal 0) End); Snd (PVal 0) (Rcv (PVal 0) End); Snd (PVal 0) (Rcv (PVal 0) End); Rcv (PVal 0) (Snd (PVal 0) End); Rcv (PVal 0) (Snd (PVal 0) End); Rcv (PVal 0) (Snd (PVal 0) (Rcv (PChoice 0 17) End))], SRole 20 (SRole 20 (SRole 1 (SRole 1 (SRole 2 (SRole 2 (SRole 3 (SRole 3 (SRole 4 (SRole 4 (SRole 5 (SRole 5 (SRole 6 (SRole 6 (SRole 7 (SRole 7 (SRole 8 (SRole 8 (SRole 9 (SRole 9 (SRole 10 (SRole 10 (SRole 11 (SRole 11 (SRole 12 (SRole 12 (SRole 13 (SRole 13 (SRole 14 (SRole 14 (SRole 15 (SRole 15 (SRole 16 (SRole 16 (SRole 18 (SRole 18 (SRole 19 (SRole 19 (SRole 20 SEnd)))))))))))))))))))))))))))))))))))))));
      (* R: :1686-1750 *) ([Snd (PVal 0) (Rcv (PVal 0) End); Snd (PVal 0) (Rcv (PVal 0) End); Snd (PVal 0) (Rcv (PVal 0) End); Snd (PVal 0) (Rcv (PVal 0) End); Snd (PVal 0) (Rcv (PVal 0) End); Snd (PVal 0) (Rcv (PVal 0) End); Snd (PVal 0) (Rcv (PVal 0) End); Snd (PVal 0) (Rcv (PVal 0) End); Snd (PVal 0) (Rcv (PVal 0) End); Snd (PVal 0) (Rcv (PVal 0) End); Snd (PVal 0) (Rcv (PVal 0) End); Snd (PVal 0) (Rcv (PVal 0) End); Snd (PVal 0) (Rcv (PVal 0) End); Snd (PVal 0) (Rcv (PVal 0) End); Snd (PVal 0) (Rcv (PVal 0) End); Snd (PVal 0) (Rcv (PVal 0) End); Snd (PVal 0) (Rcv (PVal 0) End); Rcv (PVal 0) (Snd (PVal 0) End); Rcv (PVal 0) (Snd (PVal 0) (Rcv (PChoice 0 18) End))], SRole 20 (SRole 20 (SRole 1 (SRole 1 (SRole 2 (SRole 2 (SRole 3 (SRole 3 (SRole 4 (SRole 4 (SRole 5 (SRole 5 (SRole 6 (SRole 6 (SRole 7 (SRole 7 (SRole 8 (SRole 8 (SRole 9 (SRole 9 (SRole 10 (SRole 10 (SRole 11 (SRole 11 (SRole 12 (SRole 12 (SRole 13 (SRole 13 (SRole 14 (SRole 14 (SRole 15 (SRole 15 (SRole 16 (SRole 16 (SRole 17 (SRole 17 (SRole 19 (SRole 19 (SRole 20 SEnd)))))))))))))))))))))))))))))))))))))));
      (* S: :1781-1845 *) ([Snd (PVal 0) (Rcv (PVal 0) End); Snd (PVal 0) (Rcv (PVal 0) End); Snd (PVal 0) (Rcv (PVal 0) End); Snd (PVal 0) (Rcv (PVal 0) End); Snd (PVal 0) (Rcv (PVal 0) End); Snd (PVal 0) (Rcv (PVal 0) End); Snd (PVal 0) (Rcv (PVal 0) End); Snd (PVal 0) (Rcv (PVal 0) End); Snd (PVal 0) (Rcv (PVal 0) End); Snd (PVal 0) (Rcv (PVal 0) End); Snd (PVal 0) (Rcv (PVal 0) End); Snd (PVal 0) (Rcv (PVal 0) End); Snd (PVal 0) (Rcv (PVal 0) End); Snd (PVal 0) (Rcv (PVal 0) End); Snd (PVal 0) (Rcv (PVal 0) End); Snd (PVal 0) (Rcv (PVal 0) End); Snd (PVal 0) (Rcv (PVal 0) End); Snd (PVal 0) (Rcv (PVal 0) End); Rcv (PVal 0) (Snd (PVal 0) (Rcv (PChoice 0 19) End))], SRole 20 (SRole 20 (SRole 1 (SRole 1 (SRole 2 (SRole 2 (SRole 3 (SRole 3 (SRole 4 (SRole 4 (SRole 5 (SRole 5 (SRole 6 (SRole 6 (SRole 7 (SRole 7 (SRole 8 (SRole 8 (SRole 9 (SRole 9 (SRole 10 (SRole 10 (SRole 11 (SRole 11 (SRole 12 (SRole 12 (SRole 13 (SRole 13 (SRole 14 (SRole 14 (SRole 15 (SRole 15 (SRole 16 (SRole 16 (SRole 17 (SRole 17 (SRole 18 (SRole 18 (SRole 20 SEnd)))))))))))))))))))))))))))))))))))))));
      (* T: EndpointMoreT, :1894-1942 *) ([Snd (PVal 0) (Rcv (PVal 0) (Snd (PChoice 0 1) End)); Snd (PVal 0) (Rcv (PVal 0) (Snd (PChoice 0 2) End)); Snd (PVal 0) (Rcv (PVal 0) (Snd (PChoice 0 3) End)); Snd (PVal 0) (Rcv (PVal 0) (Snd (PChoice 0 4) End)); Snd (PVal 0) (Rcv (PVal 0) (Snd (PChoice 0 5) End)); Snd (PVal 0) (Rcv (PVal 0) (Snd (PChoice 0 6) End)); Snd (PVal 0) (Rcv (PVal 0) (Snd (PChoice 0 7) End)); Snd (PVal 0) (Rcv (PVal 0) (Snd (PChoice 0 8) End)); Snd (PVal 0) (Rcv (PVal 0) (Snd (PChoice 0 9) End)); Snd (PVal 0) (Rcv (PVal 0) (Snd (PChoice 0 10) End)); Snd (PVal 0) (Rcv (PVal 0) (Snd (PChoice 0 11) End)); Snd (PVal 0) (Rcv (PVal 0) (Snd (PChoice 0 12) End)); Snd (PVal 0) (Rcv (PVal 0) (Snd (PChoice 0 13) End)); Snd (PVal 0) (Rcv (PVal 0) (Snd (PChoice 0 14) End)); Snd (PVal 0) (Rcv (PVal 0) (Snd (PChoice 0 15) End)); Snd (PVal 0) (Rcv (PVal 0) (Snd (PChoice 0 16) End)); Snd (PVal 0) (Rcv (PVal 0) (Snd (PChoice 0 17) End)); Snd (PVal 0) (Rcv (PVal 0) (Snd (PChoice 0 18) End)); Snd (PVal 0) (Rcv (PVal 0) (Snd (PChoice 0 19) End))], SRole 1 (SRole 1 (SRole 2 (SRole 2 (SRole 3 (SRole 3 (SRole 4 (SRole 4 (SRole 5 (SRole 5 (SRole 6 (SRole 6 (SRole 7 (SRole 7 (SRole 8 (SRole 8 (SRole 9 (SRole 9 (SRole 10 (SRole 10 (SRole 11 (SRole 11 (SRole 12 (SRole 12 (SRole 13 (SRole 13 (SRole 14 (SRole 14 (SRole 15 (SRole 15 (SRole 16 (SRole 16 (SRole 17 (SRole 17 (SRole 18 (SRole 18 (SRole 19 (SRole 19 SBroadcast))))))))))))))))))))))))))))))))))))))];
    (* 0.1 Done *) [
      (* A: :136-160 *) ([End; End; End; End; End; End; End; End; End; End; End; End; End; End; End; End; End; End; End], SEnd);
      (* B: :231-255 *) ([End; End; End; End; End; End; End; End; End; End; End; End; End; End; End; End; End; End; End], SEnd);
      (* C: :326-350 *) ([End; End; End; End; End; End; End; End; End; End; End; End; End; End; End; End; End; End; End], SEnd);
      (* D: :421-445 *) ([End; End; End; End; End; End; End; End; End; End; End; End; End; End; End; End; End; End; End], SEnd);
      (* E: :516-540 *) ([End; End; End; End; End; End; End; End; End; End; End; End; End; End; End; End; End; End; End], SEnd);
      (* F: :611-635 *) ([End; End; End; End; End; End; End; End; End; End; End; End; End; End; End; End; End; End; End], SEnd);
      (* G: :706-730 *) ([End; End; End; End; End; End; End; End; End; End; End; End; End; End; End; End; End; End; End], SEnd);
      (* H: :801-825 *) ([End; End; End; End; End; End; End; End; End; End; End; End; End; End; End; End; End; End; End], SEnd);
      (* I: :896-920 *) ([End; End; End; End; End; End; End; End; End; End; End; End; End; End; End; End; End; End; End], SEnd);
      (* J: :991-1015 *) ([End; End; End; End; End; End; End; End; End; End; End; End; End; End; End; End; End; End; End], SEnd);
      (* K: :1086-1110 *) ([End; End; End; End; End; End; End; End; End; End; End; End; End; End; End; End; End; End; End], SEnd);
      (* L: :1181-1205 *) ([End; End; End; End; End; End; End; End; End; End; End; End; End; End; End; End; End; End; End], SEnd);
      (* M: :1276-1300 *) ([End; End; End; End; End; End; End; End; End; End; End; End; End; End; End; End; End; End; End], SEnd);
      (* N: :1371-1395 *) ([End; End; End; End; End; End; End; End; End; End; End; End; End; End; End; End; End; End; End], SEnd);
      (* O: :1466-1490 *) ([End; End; End; End; End; End; End; End; End; End; End; End; End; End; End; End; End; End; End], SEnd);
      (* P: :1561-1585 *) ([End; End; End; End; End; End; End; End; End; End; End; End; End; End; End; End; End; End; End], SEnd);
      (* Q: :1656-1680 *) ([End; End; End; End; End; End; End; End; End; End; End; End; End; End; End; End; End; End; End], SEnd);
      (* R: :1751-1775 *) ([End; End; End; End; End; End; End; End; End; End; End; End; End; End; End; End; End; End; End], SEnd);
      (* S: :1846-1870 *) ([End; End; End; End; End; End; End; End; End; End; End; End; End; End; End; End; End; End; End], SEnd);
      (* T: as used after :3344-3365 *) ([End; End; End; End; End; End; End; End; End; End; End; End; End; End; End; End; End; End; End], SEnd)]
  ]].

(** All of them: examples/mesh. *)
Definition meshes : list proto :=
  [mesh_two; mesh_three; mesh_four; mesh_five; mesh_six; mesh_seven; mesh_eight; mesh_nine; mesh_ten; mesh_eleven;
   mesh_twenty].
