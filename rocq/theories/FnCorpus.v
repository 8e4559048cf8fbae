(** The send and receive functions that the programs of the repository declare with the macros of FnForms.v: 169 files,
    12265 functions. Roles are in the order in which the fork macro of the file takes its functions (a role that declares
    none is called Role{i}; the broadcaster of the cancelling programs comes first); a declaration names the peer by its
    position, and has the index written in the file. *)
From Coq Require Import List String.
Import ListNotations.
Open Scope string_scope.

(** create_send_mpst_session(_bundle)!, create_send_mpst_cancel(_bundle)!, create_send_check_cancel(_bundle)!,
    create_recv_mpst_session(_bundle)! (src/macros_multiple/send.rs:43-61, 99-117, 169-187, 234-247, 294-307, 377-390,
    recv.rs:43-61, 109-122; src/macros_simple/send.rs:36-47, 77-88, recv.rs:34-45, 76-87). *)
Inductive kind := KSend | KCancel | KCheck | KRecv.

(** A bundle: kind, role of the functions, then peer and index of each (src/macros_multiple/send.rs:234-247). *)
Definition bundle : Type := (kind * nat * list (nat * nat))%type.
(** A program: its roles and its bundles (the files are named above each program). *)
Record program := Program { p_roles : list string; p_bundles : list bundle }.

(** benches/examples/basic/calculator.rs:31-59. *)
Definition fns_00 : program := Program ["A"; "C"; "S"]
  [(KSend, 2, [(3, 2)]);
   (KSend, 3, [(2, 2)]);
   (KRecv, 1, [(2, 1)]);
   (KRecv, 2, [(3, 2)]);
   (KRecv, 3, [(2, 2)])].
(** benches/examples/basic/circuit_breaker.rs:40-82,
    examples/basic/circuit_breaker.rs:32-74. *)
Definition fns_01 : program := Program ["Api"; "Controller"; "Storage"; "User"]
  [(KCancel, 1, [(2, 1); (3, 2); (4, 3)]);
   (KCancel, 2, [(1, 1); (3, 2)]);
   (KCancel, 3, [(1, 1); (2, 2)]);
   (KCancel, 4, [(1, 1)]);
   (KRecv, 1, [(2, 1); (3, 2); (4, 3)]);
   (KRecv, 2, [(1, 1); (3, 2)]);
   (KRecv, 3, [(1, 1); (2, 2)]);
   (KRecv, 4, [(1, 1); (2, 2)])].
(** benches/examples/basic/dns_imai.rs:36-72. *)
Definition fns_02 : program := Program ["Client"; "Other"; "Server"]
  [(KSend, 1, [(3, 2)]);
   (KSend, 2, [(3, 2)]);
   (KSend, 3, [(1, 1); (2, 2)]);
   (KRecv, 1, [(3, 2)]);
   (KRecv, 2, [(3, 2)]);
   (KRecv, 3, [(1, 1); (2, 2)])].
(** benches/examples/basic/fib_mpst.rs:39-61,
    benches/mesh/empty/mpst/mesh_two.rs:32-54,
    benches/mesh/normal/mpst/mesh_two.rs:32-54,
    benches/ping_pong_save/ping_pong_mpst_1.rs:29-51,
    benches/ring/empty/mpst/ring_two.rs:32-54,
    benches/ring/normal/mpst/ring_two.rs:32-54,
    examples/ping_pong_save/ping_pong_mpst_1.rs:27-49. *)
Definition fns_03 : program := Program ["A"; "B"]
  [(KSend, 1, [(2, 1)]);
   (KSend, 2, [(1, 1)]);
   (KRecv, 1, [(2, 1)]);
   (KRecv, 2, [(1, 1)])].
(** benches/examples/basic/logging.rs:30-63,
    examples/basic/logging.rs:30-63. *)
Definition fns_04 : program := Program ["Controller"; "Logs"]
  [(KCancel, 1, [(2, 1)]);
   (KCancel, 2, [(1, 1)]);
   (KRecv, 1, [(2, 1)]);
   (KRecv, 2, [(1, 1)])].
(** benches/examples/basic/online_wallet.rs:40-78,
    benches/examples/basic/travel_agency.rs:37-75. *)
Definition fns_05 : program := Program ["A"; "C"; "S"]
  [(KSend, 1, [(2, 1); (3, 2)]);
   (KSend, 2, [(1, 1); (3, 2)]);
   (KSend, 3, [(2, 2)]);
   (KRecv, 1, [(2, 1)]);
   (KRecv, 2, [(1, 1); (3, 2)]);
   (KRecv, 3, [(1, 1); (2, 2)])].
(** benches/examples/basic/simple_voting.rs:31-53. *)
Definition fns_06 : program := Program ["Server"; "Voter"]
  [(KSend, 1, [(2, 1)]);
   (KSend, 2, [(1, 1)]);
   (KRecv, 1, [(2, 1)]);
   (KRecv, 2, [(1, 1)])].
(** benches/examples/basic/smtp.rs:34-56. *)
Definition fns_07 : program := Program ["C"; "S"]
  [(KSend, 1, [(2, 1)]);
   (KSend, 2, [(1, 1)]);
   (KRecv, 1, [(2, 1)]);
   (KRecv, 2, [(1, 1)])].
(** benches/examples/basic/three_buyers.rs:37-77. *)
Definition fns_08 : program := Program ["A"; "C"; "S"]
  [(KSend, 1, [(2, 1); (3, 2)]);
   (KSend, 2, [(1, 1); (3, 2)]);
   (KSend, 3, [(1, 1); (2, 2)]);
   (KRecv, 1, [(2, 1); (3, 2)]);
   (KRecv, 2, [(1, 1); (3, 2)]);
   (KRecv, 3, [(1, 1); (2, 2)])].
(** benches/mesh/cancel/mesh_eight.rs:32-222,
    examples/mesh/mesh_eight_cancel.rs:26-216. *)
Definition fns_09 : program := Program ["A"; "B"; "C"; "D"; "E"; "F"; "G"; "H"]
  [(KCancel, 1, [(2, 1); (3, 2); (4, 3); (5, 4); (6, 5); (7, 6); (8, 7)]);
   (KCancel, 2, [(1, 1); (3, 2); (4, 3); (5, 4); (6, 5); (7, 6); (8, 7)]);
   (KCancel, 3, [(1, 1); (2, 2); (4, 3); (5, 4); (6, 5); (7, 6); (8, 7)]);
   (KCancel, 4, [(1, 1); (2, 2); (3, 3); (5, 4); (6, 5); (7, 6); (8, 7)]);
   (KCancel, 5, [(1, 1); (2, 2); (3, 3); (4, 4); (6, 5); (7, 6); (8, 7)]);
   (KCancel, 6, [(1, 1); (2, 2); (3, 3); (4, 4); (5, 5); (7, 6); (8, 7)]);
   (KCancel, 7, [(1, 1); (2, 2); (3, 3); (4, 4); (5, 5); (6, 6); (8, 7)]);
   (KCancel, 8, [(1, 1); (2, 2); (3, 3); (4, 4); (5, 5); (6, 6); (7, 7)]);
   (KRecv, 1, [(2, 1); (3, 2); (4, 3); (5, 4); (6, 5); (7, 6); (8, 7)]);
   (KRecv, 2, [(1, 1); (3, 2); (4, 3); (5, 4); (6, 5); (7, 6); (8, 7)]);
   (KRecv, 3, [(1, 1); (2, 2); (4, 3); (5, 4); (6, 5); (7, 6); (8, 7)]);
   (KRecv, 4, [(1, 1); (2, 2); (3, 3); (5, 4); (6, 5); (7, 6); (8, 7)]);
   (KRecv, 5, [(1, 1); (2, 2); (3, 3); (4, 4); (6, 5); (7, 6); (8, 7)]);
   (KRecv, 6, [(1, 1); (2, 2); (3, 3); (4, 4); (5, 5); (7, 6); (8, 7)]);
   (KRecv, 7, [(1, 1); (2, 2); (3, 3); (4, 4); (5, 5); (6, 6); (8, 7)]);
   (KRecv, 8, [(1, 1); (2, 2); (3, 3); (4, 4); (5, 5); (6, 6); (7, 7)])].
(** benches/mesh/cancel/mesh_eleven.rs:32-360,
    examples/mesh/mesh_eleven_cancel.rs:26-354. *)
Definition fns_10 : program := Program ["A"; "B"; "C"; "D"; "E"; "F"; "G"; "H"; "I"; "J"; "K"]
  [(KCancel, 1, [(2, 1); (3, 2); (4, 3); (5, 4); (6, 5); (7, 6); (8, 7); (9, 8); (10, 9); (11, 10)]);
   (KCancel, 2, [(1, 1); (3, 2); (4, 3); (5, 4); (6, 5); (7, 6); (8, 7); (9, 8); (10, 9); (11, 10)]);
   (KCancel, 3, [(1, 1); (2, 2); (4, 3); (5, 4); (6, 5); (7, 6); (8, 7); (9, 8); (10, 9); (11, 10)]);
   (KCancel, 4, [(1, 1); (2, 2); (3, 3); (5, 4); (6, 5); (7, 6); (8, 7); (9, 8); (10, 9); (11, 10)]);
   (KCancel, 5, [(1, 1); (2, 2); (3, 3); (4, 4); (6, 5); (7, 6); (8, 7); (9, 8); (10, 9); (11, 10)]);
   (KCancel, 6, [(1, 1); (2, 2); (3, 3); (4, 4); (5, 5); (7, 6); (8, 7); (9, 8); (10, 9); (11, 10)]);
   (KCancel, 7, [(1, 1); (2, 2); (3, 3); (4, 4); (5, 5); (6, 6); (8, 7); (9, 8); (10, 9); (11, 10)]);
   (KCancel, 8, [(1, 1); (2, 2); (3, 3); (4, 4); (5, 5); (6, 6); (7, 7); (9, 8); (10, 9); (11, 10)]);
   (KCancel, 9, [(1, 1); (2, 2); (3, 3); (4, 4); (5, 5); (6, 6); (7, 7); (8, 8); (10, 9); (11, 10)]);
   (KCancel, 10, [(1, 1); (2, 2); (3, 3); (4, 4); (5, 5); (6, 6); (7, 7); (8, 8); (9, 9); (11, 10)]);
   (KCancel, 11, [(1, 1); (2, 2); (3, 3); (4, 4); (5, 5); (6, 6); (7, 7); (8, 8); (9, 9); (10, 10)]);
   (KRecv, 1, [(2, 1); (3, 2); (4, 3); (5, 4); (6, 5); (7, 6); (8, 7); (9, 8); (10, 9); (11, 10)]);
   (KRecv, 2, [(1, 1); (3, 2); (4, 3); (5, 4); (6, 5); (7, 6); (8, 7); (9, 8); (10, 9); (11, 10)]);
   (KRecv, 3, [(1, 1); (2, 2); (4, 3); (5, 4); (6, 5); (7, 6); (8, 7); (9, 8); (10, 9); (11, 10)]);
   (KRecv, 4, [(1, 1); (2, 2); (3, 3); (5, 4); (6, 5); (7, 6); (8, 7); (9, 8); (10, 9); (11, 10)]);
   (KRecv, 5, [(1, 1); (2, 2); (3, 3); (4, 4); (6, 5); (7, 6); (8, 7); (9, 8); (10, 9); (11, 10)]);
   (KRecv, 6, [(1, 1); (2, 2); (3, 3); (4, 4); (5, 5); (7, 6); (8, 7); (9, 8); (10, 9); (11, 10)]);
   (KRecv, 7, [(1, 1); (2, 2); (3, 3); (4, 4); (5, 5); (6, 6); (8, 7); (9, 8); (10, 9); (11, 10)]);
   (KRecv, 8, [(1, 1); (2, 2); (3, 3); (4, 4); (5, 5); (6, 6); (7, 7); (9, 8); (10, 9); (11, 10)]);
   (KRecv, 9, [(1, 1); (2, 2); (3, 3); (4, 4); (5, 5); (6, 6); (7, 7); (8, 8); (10, 9); (11, 10)]);
   (KRecv, 10, [(1, 1); (2, 2); (3, 3); (4, 4); (5, 5); (6, 6); (7, 7); (8, 8); (9, 9); (11, 10)]);
   (KRecv, 11, [(1, 1); (2, 2); (3, 3); (4, 4); (5, 5); (6, 6); (7, 7); (8, 8); (9, 9); (10, 10)])].
(** benches/mesh/cancel/mesh_five.rs:32-120,
    examples/mesh/mesh_five_cancel.rs:26-114. *)
Definition fns_11 : program := Program ["A"; "B"; "C"; "D"; "E"]
  [(KCancel, 1, [(2, 1); (3, 2); (4, 3); (5, 4)]);
   (KCancel, 2, [(1, 1); (3, 2); (4, 3); (5, 4)]);
   (KCancel, 3, [(1, 1); (2, 2); (4, 3); (5, 4)]);
   (KCancel, 4, [(1, 1); (2, 2); (3, 3); (5, 4)]);
   (KCancel, 5, [(1, 1); (2, 2); (3, 3); (4, 4)]);
   (KRecv, 1, [(2, 1); (3, 2); (4, 3); (5, 4)]);
   (KRecv, 2, [(1, 1); (3, 2); (4, 3); (5, 4)]);
   (KRecv, 3, [(1, 1); (2, 2); (4, 3); (5, 4)]);
   (KRecv, 4, [(1, 1); (2, 2); (3, 3); (5, 4)]);
   (KRecv, 5, [(1, 1); (2, 2); (3, 3); (4, 4)])].
(** benches/mesh/cancel/mesh_four.rs:32-94,
    examples/mesh/mesh_four_cancel.rs:26-88. *)
Definition fns_12 : program := Program ["A"; "B"; "C"; "D"]
  [(KCancel, 1, [(2, 1); (3, 2); (4, 3)]);
   (KCancel, 2, [(1, 1); (3, 2); (4, 3)]);
   (KCancel, 3, [(1, 1); (2, 2); (4, 3)]);
   (KCancel, 4, [(1, 1); (2, 2); (3, 3)]);
   (KRecv, 1, [(2, 1); (3, 2); (4, 3)]);
   (KRecv, 2, [(1, 1); (3, 2); (4, 3)]);
   (KRecv, 3, [(1, 1); (2, 2); (4, 3)]);
   (KRecv, 4, [(1, 1); (2, 2); (3, 3)])].
(** benches/mesh/cancel/mesh_nine.rs:32-264,
    examples/mesh/mesh_nine_cancel.rs:26-258. *)
Definition fns_13 : program := Program ["A"; "B"; "C"; "D"; "E"; "F"; "G"; "H"; "I"]
  [(KCancel, 1, [(2, 1); (3, 2); (4, 3); (5, 4); (6, 5); (7, 6); (8, 7); (9, 8)]);
   (KCancel, 2, [(1, 1); (3, 2); (4, 3); (5, 4); (6, 5); (7, 6); (8, 7); (9, 8)]);
   (KCancel, 3, [(1, 1); (2, 2); (4, 3); (5, 4); (6, 5); (7, 6); (8, 7); (9, 8)]);
   (KCancel, 4, [(1, 1); (2, 2); (3, 3); (5, 4); (6, 5); (7, 6); (8, 7); (9, 8)]);
   (KCancel, 5, [(1, 1); (2, 2); (3, 3); (4, 4); (6, 5); (7, 6); (8, 7); (9, 8)]);
   (KCancel, 6, [(1, 1); (2, 2); (3, 3); (4, 4); (5, 5); (7, 6); (8, 7); (9, 8)]);
   (KCancel, 7, [(1, 1); (2, 2); (3, 3); (4, 4); (5, 5); (6, 6); (8, 7); (9, 8)]);
   (KCancel, 8, [(1, 1); (2, 2); (3, 3); (4, 4); (5, 5); (6, 6); (7, 7); (9, 8)]);
   (KCancel, 9, [(1, 1); (2, 2); (3, 3); (4, 4); (5, 5); (6, 6); (7, 7); (8, 8)]);
   (KRecv, 1, [(2, 1); (3, 2); (4, 3); (5, 4); (6, 5); (7, 6); (8, 7); (9, 8)]);
   (KRecv, 2, [(1, 1); (3, 2); (4, 3); (5, 4); (6, 5); (7, 6); (8, 7); (9, 8)]);
   (KRecv, 3, [(1, 1); (2, 2); (4, 3); (5, 4); (6, 5); (7, 6); (8, 7); (9, 8)]);
   (KRecv, 4, [(1, 1); (2, 2); (3, 3); (5, 4); (6, 5); (7, 6); (8, 7); (9, 8)]);
   (KRecv, 5, [(1, 1); (2, 2); (3, 3); (4, 4); (6, 5); (7, 6); (8, 7); (9, 8)]);
   (KRecv, 6, [(1, 1); (2, 2); (3, 3); (4, 4); (5, 5); (7, 6); (8, 7); (9, 8)]);
   (KRecv, 7, [(1, 1); (2, 2); (3, 3); (4, 4); (5, 5); (6, 6); (8, 7); (9, 8)]);
   (KRecv, 8, [(1, 1); (2, 2); (3, 3); (4, 4); (5, 5); (6, 6); (7, 7); (9, 8)]);
   (KRecv, 9, [(1, 1); (2, 2); (3, 3); (4, 4); (5, 5); (6, 6); (7, 7); (8, 8)])].
(** benches/mesh/cancel/mesh_seven.rs:32-184,
    examples/mesh/mesh_seven_cancel.rs:26-178. *)
Definition fns_14 : program := Program ["A"; "B"; "C"; "D"; "E"; "F"; "G"]
  [(KCancel, 1, [(2, 1); (3, 2); (4, 3); (5, 4); (6, 5); (7, 6)]);
   (KCancel, 2, [(1, 1); (3, 2); (4, 3); (5, 4); (6, 5); (7, 6)]);
   (KCancel, 3, [(1, 1); (2, 2); (4, 3); (5, 4); (6, 5); (7, 6)]);
   (KCancel, 4, [(1, 1); (2, 2); (3, 3); (5, 4); (6, 5); (7, 6)]);
   (KCancel, 5, [(1, 1); (2, 2); (3, 3); (4, 4); (6, 5); (7, 6)]);
   (KCancel, 6, [(1, 1); (2, 2); (3, 3); (4, 4); (5, 5); (7, 6)]);
   (KCancel, 7, [(1, 1); (2, 2); (3, 3); (4, 4); (5, 5); (6, 6)]);
   (KRecv, 1, [(2, 1); (3, 2); (4, 3); (5, 4); (6, 5); (7, 6)]);
   (KRecv, 2, [(1, 1); (3, 2); (4, 3); (5, 4); (6, 5); (7, 6)]);
   (KRecv, 3, [(1, 1); (2, 2); (4, 3); (5, 4); (6, 5); (7, 6)]);
   (KRecv, 4, [(1, 1); (2, 2); (3, 3); (5, 4); (6, 5); (7, 6)]);
   (KRecv, 5, [(1, 1); (2, 2); (3, 3); (4, 4); (6, 5); (7, 6)]);
   (KRecv, 6, [(1, 1); (2, 2); (3, 3); (4, 4); (5, 5); (7, 6)]);
   (KRecv, 7, [(1, 1); (2, 2); (3, 3); (4, 4); (5, 5); (6, 6)])].
(** benches/mesh/cancel/mesh_six.rs:32-150,
    examples/mesh/mesh_six_cancel.rs:26-144. *)
Definition fns_15 : program := Program ["A"; "B"; "C"; "D"; "E"; "F"]
  [(KCancel, 1, [(2, 1); (3, 2); (4, 3); (5, 4); (6, 5)]);
   (KCancel, 2, [(1, 1); (3, 2); (4, 3); (5, 4); (6, 5)]);
   (KCancel, 3, [(1, 1); (2, 2); (4, 3); (5, 4); (6, 5)]);
   (KCancel, 4, [(1, 1); (2, 2); (3, 3); (5, 4); (6, 5)]);
   (KCancel, 5, [(1, 1); (2, 2); (3, 3); (4, 4); (6, 5)]);
   (KCancel, 6, [(1, 1); (2, 2); (3, 3); (4, 4); (5, 5)]);
   (KRecv, 1, [(2, 1); (3, 2); (4, 3); (5, 4); (6, 5)]);
   (KRecv, 2, [(1, 1); (3, 2); (4, 3); (5, 4); (6, 5)]);
   (KRecv, 3, [(1, 1); (2, 2); (4, 3); (5, 4); (6, 5)]);
   (KRecv, 4, [(1, 1); (2, 2); (3, 3); (5, 4); (6, 5)]);
   (KRecv, 5, [(1, 1); (2, 2); (3, 3); (4, 4); (6, 5)]);
   (KRecv, 6, [(1, 1); (2, 2); (3, 3); (4, 4); (5, 5)])].
(** benches/mesh/cancel/mesh_ten.rs:32-310,
    examples/mesh/mesh_ten_cancel.rs:26-304. *)
Definition fns_16 : program := Program ["A"; "B"; "C"; "D"; "E"; "F"; "G"; "H"; "I"; "J"]
  [(KCancel, 1, [(2, 1); (3, 2); (4, 3); (5, 4); (6, 5); (7, 6); (8, 7); (9, 8); (10, 9)]);
   (KCancel, 2, [(1, 1); (3, 2); (4, 3); (5, 4); (6, 5); (7, 6); (8, 7); (9, 8); (10, 9)]);
   (KCancel, 3, [(1, 1); (2, 2); (4, 3); (5, 4); (6, 5); (7, 6); (8, 7); (9, 8); (10, 9)]);
   (KCancel, 4, [(1, 1); (2, 2); (3, 3); (5, 4); (6, 5); (7, 6); (8, 7); (9, 8); (10, 9)]);
   (KCancel, 5, [(1, 1); (2, 2); (3, 3); (4, 4); (6, 5); (7, 6); (8, 7); (9, 8); (10, 9)]);
   (KCancel, 6, [(1, 1); (2, 2); (3, 3); (4, 4); (5, 5); (7, 6); (8, 7); (9, 8); (10, 9)]);
   (KCancel, 7, [(1, 1); (2, 2); (3, 3); (4, 4); (5, 5); (6, 6); (8, 7); (9, 8); (10, 9)]);
   (KCancel, 8, [(1, 1); (2, 2); (3, 3); (4, 4); (5, 5); (6, 6); (7, 7); (9, 8); (10, 9)]);
   (KCancel, 9, [(1, 1); (2, 2); (3, 3); (4, 4); (5, 5); (6, 6); (7, 7); (8, 8); (10, 9)]);
   (KCancel, 10, [(1, 1); (2, 2); (3, 3); (4, 4); (5, 5); (6, 6); (7, 7); (8, 8); (9, 9)]);
   (KRecv, 1, [(2, 1); (3, 2); (4, 3); (5, 4); (6, 5); (7, 6); (8, 7); (9, 8); (10, 9)]);
   (KRecv, 2, [(1, 1); (3, 2); (4, 3); (5, 4); (6, 5); (7, 6); (8, 7); (9, 8); (10, 9)]);
   (KRecv, 3, [(1, 1); (2, 2); (4, 3); (5, 4); (6, 5); (7, 6); (8, 7); (9, 8); (10, 9)]);
   (KRecv, 4, [(1, 1); (2, 2); (3, 3); (5, 4); (6, 5); (7, 6); (8, 7); (9, 8); (10, 9)]);
   (KRecv, 5, [(1, 1); (2, 2); (3, 3); (4, 4); (6, 5); (7, 6); (8, 7); (9, 8); (10, 9)]);
   (KRecv, 6, [(1, 1); (2, 2); (3, 3); (4, 4); (5, 5); (7, 6); (8, 7); (9, 8); (10, 9)]);
   (KRecv, 7, [(1, 1); (2, 2); (3, 3); (4, 4); (5, 5); (6, 6); (8, 7); (9, 8); (10, 9)]);
   (KRecv, 8, [(1, 1); (2, 2); (3, 3); (4, 4); (5, 5); (6, 6); (7, 7); (9, 8); (10, 9)]);
   (KRecv, 9, [(1, 1); (2, 2); (3, 3); (4, 4); (5, 5); (6, 6); (7, 7); (8, 8); (10, 9)]);
   (KRecv, 10, [(1, 1); (2, 2); (3, 3); (4, 4); (5, 5); (6, 6); (7, 7); (8, 8); (9, 9)])].
(** benches/mesh/cancel/mesh_three.rs:33-73,
    examples/mesh/mesh_three_cancel.rs:26-66. *)
Definition fns_17 : program := Program ["A"; "B"; "C"]
  [(KCancel, 1, [(2, 1); (3, 2)]);
   (KCancel, 2, [(1, 1); (3, 2)]);
   (KCancel, 3, [(1, 1); (2, 2)]);
   (KRecv, 1, [(2, 1); (3, 2)]);
   (KRecv, 2, [(1, 1); (3, 2)]);
   (KRecv, 3, [(1, 1); (2, 2)])].
(** benches/mesh/cancel/mesh_twenty.rs:32-990,
    examples/mesh/mesh_twenty_cancel.rs:26-984. *)
Definition fns_18 : program := Program ["A"; "B"; "C"; "D"; "E"; "F"; "G"; "H"; "I"; "J"; "K"; "L"; "M"; "N"; "O"; "P"; "Q"; "R"; "S"; "T"]
  [(KCancel, 1, [(2, 1); (3, 2); (4, 3); (5, 4); (6, 5); (7, 6); (8, 7); (9, 8); (10, 9); (11, 10); (12, 11); (13, 12); (14, 13); (15, 14); (16, 15); (17, 16); (18, 17); (19, 18); (20, 19)]);
   (KCancel, 2, [(1, 1); (3, 2); (4, 3); (5, 4); (6, 5); (7, 6); (8, 7); (9, 8); (10, 9); (11, 10); (12, 11); (13, 12); (14, 13); (15, 14); (16, 15); (17, 16); (18, 17); (19, 18); (20, 19)]);
   (KCancel, 3, [(1, 1); (2, 2); (4, 3); (5, 4); (6, 5); (7, 6); (8, 7); (9, 8); (10, 9); (11, 10); (12, 11); (13, 12); (14, 13); (15, 14); (16, 15); (17, 16); (18, 17); (19, 18); (20, 19)]);
   (KCancel, 4, [(1, 1); (2, 2); (3, 3); (5, 4); (6, 5); (7, 6); (8, 7); (9, 8); (10, 9); (11, 10); (12, 11); (13, 12); (14, 13); (15, 14); (16, 15); (17, 16); (18, 17); (19, 18); (20, 19)]);
   (KCancel, 5, [(1, 1); (2, 2); (3, 3); (4, 4); (6, 5); (7, 6); (8, 7); (9, 8); (10, 9); (11, 10); (12, 11); (13, 12); (14, 13); (15, 14); (16, 15); (17, 16); (18, 17); (19, 18); (20, 19)]);
   (KCancel, 6, [(1, 1); (2, 2); (3, 3); (4, 4); (5, 5); (7, 6); (8, 7); (9, 8); (10, 9); (11, 10); (12, 11); (13, 12); (14, 13); (15, 14); (16, 15); (17, 16); (18, 17); (19, 18); (20, 19)]);
   (KCancel, 7, [(1, 1); (2, 2); (3, 3); (4, 4); (5, 5); (6, 6); (8, 7); (9, 8); (10, 9); (11, 10); (12, 11); (13, 12); (14, 13); (15, 14); (16, 15); (17, 16); (18, 17); (19, 18); (20, 19)]);
   (KCancel, 8, [(1, 1); (2, 2); (3, 3); (4, 4); (5, 5); (6, 6); (7, 7); (9, 8); (10, 9); (11, 10); (12, 11); (13, 12); (14, 13); (15, 14); (16, 15); (17, 16); (18, 17); (19, 18); (20, 19)]);
   (KCancel, 9, [(1, 1); (2, 2); (3, 3); (4, 4); (5, 5); (6, 6); (7, 7); (8, 8); (10, 9); (11, 10); (12, 11); (13, 12); (14, 13); (15, 14); (16, 15); (17, 16); (18, 17); (19, 18); (20, 19)]);
   (KCancel, 10, [(1, 1); (2, 2); (3, 3); (4, 4); (5, 5); (6, 6); (7, 7); (8, 8); (9, 9); (11, 10); (12, 11); (13, 12); (14, 13); (15, 14); (16, 15); (17, 16); (18, 17); (19, 18); (20, 19)]);
   (KCancel, 11, [(1, 1); (2, 2); (3, 3); (4, 4); (5, 5); (6, 6); (7, 7); (8, 8); (9, 9); (10, 10); (12, 11); (13, 12); (14, 13); (15, 14); (16, 15); (17, 16); (18, 17); (19, 18); (20, 19)]);
   (KCancel, 12, [(1, 1); (2, 2); (3, 3); (4, 4); (5, 5); (6, 6); (7, 7); (8, 8); (9, 9); (10, 10); (11, 11); (13, 12); (14, 13); (15, 14); (16, 15); (17, 16); (18, 17); (19, 18); (20, 19)]);
   (KCancel, 13, [(1, 1); (2, 2); (3, 3); (4, 4); (5, 5); (6, 6); (7, 7); (8, 8); (9, 9); (10, 10); (11, 11); (12, 12); (14, 13); (15, 14); (16, 15); (17, 16); (18, 17); (19, 18); (20, 19)]);
   (KCancel, 14, [(1, 1); (2, 2); (3, 3); (4, 4); (5, 5); (6, 6); (7, 7); (8, 8); (9, 9); (10, 10); (11, 11); (12, 12); (13, 13); (15, 14); (16, 15); (17, 16); (18, 17); (19, 18); (20, 19)]);
   (KCancel, 15, [(1, 1); (2, 2); (3, 3); (4, 4); (5, 5); (6, 6); (7, 7); (8, 8); (9, 9); (10, 10); (11, 11); (12, 12); (13, 13); (14, 14); (16, 15); (17, 16); (18, 17); (19, 18); (20, 19)]);
   (KCancel, 16, [(1, 1); (2, 2); (3, 3); (4, 4); (5, 5); (6, 6); (7, 7); (8, 8); (9, 9); (10, 10); (11, 11); (12, 12); (13, 13); (14, 14); (15, 15); (17, 16); (18, 17); (19, 18); (20, 19)]);
   (KCancel, 17, [(1, 1); (2, 2); (3, 3); (4, 4); (5, 5); (6, 6); (7, 7); (8, 8); (9, 9); (10, 10); (11, 11); (12, 12); (13, 13); (14, 14); (15, 15); (16, 16); (18, 17); (19, 18); (20, 19)]);
   (KCancel, 18, [(1, 1); (2, 2); (3, 3); (4, 4); (5, 5); (6, 6); (7, 7); (8, 8); (9, 9); (10, 10); (11, 11); (12, 12); (13, 13); (14, 14); (15, 15); (16, 16); (17, 17); (19, 18); (20, 19)]);
   (KCancel, 19, [(1, 1); (2, 2); (3, 3); (4, 4); (5, 5); (6, 6); (7, 7); (8, 8); (9, 9); (10, 10); (11, 11); (12, 12); (13, 13); (14, 14); (15, 15); (16, 16); (17, 17); (18, 18); (20, 19)]);
   (KCancel, 20, [(1, 1); (2, 2); (3, 3); (4, 4); (5, 5); (6, 6); (7, 7); (8, 8); (9, 9); (10, 10); (11, 11); (12, 12); (13, 13); (14, 14); (15, 15); (16, 16); (17, 17); (18, 18); (19, 19)]);
   (KRecv, 1, [(2, 1); (3, 2); (4, 3); (5, 4); (6, 5); (7, 6); (8, 7); (9, 8); (10, 9); (11, 10); (12, 11); (13, 12); (14, 13); (15, 14); (16, 15); (17, 16); (18, 17); (19, 18); (20, 19)]);
   (KRecv, 2, [(1, 1); (3, 2); (4, 3); (5, 4); (6, 5); (7, 6); (8, 7); (9, 8); (10, 9); (11, 10); (12, 11); (13, 12); (14, 13); (15, 14); (16, 15); (17, 16); (18, 17); (19, 18); (20, 19)]);
   (KRecv, 3, [(1, 1); (2, 2); (4, 3); (5, 4); (6, 5); (7, 6); (8, 7); (9, 8); (10, 9); (11, 10); (12, 11); (13, 12); (14, 13); (15, 14); (16, 15); (17, 16); (18, 17); (19, 18); (20, 19)]);
   (KRecv, 4, [(1, 1); (2, 2); (3, 3); (5, 4); (6, 5); (7, 6); (8, 7); (9, 8); (10, 9); (11, 10); (12, 11); (13, 12); (14, 13); (15, 14); (16, 15); (17, 16); (18, 17); (19, 18); (20, 19)]);
   (KRecv, 5, [(1, 1); (2, 2); (3, 3); (4, 4); (6, 5); (7, 6); (8, 7); (9, 8); (10, 9); (11, 10); (12, 11); (13, 12); (14, 13); (15, 14); (16, 15); (17, 16); (18, 17); (19, 18); (20, 19)]);
   (KRecv, 6, [(1, 1); (2, 2); (3, 3); (4, 4); (5, 5); (7, 6); (8, 7); (9, 8); (10, 9); (11, 10); (12, 11); (13, 12); (14, 13); (15, 14); (16, 15); (17, 16); (18, 17); (19, 18); (20, 19)]);
   (KRecv, 7, [(1, 1); (2, 2); (3, 3); (4, 4); (5, 5); (6, 6); (8, 7); (9, 8); (10, 9); (11, 10); (12, 11); (13, 12); (14, 13); (15, 14); (16, 15); (17, 16); (18, 17); (19, 18); (20, 19)]);
   (KRecv, 8, [(1, 1); (2, 2); (3, 3); (4, 4); (5, 5); (6, 6); (7, 7); (9, 8); (10, 9); (11, 10); (12, 11); (13, 12); (14, 13); (15, 14); (16, 15); (17, 16); (18, 17); (19, 18); (20, 19)]);
   (KRecv, 9, [(1, 1); (2, 2); (3, 3); (4, 4); (5, 5); (6, 6); (7, 7); (8, 8); (10, 9); (11, 10); (12, 11); (13, 12); (14, 13); (15, 14); (16, 15); (17, 16); (18, 17); (19, 18); (20, 19)]);
   (KRecv, 10, [(1, 1); (2, 2); (3, 3); (4, 4); (5, 5); (6, 6); (7, 7); (8, 8); (9, 9); (11, 10); (12, 11); (13, 12); (14, 13); (15, 14); (16, 15); (17, 16); (18, 17); (19, 18); (20, 19)]);
   (KRecv, 11, [(1, 1); (2, 2); (3, 3); (4, 4); (5, 5); (6, 6); (7, 7); (8, 8); (9, 9); (10, 10); (12, 11); (13, 12); (14, 13); (15, 14); (16, 15); (17, 16); (18, 17); (19, 18); (20, 19)]);
   (KRecv, 12, [(1, 1); (2, 2); (3, 3); (4, 4); (5, 5); (6, 6); (7, 7); (8, 8); (9, 9); (10, 10); (11, 11); (13, 12); (14, 13); (15, 14); (16, 15); (17, 16); (18, 17); (19, 18); (20, 19)]);
   (KRecv, 13, [(1, 1); (2, 2); (3, 3); (4, 4); (5, 5); (6, 6); (7, 7); (8, 8); (9, 9); (10, 10); (11, 11); (12, 12); (14, 13); (15, 14); (16, 15); (17, 16); (18, 17); (19, 18); (20, 19)]);
   (KRecv, 14, [(1, 1); (2, 2); (3, 3); (4, 4); (5, 5); (6, 6); (7, 7); (8, 8); (9, 9); (10, 10); (11, 11); (12, 12); (13, 13); (15, 14); (16, 15); (17, 16); (18, 17); (19, 18); (20, 19)]);
   (KRecv, 15, [(1, 1); (2, 2); (3, 3); (4, 4); (5, 5); (6, 6); (7, 7); (8, 8); (9, 9); (10, 10); (11, 11); (12, 12); (13, 13); (14, 14); (16, 15); (17, 16); (18, 17); (19, 18); (20, 19)]);
   (KRecv, 16, [(1, 1); (2, 2); (3, 3); (4, 4); (5, 5); (6, 6); (7, 7); (8, 8); (9, 9); (10, 10); (11, 11); (12, 12); (13, 13); (14, 14); (15, 15); (17, 16); (18, 17); (19, 18); (20, 19)]);
   (KRecv, 17, [(1, 1); (2, 2); (3, 3); (4, 4); (5, 5); (6, 6); (7, 7); (8, 8); (9, 9); (10, 10); (11, 11); (12, 12); (13, 13); (14, 14); (15, 15); (16, 16); (18, 17); (19, 18); (20, 19)]);
   (KRecv, 18, [(1, 1); (2, 2); (3, 3); (4, 4); (5, 5); (6, 6); (7, 7); (8, 8); (9, 9); (10, 10); (11, 11); (12, 12); (13, 13); (14, 14); (15, 15); (16, 16); (17, 17); (19, 18); (20, 19)]);
   (KRecv, 19, [(1, 1); (2, 2); (3, 3); (4, 4); (5, 5); (6, 6); (7, 7); (8, 8); (9, 9); (10, 10); (11, 11); (12, 12); (13, 13); (14, 14); (15, 15); (16, 16); (17, 17); (18, 18); (20, 19)]);
   (KRecv, 20, [(1, 1); (2, 2); (3, 3); (4, 4); (5, 5); (6, 6); (7, 7); (8, 8); (9, 9); (10, 10); (11, 11); (12, 12); (13, 13); (14, 14); (15, 15); (16, 16); (17, 17); (18, 18); (19, 19)])].
(** benches/mesh/cancel/mesh_two.rs:32-54,
    benches/ping_pong_save/ping_pong_cancel_1.rs:29-51,
    benches/ring/cancel/ring_two.rs:32-54,
    examples/mesh/mesh_two_cancel.rs:26-48,
    examples/ping_pong_save/ping_pong_cancel_1.rs:27-49,
    examples/ring/ring_two_cancel.rs:26-48. *)
Definition fns_19 : program := Program ["A"; "B"]
  [(KCancel, 1, [(2, 1)]);
   (KCancel, 2, [(1, 1)]);
   (KRecv, 1, [(2, 1)]);
   (KRecv, 2, [(1, 1)])].
(** benches/mesh/cancel_broadcast/mesh_eight.rs:33-223,
    examples/mesh/mesh_eight_broadcast_cancel.rs:26-216. *)
Definition fns_20 : program := Program ["Broadcaster"; "A"; "B"; "C"; "D"; "E"; "F"; "G"; "H"]
  [(KCheck, 2, [(3, 2); (4, 3); (5, 4); (6, 5); (7, 6); (8, 7); (9, 8)]);
   (KCheck, 3, [(2, 2); (4, 3); (5, 4); (6, 5); (7, 6); (8, 7); (9, 8)]);
   (KCheck, 4, [(2, 2); (3, 3); (5, 4); (6, 5); (7, 6); (8, 7); (9, 8)]);
   (KCheck, 5, [(2, 2); (3, 3); (4, 4); (6, 5); (7, 6); (8, 7); (9, 8)]);
   (KCheck, 6, [(2, 2); (3, 3); (4, 4); (5, 5); (7, 6); (8, 7); (9, 8)]);
   (KCheck, 7, [(2, 2); (3, 3); (4, 4); (5, 5); (6, 6); (8, 7); (9, 8)]);
   (KCheck, 8, [(2, 2); (3, 3); (4, 4); (5, 5); (6, 6); (7, 7); (9, 8)]);
   (KCheck, 9, [(2, 2); (3, 3); (4, 4); (5, 5); (6, 6); (7, 7); (8, 8)]);
   (KRecv, 2, [(3, 2); (4, 3); (5, 4); (6, 5); (7, 6); (8, 7); (9, 8)]);
   (KRecv, 3, [(2, 2); (4, 3); (5, 4); (6, 5); (7, 6); (8, 7); (9, 8)]);
   (KRecv, 4, [(2, 2); (3, 3); (5, 4); (6, 5); (7, 6); (8, 7); (9, 8)]);
   (KRecv, 5, [(2, 2); (3, 3); (4, 4); (6, 5); (7, 6); (8, 7); (9, 8)]);
   (KRecv, 6, [(2, 2); (3, 3); (4, 4); (5, 5); (7, 6); (8, 7); (9, 8)]);
   (KRecv, 7, [(2, 2); (3, 3); (4, 4); (5, 5); (6, 6); (8, 7); (9, 8)]);
   (KRecv, 8, [(2, 2); (3, 3); (4, 4); (5, 5); (6, 6); (7, 7); (9, 8)]);
   (KRecv, 9, [(2, 2); (3, 3); (4, 4); (5, 5); (6, 6); (7, 7); (8, 8)])].
(** benches/mesh/cancel_broadcast/mesh_eleven.rs:33-361,
    examples/mesh/mesh_eleven_broadcast_cancel.rs:26-354. *)
Definition fns_21 : program := Program ["Broadcaster"; "A"; "B"; "C"; "D"; "E"; "F"; "G"; "H"; "I"; "J"; "K"]
  [(KCheck, 2, [(3, 2); (4, 3); (5, 4); (6, 5); (7, 6); (8, 7); (9, 8); (10, 9); (11, 10); (12, 11)]);
   (KCheck, 3, [(2, 2); (4, 3); (5, 4); (6, 5); (7, 6); (8, 7); (9, 8); (10, 9); (11, 10); (12, 11)]);
   (KCheck, 4, [(2, 2); (3, 3); (5, 4); (6, 5); (7, 6); (8, 7); (9, 8); (10, 9); (11, 10); (12, 11)]);
   (KCheck, 5, [(2, 2); (3, 3); (4, 4); (6, 5); (7, 6); (8, 7); (9, 8); (10, 9); (11, 10); (12, 11)]);
   (KCheck, 6, [(2, 2); (3, 3); (4, 4); (5, 5); (7, 6); (8, 7); (9, 8); (10, 9); (11, 10); (12, 11)]);
   (KCheck, 7, [(2, 2); (3, 3); (4, 4); (5, 5); (6, 6); (8, 7); (9, 8); (10, 9); (11, 10); (12, 11)]);
   (KCheck, 8, [(2, 2); (3, 3); (4, 4); (5, 5); (6, 6); (7, 7); (9, 8); (10, 9); (11, 10); (12, 11)]);
   (KCheck, 9, [(2, 2); (3, 3); (4, 4); (5, 5); (6, 6); (7, 7); (8, 8); (10, 9); (11, 10); (12, 11)]);
   (KCheck, 10, [(2, 2); (3, 3); (4, 4); (5, 5); (6, 6); (7, 7); (8, 8); (9, 9); (11, 10); (12, 11)]);
   (KCheck, 11, [(2, 2); (3, 3); (4, 4); (5, 5); (6, 6); (7, 7); (8, 8); (9, 9); (10, 10); (12, 11)]);
   (KCheck, 12, [(2, 2); (3, 3); (4, 4); (5, 5); (6, 6); (7, 7); (8, 8); (9, 9); (10, 10); (11, 11)]);
   (KRecv, 2, [(3, 2); (4, 3); (5, 4); (6, 5); (7, 6); (8, 7); (9, 8); (10, 9); (11, 10); (12, 11)]);
   (KRecv, 3, [(2, 2); (4, 3); (5, 4); (6, 5); (7, 6); (8, 7); (9, 8); (10, 9); (11, 10); (12, 11)]);
   (KRecv, 4, [(2, 2); (3, 3); (5, 4); (6, 5); (7, 6); (8, 7); (9, 8); (10, 9); (11, 10); (12, 11)]);
   (KRecv, 5, [(2, 2); (3, 3); (4, 4); (6, 5); (7, 6); (8, 7); (9, 8); (10, 9); (11, 10); (12, 11)]);
   (KRecv, 6, [(2, 2); (3, 3); (4, 4); (5, 5); (7, 6); (8, 7); (9, 8); (10, 9); (11, 10); (12, 11)]);
   (KRecv, 7, [(2, 2); (3, 3); (4, 4); (5, 5); (6, 6); (8, 7); (9, 8); (10, 9); (11, 10); (12, 11)]);
   (KRecv, 8, [(2, 2); (3, 3); (4, 4); (5, 5); (6, 6); (7, 7); (9, 8); (10, 9); (11, 10); (12, 11)]);
   (KRecv, 9, [(2, 2); (3, 3); (4, 4); (5, 5); (6, 6); (7, 7); (8, 8); (10, 9); (11, 10); (12, 11)]);
   (KRecv, 10, [(2, 2); (3, 3); (4, 4); (5, 5); (6, 6); (7, 7); (8, 8); (9, 9); (11, 10); (12, 11)]);
   (KRecv, 11, [(2, 2); (3, 3); (4, 4); (5, 5); (6, 6); (7, 7); (8, 8); (9, 9); (10, 10); (12, 11)]);
   (KRecv, 12, [(2, 2); (3, 3); (4, 4); (5, 5); (6, 6); (7, 7); (8, 8); (9, 9); (10, 10); (11, 11)])].
(** benches/mesh/cancel_broadcast/mesh_five.rs:33-121,
    examples/mesh/mesh_five_broadcast_cancel.rs:26-114. *)
Definition fns_22 : program := Program ["Broadcaster"; "A"; "B"; "C"; "D"; "E"]
  [(KCheck, 2, [(3, 2); (4, 3); (5, 4); (6, 5)]);
   (KCheck, 3, [(2, 2); (4, 3); (5, 4); (6, 5)]);
   (KCheck, 4, [(2, 2); (3, 3); (5, 4); (6, 5)]);
   (KCheck, 5, [(2, 2); (3, 3); (4, 4); (6, 5)]);
   (KCheck, 6, [(2, 2); (3, 3); (4, 4); (5, 5)]);
   (KRecv, 2, [(3, 2); (4, 3); (5, 4); (6, 5)]);
   (KRecv, 3, [(2, 2); (4, 3); (5, 4); (6, 5)]);
   (KRecv, 4, [(2, 2); (3, 3); (5, 4); (6, 5)]);
   (KRecv, 5, [(2, 2); (3, 3); (4, 4); (6, 5)]);
   (KRecv, 6, [(2, 2); (3, 3); (4, 4); (5, 5)])].
(** benches/mesh/cancel_broadcast/mesh_four.rs:33-95,
    examples/mesh/mesh_four_broadcast_cancel.rs:26-88. *)
Definition fns_23 : program := Program ["Broadcaster"; "A"; "B"; "C"; "D"]
  [(KCheck, 2, [(3, 2); (4, 3); (5, 4)]);
   (KCheck, 3, [(2, 2); (4, 3); (5, 4)]);
   (KCheck, 4, [(2, 2); (3, 3); (5, 4)]);
   (KCheck, 5, [(2, 2); (3, 3); (4, 4)]);
   (KRecv, 2, [(3, 2); (4, 3); (5, 4)]);
   (KRecv, 3, [(2, 2); (4, 3); (5, 4)]);
   (KRecv, 4, [(2, 2); (3, 3); (5, 4)]);
   (KRecv, 5, [(2, 2); (3, 3); (4, 4)])].
(** benches/mesh/cancel_broadcast/mesh_nine.rs:33-265,
    examples/mesh/mesh_nine_broadcast_cancel.rs:26-258. *)
Definition fns_24 : program := Program ["Broadcaster"; "A"; "B"; "C"; "D"; "E"; "F"; "G"; "H"; "I"]
  [(KCheck, 2, [(3, 2); (4, 3); (5, 4); (6, 5); (7, 6); (8, 7); (9, 8); (10, 9)]);
   (KCheck, 3, [(2, 2); (4, 3); (5, 4); (6, 5); (7, 6); (8, 7); (9, 8); (10, 9)]);
   (KCheck, 4, [(2, 2); (3, 3); (5, 4); (6, 5); (7, 6); (8, 7); (9, 8); (10, 9)]);
   (KCheck, 5, [(2, 2); (3, 3); (4, 4); (6, 5); (7, 6); (8, 7); (9, 8); (10, 9)]);
   (KCheck, 6, [(2, 2); (3, 3); (4, 4); (5, 5); (7, 6); (8, 7); (9, 8); (10, 9)]);
   (KCheck, 7, [(2, 2); (3, 3); (4, 4); (5, 5); (6, 6); (8, 7); (9, 8); (10, 9)]);
   (KCheck, 8, [(2, 2); (3, 3); (4, 4); (5, 5); (6, 6); (7, 7); (9, 8); (10, 9)]);
   (KCheck, 9, [(2, 2); (3, 3); (4, 4); (5, 5); (6, 6); (7, 7); (8, 8); (10, 9)]);
   (KCheck, 10, [(2, 2); (3, 3); (4, 4); (5, 5); (6, 6); (7, 7); (8, 8); (9, 9)]);
   (KRecv, 2, [(3, 2); (4, 3); (5, 4); (6, 5); (7, 6); (8, 7); (9, 8); (10, 9)]);
   (KRecv, 3, [(2, 2); (4, 3); (5, 4); (6, 5); (7, 6); (8, 7); (9, 8); (10, 9)]);
   (KRecv, 4, [(2, 2); (3, 3); (5, 4); (6, 5); (7, 6); (8, 7); (9, 8); (10, 9)]);
   (KRecv, 5, [(2, 2); (3, 3); (4, 4); (6, 5); (7, 6); (8, 7); (9, 8); (10, 9)]);
   (KRecv, 6, [(2, 2); (3, 3); (4, 4); (5, 5); (7, 6); (8, 7); (9, 8); (10, 9)]);
   (KRecv, 7, [(2, 2); (3, 3); (4, 4); (5, 5); (6, 6); (8, 7); (9, 8); (10, 9)]);
   (KRecv, 8, [(2, 2); (3, 3); (4, 4); (5, 5); (6, 6); (7, 7); (9, 8); (10, 9)]);
   (KRecv, 9, [(2, 2); (3, 3); (4, 4); (5, 5); (6, 6); (7, 7); (8, 8); (10, 9)]);
   (KRecv, 10, [(2, 2); (3, 3); (4, 4); (5, 5); (6, 6); (7, 7); (8, 8); (9, 9)])].
(** benches/mesh/cancel_broadcast/mesh_seven.rs:33-185,
    examples/mesh/mesh_seven_broadcast_cancel.rs:26-178. *)
Definition fns_25 : program := Program ["Broadcaster"; "A"; "B"; "C"; "D"; "E"; "F"; "G"]
  [(KCheck, 2, [(3, 2); (4, 3); (5, 4); (6, 5); (7, 6); (8, 7)]);
   (KCheck, 3, [(2, 2); (4, 3); (5, 4); (6, 5); (7, 6); (8, 7)]);
   (KCheck, 4, [(2, 2); (3, 3); (5, 4); (6, 5); (7, 6); (8, 7)]);
   (KCheck, 5, [(2, 2); (3, 3); (4, 4); (6, 5); (7, 6); (8, 7)]);
   (KCheck, 6, [(2, 2); (3, 3); (4, 4); (5, 5); (7, 6); (8, 7)]);
   (KCheck, 7, [(2, 2); (3, 3); (4, 4); (5, 5); (6, 6); (8, 7)]);
   (KCheck, 8, [(2, 2); (3, 3); (4, 4); (5, 5); (6, 6); (7, 7)]);
   (KRecv, 2, [(3, 2); (4, 3); (5, 4); (6, 5); (7, 6); (8, 7)]);
   (KRecv, 3, [(2, 2); (4, 3); (5, 4); (6, 5); (7, 6); (8, 7)]);
   (KRecv, 4, [(2, 2); (3, 3); (5, 4); (6, 5); (7, 6); (8, 7)]);
   (KRecv, 5, [(2, 2); (3, 3); (4, 4); (6, 5); (7, 6); (8, 7)]);
   (KRecv, 6, [(2, 2); (3, 3); (4, 4); (5, 5); (7, 6); (8, 7)]);
   (KRecv, 7, [(2, 2); (3, 3); (4, 4); (5, 5); (6, 6); (8, 7)]);
   (KRecv, 8, [(2, 2); (3, 3); (4, 4); (5, 5); (6, 6); (7, 7)])].
(** benches/mesh/cancel_broadcast/mesh_six.rs:33-151,
    examples/mesh/mesh_six_broadcast_cancel.rs:26-144. *)
Definition fns_26 : program := Program ["Broadcaster"; "A"; "B"; "C"; "D"; "E"; "F"]
  [(KCheck, 2, [(3, 2); (4, 3); (5, 4); (6, 5); (7, 6)]);
   (KCheck, 3, [(2, 2); (4, 3); (5, 4); (6, 5); (7, 6)]);
   (KCheck, 4, [(2, 2); (3, 3); (5, 4); (6, 5); (7, 6)]);
   (KCheck, 5, [(2, 2); (3, 3); (4, 4); (6, 5); (7, 6)]);
   (KCheck, 6, [(2, 2); (3, 3); (4, 4); (5, 5); (7, 6)]);
   (KCheck, 7, [(2, 2); (3, 3); (4, 4); (5, 5); (6, 6)]);
   (KRecv, 2, [(3, 2); (4, 3); (5, 4); (6, 5); (7, 6)]);
   (KRecv, 3, [(2, 2); (4, 3); (5, 4); (6, 5); (7, 6)]);
   (KRecv, 4, [(2, 2); (3, 3); (5, 4); (6, 5); (7, 6)]);
   (KRecv, 5, [(2, 2); (3, 3); (4, 4); (6, 5); (7, 6)]);
   (KRecv, 6, [(2, 2); (3, 3); (4, 4); (5, 5); (7, 6)]);
   (KRecv, 7, [(2, 2); (3, 3); (4, 4); (5, 5); (6, 6)])].
(** benches/mesh/cancel_broadcast/mesh_ten.rs:33-311,
    examples/mesh/mesh_ten_broadcast_cancel.rs:26-304. *)
Definition fns_27 : program := Program ["Broadcaster"; "A"; "B"; "C"; "D"; "E"; "F"; "G"; "H"; "I"; "J"]
  [(KCheck, 2, [(3, 2); (4, 3); (5, 4); (6, 5); (7, 6); (8, 7); (9, 8); (10, 9); (11, 10)]);
   (KCheck, 3, [(2, 2); (4, 3); (5, 4); (6, 5); (7, 6); (8, 7); (9, 8); (10, 9); (11, 10)]);
   (KCheck, 4, [(2, 2); (3, 3); (5, 4); (6, 5); (7, 6); (8, 7); (9, 8); (10, 9); (11, 10)]);
   (KCheck, 5, [(2, 2); (3, 3); (4, 4); (6, 5); (7, 6); (8, 7); (9, 8); (10, 9); (11, 10)]);
   (KCheck, 6, [(2, 2); (3, 3); (4, 4); (5, 5); (7, 6); (8, 7); (9, 8); (10, 9); (11, 10)]);
   (KCheck, 7, [(2, 2); (3, 3); (4, 4); (5, 5); (6, 6); (8, 7); (9, 8); (10, 9); (11, 10)]);
   (KCheck, 8, [(2, 2); (3, 3); (4, 4); (5, 5); (6, 6); (7, 7); (9, 8); (10, 9); (11, 10)]);
   (KCheck, 9, [(2, 2); (3, 3); (4, 4); (5, 5); (6, 6); (7, 7); (8, 8); (10, 9); (11, 10)]);
   (KCheck, 10, [(2, 2); (3, 3); (4, 4); (5, 5); (6, 6); (7, 7); (8, 8); (9, 9); (11, 10)]);
   (KCheck, 11, [(2, 2); (3, 3); (4, 4); (5, 5); (6, 6); (7, 7); (8, 8); (9, 9); (10, 10)]);
   (KRecv, 2, [(3, 2); (4, 3); (5, 4); (6, 5); (7, 6); (8, 7); (9, 8); (10, 9); (11, 10)]);
   (KRecv, 3, [(2, 2); (4, 3); (5, 4); (6, 5); (7, 6); (8, 7); (9, 8); (10, 9); (11, 10)]);
   (KRecv, 4, [(2, 2); (3, 3); (5, 4); (6, 5); (7, 6); (8, 7); (9, 8); (10, 9); (11, 10)]);
   (KRecv, 5, [(2, 2); (3, 3); (4, 4); (6, 5); (7, 6); (8, 7); (9, 8); (10, 9); (11, 10)]);
   (KRecv, 6, [(2, 2); (3, 3); (4, 4); (5, 5); (7, 6); (8, 7); (9, 8); (10, 9); (11, 10)]);
   (KRecv, 7, [(2, 2); (3, 3); (4, 4); (5, 5); (6, 6); (8, 7); (9, 8); (10, 9); (11, 10)]);
   (KRecv, 8, [(2, 2); (3, 3); (4, 4); (5, 5); (6, 6); (7, 7); (9, 8); (10, 9); (11, 10)]);
   (KRecv, 9, [(2, 2); (3, 3); (4, 4); (5, 5); (6, 6); (7, 7); (8, 8); (10, 9); (11, 10)]);
   (KRecv, 10, [(2, 2); (3, 3); (4, 4); (5, 5); (6, 6); (7, 7); (8, 8); (9, 9); (11, 10)]);
   (KRecv, 11, [(2, 2); (3, 3); (4, 4); (5, 5); (6, 6); (7, 7); (8, 8); (9, 9); (10, 10)])].
(** benches/mesh/cancel_broadcast/mesh_three.rs:33-73,
    examples/mesh/mesh_three_broadcast_cancel.rs:26-66. *)
Definition fns_28 : program := Program ["Broadcaster"; "A"; "B"; "C"]
  [(KCheck, 2, [(3, 2); (4, 3)]);
   (KCheck, 3, [(2, 2); (4, 3)]);
   (KCheck, 4, [(2, 2); (3, 3)]);
   (KRecv, 2, [(3, 2); (4, 3)]);
   (KRecv, 3, [(2, 2); (4, 3)]);
   (KRecv, 4, [(2, 2); (3, 3)])].
(** benches/mesh/cancel_broadcast/mesh_twenty.rs:37-995,
    examples/mesh/mesh_twenty_broadcast_cancel.rs:30-988. *)
Definition fns_29 : program := Program ["Broadcaster"; "A"; "B"; "C"; "D"; "E"; "F"; "G"; "H"; "I"; "J"; "K"; "L"; "M"; "N"; "O"; "P"; "Q"; "R"; "S"; "T"]
  [(KCheck, 2, [(3, 2); (4, 3); (5, 4); (6, 5); (7, 6); (8, 7); (9, 8); (10, 9); (11, 10); (12, 11); (13, 12); (14, 13); (15, 14); (16, 15); (17, 16); (18, 17); (19, 18); (20, 19); (21, 20)]);
   (KCheck, 3, [(2, 2); (4, 3); (5, 4); (6, 5); (7, 6); (8, 7); (9, 8); (10, 9); (11, 10); (12, 11); (13, 12); (14, 13); (15, 14); (16, 15); (17, 16); (18, 17); (19, 18); (20, 19); (21, 20)]);
   (KCheck, 4, [(2, 2); (3, 3); (5, 4); (6, 5); (7, 6); (8, 7); (9, 8); (10, 9); (11, 10); (12, 11); (13, 12); (14, 13); (15, 14); (16, 15); (17, 16); (18, 17); (19, 18); (20, 19); (21, 20)]);
   (KCheck, 5, [(2, 2); (3, 3); (4, 4); (6, 5); (7, 6); (8, 7); (9, 8); (10, 9); (11, 10); (12, 11); (13, 12); (14, 13); (15, 14); (16, 15); (17, 16); (18, 17); (19, 18); (20, 19); (21, 20)]);
   (KCheck, 6, [(2, 2); (3, 3); (4, 4); (5, 5); (7, 6); (8, 7); (9, 8); (10, 9); (11, 10); (12, 11); (13, 12); (14, 13); (15, 14); (16, 15); (17, 16); (18, 17); (19, 18); (20, 19); (21, 20)]);
   (KCheck, 7, [(2, 2); (3, 3); (4, 4); (5, 5); (6, 6); (8, 7); (9, 8); (10, 9); (11, 10); (12, 11); (13, 12); (14, 13); (15, 14); (16, 15); (17, 16); (18, 17); (19, 18); (20, 19); (21, 20)]);
   (KCheck, 8, [(2, 2); (3, 3); (4, 4); (5, 5); (6, 6); (7, 7); (9, 8); (10, 9); (11, 10); (12, 11); (13, 12); (14, 13); (15, 14); (16, 15); (17, 16); (18, 17); (19, 18); (20, 19); (21, 20)]);
   (KCheck, 9, [(2, 2); (3, 3); (4, 4); (5, 5); (6, 6); (7, 7); (8, 8); (10, 9); (11, 10); (12, 11); (13, 12); (14, 13); (15, 14); (16, 15); (17, 16); (18, 17); (19, 18); (20, 19); (21, 20)]);
   (KCheck, 10, [(2, 2); (3, 3); (4, 4); (5, 5); (6, 6); (7, 7); (8, 8); (9, 9); (11, 10); (12, 11); (13, 12); (14, 13); (15, 14); (16, 15); (17, 16); (18, 17); (19, 18); (20, 19); (21, 20)]);
   (KCheck, 11, [(2, 2); (3, 3); (4, 4); (5, 5); (6, 6); (7, 7); (8, 8); (9, 9); (10, 10); (12, 11); (13, 12); (14, 13); (15, 14); (16, 15); (17, 16); (18, 17); (19, 18); (20, 19); (21, 20)]);
   (KCheck, 12, [(2, 2); (3, 3); (4, 4); (5, 5); (6, 6); (7, 7); (8, 8); (9, 9); (10, 10); (11, 11); (13, 12); (14, 13); (15, 14); (16, 15); (17, 16); (18, 17); (19, 18); (20, 19); (21, 20)]);
   (KCheck, 13, [(2, 2); (3, 3); (4, 4); (5, 5); (6, 6); (7, 7); (8, 8); (9, 9); (10, 10); (11, 11); (12, 12); (14, 13); (15, 14); (16, 15); (17, 16); (18, 17); (19, 18); (20, 19); (21, 20)]);
   (KCheck, 14, [(2, 2); (3, 3); (4, 4); (5, 5); (6, 6); (7, 7); (8, 8); (9, 9); (10, 10); (11, 11); (12, 12); (13, 13); (15, 14); (16, 15); (17, 16); (18, 17); (19, 18); (20, 19); (21, 20)]);
   (KCheck, 15, [(2, 2); (3, 3); (4, 4); (5, 5); (6, 6); (7, 7); (8, 8); (9, 9); (10, 10); (11, 11); (12, 12); (13, 13); (14, 14); (16, 15); (17, 16); (18, 17); (19, 18); (20, 19); (21, 20)]);
   (KCheck, 16, [(2, 2); (3, 3); (4, 4); (5, 5); (6, 6); (7, 7); (8, 8); (9, 9); (10, 10); (11, 11); (12, 12); (13, 13); (14, 14); (15, 15); (17, 16); (18, 17); (19, 18); (20, 19); (21, 20)]);
   (KCheck, 17, [(2, 2); (3, 3); (4, 4); (5, 5); (6, 6); (7, 7); (8, 8); (9, 9); (10, 10); (11, 11); (12, 12); (13, 13); (14, 14); (15, 15); (16, 16); (18, 17); (19, 18); (20, 19); (21, 20)]);
   (KCheck, 18, [(2, 2); (3, 3); (4, 4); (5, 5); (6, 6); (7, 7); (8, 8); (9, 9); (10, 10); (11, 11); (12, 12); (13, 13); (14, 14); (15, 15); (16, 16); (17, 17); (19, 18); (20, 19); (21, 20)]);
   (KCheck, 19, [(2, 2); (3, 3); (4, 4); (5, 5); (6, 6); (7, 7); (8, 8); (9, 9); (10, 10); (11, 11); (12, 12); (13, 13); (14, 14); (15, 15); (16, 16); (17, 17); (18, 18); (20, 19); (21, 20)]);
   (KCheck, 20, [(2, 2); (3, 3); (4, 4); (5, 5); (6, 6); (7, 7); (8, 8); (9, 9); (10, 10); (11, 11); (12, 12); (13, 13); (14, 14); (15, 15); (16, 16); (17, 17); (18, 18); (19, 19); (21, 20)]);
   (KCheck, 21, [(2, 2); (3, 3); (4, 4); (5, 5); (6, 6); (7, 7); (8, 8); (9, 9); (10, 10); (11, 11); (12, 12); (13, 13); (14, 14); (15, 15); (16, 16); (17, 17); (18, 18); (19, 19); (20, 20)]);
   (KRecv, 2, [(3, 2); (4, 3); (5, 4); (6, 5); (7, 6); (8, 7); (9, 8); (10, 9); (11, 10); (12, 11); (13, 12); (14, 13); (15, 14); (16, 15); (17, 16); (18, 17); (19, 18); (20, 19); (21, 20)]);
   (KRecv, 3, [(2, 2); (4, 3); (5, 4); (6, 5); (7, 6); (8, 7); (9, 8); (10, 9); (11, 10); (12, 11); (13, 12); (14, 13); (15, 14); (16, 15); (17, 16); (18, 17); (19, 18); (20, 19); (21, 20)]);
   (KRecv, 4, [(2, 2); (3, 3); (5, 4); (6, 5); (7, 6); (8, 7); (9, 8); (10, 9); (11, 10); (12, 11); (13, 12); (14, 13); (15, 14); (16, 15); (17, 16); (18, 17); (19, 18); (20, 19); (21, 20)]);
   (KRecv, 5, [(2, 2); (3, 3); (4, 4); (6, 5); (7, 6); (8, 7); (9, 8); (10, 9); (11, 10); (12, 11); (13, 12); (14, 13); (15, 14); (16, 15); (17, 16); (18, 17); (19, 18); (20, 19); (21, 20)]);
   (KRecv, 6, [(2, 2); (3, 3); (4, 4); (5, 5); (7, 6); (8, 7); (9, 8); (10, 9); (11, 10); (12, 11); (13, 12); (14, 13); (15, 14); (16, 15); (17, 16); (18, 17); (19, 18); (20, 19); (21, 20)]);
   (KRecv, 7, [(2, 2); (3, 3); (4, 4); (5, 5); (6, 6); (8, 7); (9, 8); (10, 9); (11, 10); (12, 11); (13, 12); (14, 13); (15, 14); (16, 15); (17, 16); (18, 17); (19, 18); (20, 19); (21, 20)]);
   (KRecv, 8, [(2, 2); (3, 3); (4, 4); (5, 5); (6, 6); (7, 7); (9, 8); (10, 9); (11, 10); (12, 11); (13, 12); (14, 13); (15, 14); (16, 15); (17, 16); (18, 17); (19, 18); (20, 19); (21, 20)]);
   (KRecv, 9, [(2, 2); (3, 3); (4, 4); (5, 5); (6, 6); (7, 7); (8, 8); (10, 9); (11, 10); (12, 11); (13, 12); (14, 13); (15, 14); (16, 15); (17, 16); (18, 17); (19, 18); (20, 19); (21, 20)]);
   (KRecv, 10, [(2, 2); (3, 3); (4, 4); (5, 5); (6, 6); (7, 7); (8, 8); (9, 9); (11, 10); (12, 11); (13, 12); (14, 13); (15, 14); (16, 15); (17, 16); (18, 17); (19, 18); (20, 19); (21, 20)]);
   (KRecv, 11, [(2, 2); (3, 3); (4, 4); (5, 5); (6, 6); (7, 7); (8, 8); (9, 9); (10, 10); (12, 11); (13, 12); (14, 13); (15, 14); (16, 15); (17, 16); (18, 17); (19, 18); (20, 19); (21, 20)]);
   (KRecv, 12, [(2, 2); (3, 3); (4, 4); (5, 5); (6, 6); (7, 7); (8, 8); (9, 9); (10, 10); (11, 11); (13, 12); (14, 13); (15, 14); (16, 15); (17, 16); (18, 17); (19, 18); (20, 19); (21, 20)]);
   (KRecv, 13, [(2, 2); (3, 3); (4, 4); (5, 5); (6, 6); (7, 7); (8, 8); (9, 9); (10, 10); (11, 11); (12, 12); (14, 13); (15, 14); (16, 15); (17, 16); (18, 17); (19, 18); (20, 19); (21, 20)]);
   (KRecv, 14, [(2, 2); (3, 3); (4, 4); (5, 5); (6, 6); (7, 7); (8, 8); (9, 9); (10, 10); (11, 11); (12, 12); (13, 13); (15, 14); (16, 15); (17, 16); (18, 17); (19, 18); (20, 19); (21, 20)]);
   (KRecv, 15, [(2, 2); (3, 3); (4, 4); (5, 5); (6, 6); (7, 7); (8, 8); (9, 9); (10, 10); (11, 11); (12, 12); (13, 13); (14, 14); (16, 15); (17, 16); (18, 17); (19, 18); (20, 19); (21, 20)]);
   (KRecv, 16, [(2, 2); (3, 3); (4, 4); (5, 5); (6, 6); (7, 7); (8, 8); (9, 9); (10, 10); (11, 11); (12, 12); (13, 13); (14, 14); (15, 15); (17, 16); (18, 17); (19, 18); (20, 19); (21, 20)]);
   (KRecv, 17, [(2, 2); (3, 3); (4, 4); (5, 5); (6, 6); (7, 7); (8, 8); (9, 9); (10, 10); (11, 11); (12, 12); (13, 13); (14, 14); (15, 15); (16, 16); (18, 17); (19, 18); (20, 19); (21, 20)]);
   (KRecv, 18, [(2, 2); (3, 3); (4, 4); (5, 5); (6, 6); (7, 7); (8, 8); (9, 9); (10, 10); (11, 11); (12, 12); (13, 13); (14, 14); (15, 15); (16, 16); (17, 17); (19, 18); (20, 19); (21, 20)]);
   (KRecv, 19, [(2, 2); (3, 3); (4, 4); (5, 5); (6, 6); (7, 7); (8, 8); (9, 9); (10, 10); (11, 11); (12, 12); (13, 13); (14, 14); (15, 15); (16, 16); (17, 17); (18, 18); (20, 19); (21, 20)]);
   (KRecv, 20, [(2, 2); (3, 3); (4, 4); (5, 5); (6, 6); (7, 7); (8, 8); (9, 9); (10, 10); (11, 11); (12, 12); (13, 13); (14, 14); (15, 15); (16, 16); (17, 17); (18, 18); (19, 19); (21, 20)]);
   (KRecv, 21, [(2, 2); (3, 3); (4, 4); (5, 5); (6, 6); (7, 7); (8, 8); (9, 9); (10, 10); (11, 11); (12, 12); (13, 13); (14, 14); (15, 15); (16, 16); (17, 17); (18, 18); (19, 19); (20, 20)])].
(** benches/mesh/empty/mpst/mesh_eight.rs:32-222,
    benches/mesh/normal/mpst/mesh_eight.rs:32-222. *)
Definition fns_30 : program := Program ["A"; "B"; "C"; "D"; "E"; "F"; "G"; "H"]
  [(KSend, 1, [(2, 1); (3, 2); (4, 3); (5, 4); (6, 5); (7, 6); (8, 7)]);
   (KSend, 2, [(1, 1); (3, 2); (4, 3); (5, 4); (6, 5); (7, 6); (8, 7)]);
   (KSend, 3, [(1, 1); (2, 2); (4, 3); (5, 4); (6, 5); (7, 6); (8, 7)]);
   (KSend, 4, [(1, 1); (2, 2); (3, 3); (5, 4); (6, 5); (7, 6); (8, 7)]);
   (KSend, 5, [(1, 1); (2, 2); (3, 3); (4, 4); (6, 5); (7, 6); (8, 7)]);
   (KSend, 6, [(1, 1); (2, 2); (3, 3); (4, 4); (5, 5); (7, 6); (8, 7)]);
   (KSend, 7, [(1, 1); (2, 2); (3, 3); (4, 4); (5, 5); (6, 6); (8, 7)]);
   (KSend, 8, [(1, 1); (2, 2); (3, 3); (4, 4); (5, 5); (6, 6); (7, 7)]);
   (KRecv, 1, [(2, 1); (3, 2); (4, 3); (5, 4); (6, 5); (7, 6); (8, 7)]);
   (KRecv, 2, [(1, 1); (3, 2); (4, 3); (5, 4); (6, 5); (7, 6); (8, 7)]);
   (KRecv, 3, [(1, 1); (2, 2); (4, 3); (5, 4); (6, 5); (7, 6); (8, 7)]);
   (KRecv, 4, [(1, 1); (2, 2); (3, 3); (5, 4); (6, 5); (7, 6); (8, 7)]);
   (KRecv, 5, [(1, 1); (2, 2); (3, 3); (4, 4); (6, 5); (7, 6); (8, 7)]);
   (KRecv, 6, [(1, 1); (2, 2); (3, 3); (4, 4); (5, 5); (7, 6); (8, 7)]);
   (KRecv, 7, [(1, 1); (2, 2); (3, 3); (4, 4); (5, 5); (6, 6); (8, 7)]);
   (KRecv, 8, [(1, 1); (2, 2); (3, 3); (4, 4); (5, 5); (6, 6); (7, 7)])].
(** benches/mesh/empty/mpst/mesh_eleven.rs:32-360,
    benches/mesh/normal/mpst/mesh_eleven.rs:32-360. *)
Definition fns_31 : program := Program ["A"; "B"; "C"; "D"; "E"; "F"; "G"; "H"; "I"; "J"; "K"]
  [(KSend, 1, [(2, 1); (3, 2); (4, 3); (5, 4); (6, 5); (7, 6); (8, 7); (9, 8); (10, 9); (11, 10)]);
   (KSend, 2, [(1, 1); (3, 2); (4, 3); (5, 4); (6, 5); (7, 6); (8, 7); (9, 8); (10, 9); (11, 10)]);
   (KSend, 3, [(1, 1); (2, 2); (4, 3); (5, 4); (6, 5); (7, 6); (8, 7); (9, 8); (10, 9); (11, 10)]);
   (KSend, 4, [(1, 1); (2, 2); (3, 3); (5, 4); (6, 5); (7, 6); (8, 7); (9, 8); (10, 9); (11, 10)]);
   (KSend, 5, [(1, 1); (2, 2); (3, 3); (4, 4); (6, 5); (7, 6); (8, 7); (9, 8); (10, 9); (11, 10)]);
   (KSend, 6, [(1, 1); (2, 2); (3, 3); (4, 4); (5, 5); (7, 6); (8, 7); (9, 8); (10, 9); (11, 10)]);
   (KSend, 7, [(1, 1); (2, 2); (3, 3); (4, 4); (5, 5); (6, 6); (8, 7); (9, 8); (10, 9); (11, 10)]);
   (KSend, 8, [(1, 1); (2, 2); (3, 3); (4, 4); (5, 5); (6, 6); (7, 7); (9, 8); (10, 9); (11, 10)]);
   (KSend, 9, [(1, 1); (2, 2); (3, 3); (4, 4); (5, 5); (6, 6); (7, 7); (8, 8); (10, 9); (11, 10)]);
   (KSend, 10, [(1, 1); (2, 2); (3, 3); (4, 4); (5, 5); (6, 6); (7, 7); (8, 8); (9, 9); (11, 10)]);
   (KSend, 11, [(1, 1); (2, 2); (3, 3); (4, 4); (5, 5); (6, 6); (7, 7); (8, 8); (9, 9); (10, 10)]);
   (KRecv, 1, [(2, 1); (3, 2); (4, 3); (5, 4); (6, 5); (7, 6); (8, 7); (9, 8); (10, 9); (11, 10)]);
   (KRecv, 2, [(1, 1); (3, 2); (4, 3); (5, 4); (6, 5); (7, 6); (8, 7); (9, 8); (10, 9); (11, 10)]);
   (KRecv, 3, [(1, 1); (2, 2); (4, 3); (5, 4); (6, 5); (7, 6); (8, 7); (9, 8); (10, 9); (11, 10)]);
   (KRecv, 4, [(1, 1); (2, 2); (3, 3); (5, 4); (6, 5); (7, 6); (8, 7); (9, 8); (10, 9); (11, 10)]);
   (KRecv, 5, [(1, 1); (2, 2); (3, 3); (4, 4); (6, 5); (7, 6); (8, 7); (9, 8); (10, 9); (11, 10)]);
   (KRecv, 6, [(1, 1); (2, 2); (3, 3); (4, 4); (5, 5); (7, 6); (8, 7); (9, 8); (10, 9); (11, 10)]);
   (KRecv, 7, [(1, 1); (2, 2); (3, 3); (4, 4); (5, 5); (6, 6); (8, 7); (9, 8); (10, 9); (11, 10)]);
   (KRecv, 8, [(1, 1); (2, 2); (3, 3); (4, 4); (5, 5); (6, 6); (7, 7); (9, 8); (10, 9); (11, 10)]);
   (KRecv, 9, [(1, 1); (2, 2); (3, 3); (4, 4); (5, 5); (6, 6); (7, 7); (8, 8); (10, 9); (11, 10)]);
   (KRecv, 10, [(1, 1); (2, 2); (3, 3); (4, 4); (5, 5); (6, 6); (7, 7); (8, 8); (9, 9); (11, 10)]);
   (KRecv, 11, [(1, 1); (2, 2); (3, 3); (4, 4); (5, 5); (6, 6); (7, 7); (8, 8); (9, 9); (10, 10)])].
(** benches/mesh/empty/mpst/mesh_five.rs:32-120,
    benches/mesh/normal/mpst/mesh_five.rs:32-120. *)
Definition fns_32 : program := Program ["A"; "B"; "C"; "D"; "E"]
  [(KSend, 1, [(2, 1); (3, 2); (4, 3); (5, 4)]);
   (KSend, 2, [(1, 1); (3, 2); (4, 3); (5, 4)]);
   (KSend, 3, [(1, 1); (2, 2); (4, 3); (5, 4)]);
   (KSend, 4, [(1, 1); (2, 2); (3, 3); (5, 4)]);
   (KSend, 5, [(1, 1); (2, 2); (3, 3); (4, 4)]);
   (KRecv, 1, [(2, 1); (3, 2); (4, 3); (5, 4)]);
   (KRecv, 2, [(1, 1); (3, 2); (4, 3); (5, 4)]);
   (KRecv, 3, [(1, 1); (2, 2); (4, 3); (5, 4)]);
   (KRecv, 4, [(1, 1); (2, 2); (3, 3); (5, 4)]);
   (KRecv, 5, [(1, 1); (2, 2); (3, 3); (4, 4)])].
(** benches/mesh/empty/mpst/mesh_four.rs:32-94,
    benches/mesh/normal/mpst/mesh_four.rs:32-94. *)
Definition fns_33 : program := Program ["A"; "B"; "C"; "D"]
  [(KSend, 1, [(2, 1); (3, 2); (4, 3)]);
   (KSend, 2, [(1, 1); (3, 2); (4, 3)]);
   (KSend, 3, [(1, 1); (2, 2); (4, 3)]);
   (KSend, 4, [(1, 1); (2, 2); (3, 3)]);
   (KRecv, 1, [(2, 1); (3, 2); (4, 3)]);
   (KRecv, 2, [(1, 1); (3, 2); (4, 3)]);
   (KRecv, 3, [(1, 1); (2, 2); (4, 3)]);
   (KRecv, 4, [(1, 1); (2, 2); (3, 3)])].
(** benches/mesh/empty/mpst/mesh_nine.rs:32-264,
    benches/mesh/normal/mpst/mesh_nine.rs:32-264. *)
Definition fns_34 : program := Program ["A"; "B"; "C"; "D"; "E"; "F"; "G"; "H"; "I"]
  [(KSend, 1, [(2, 1); (3, 2); (4, 3); (5, 4); (6, 5); (7, 6); (8, 7); (9, 8)]);
   (KSend, 2, [(1, 1); (3, 2); (4, 3); (5, 4); (6, 5); (7, 6); (8, 7); (9, 8)]);
   (KSend, 3, [(1, 1); (2, 2); (4, 3); (5, 4); (6, 5); (7, 6); (8, 7); (9, 8)]);
   (KSend, 4, [(1, 1); (2, 2); (3, 3); (5, 4); (6, 5); (7, 6); (8, 7); (9, 8)]);
   (KSend, 5, [(1, 1); (2, 2); (3, 3); (4, 4); (6, 5); (7, 6); (8, 7); (9, 8)]);
   (KSend, 6, [(1, 1); (2, 2); (3, 3); (4, 4); (5, 5); (7, 6); (8, 7); (9, 8)]);
   (KSend, 7, [(1, 1); (2, 2); (3, 3); (4, 4); (5, 5); (6, 6); (8, 7); (9, 8)]);
   (KSend, 8, [(1, 1); (2, 2); (3, 3); (4, 4); (5, 5); (6, 6); (7, 7); (9, 8)]);
   (KSend, 9, [(1, 1); (2, 2); (3, 3); (4, 4); (5, 5); (6, 6); (7, 7); (8, 8)]);
   (KRecv, 1, [(2, 1); (3, 2); (4, 3); (5, 4); (6, 5); (7, 6); (8, 7); (9, 8)]);
   (KRecv, 2, [(1, 1); (3, 2); (4, 3); (5, 4); (6, 5); (7, 6); (8, 7); (9, 8)]);
   (KRecv, 3, [(1, 1); (2, 2); (4, 3); (5, 4); (6, 5); (7, 6); (8, 7); (9, 8)]);
   (KRecv, 4, [(1, 1); (2, 2); (3, 3); (5, 4); (6, 5); (7, 6); (8, 7); (9, 8)]);
   (KRecv, 5, [(1, 1); (2, 2); (3, 3); (4, 4); (6, 5); (7, 6); (8, 7); (9, 8)]);
   (KRecv, 6, [(1, 1); (2, 2); (3, 3); (4, 4); (5, 5); (7, 6); (8, 7); (9, 8)]);
   (KRecv, 7, [(1, 1); (2, 2); (3, 3); (4, 4); (5, 5); (6, 6); (8, 7); (9, 8)]);
   (KRecv, 8, [(1, 1); (2, 2); (3, 3); (4, 4); (5, 5); (6, 6); (7, 7); (9, 8)]);
   (KRecv, 9, [(1, 1); (2, 2); (3, 3); (4, 4); (5, 5); (6, 6); (7, 7); (8, 8)])].
(** benches/mesh/empty/mpst/mesh_seven.rs:32-184,
    benches/mesh/normal/mpst/mesh_seven.rs:32-184. *)
Definition fns_35 : program := Program ["A"; "B"; "C"; "D"; "E"; "F"; "G"]
  [(KSend, 1, [(2, 1); (3, 2); (4, 3); (5, 4); (6, 5); (7, 6)]);
   (KSend, 2, [(1, 1); (3, 2); (4, 3); (5, 4); (6, 5); (7, 6)]);
   (KSend, 3, [(1, 1); (2, 2); (4, 3); (5, 4); (6, 5); (7, 6)]);
   (KSend, 4, [(1, 1); (2, 2); (3, 3); (5, 4); (6, 5); (7, 6)]);
   (KSend, 5, [(1, 1); (2, 2); (3, 3); (4, 4); (6, 5); (7, 6)]);
   (KSend, 6, [(1, 1); (2, 2); (3, 3); (4, 4); (5, 5); (7, 6)]);
   (KSend, 7, [(1, 1); (2, 2); (3, 3); (4, 4); (5, 5); (6, 6)]);
   (KRecv, 1, [(2, 1); (3, 2); (4, 3); (5, 4); (6, 5); (7, 6)]);
   (KRecv, 2, [(1, 1); (3, 2); (4, 3); (5, 4); (6, 5); (7, 6)]);
   (KRecv, 3, [(1, 1); (2, 2); (4, 3); (5, 4); (6, 5); (7, 6)]);
   (KRecv, 4, [(1, 1); (2, 2); (3, 3); (5, 4); (6, 5); (7, 6)]);
   (KRecv, 5, [(1, 1); (2, 2); (3, 3); (4, 4); (6, 5); (7, 6)]);
   (KRecv, 6, [(1, 1); (2, 2); (3, 3); (4, 4); (5, 5); (7, 6)]);
   (KRecv, 7, [(1, 1); (2, 2); (3, 3); (4, 4); (5, 5); (6, 6)])].
(** benches/mesh/empty/mpst/mesh_six.rs:32-150,
    benches/mesh/normal/mpst/mesh_six.rs:32-150. *)
Definition fns_36 : program := Program ["A"; "B"; "C"; "D"; "E"; "F"]
  [(KSend, 1, [(2, 1); (3, 2); (4, 3); (5, 4); (6, 5)]);
   (KSend, 2, [(1, 1); (3, 2); (4, 3); (5, 4); (6, 5)]);
   (KSend, 3, [(1, 1); (2, 2); (4, 3); (5, 4); (6, 5)]);
   (KSend, 4, [(1, 1); (2, 2); (3, 3); (5, 4); (6, 5)]);
   (KSend, 5, [(1, 1); (2, 2); (3, 3); (4, 4); (6, 5)]);
   (KSend, 6, [(1, 1); (2, 2); (3, 3); (4, 4); (5, 5)]);
   (KRecv, 1, [(2, 1); (3, 2); (4, 3); (5, 4); (6, 5)]);
   (KRecv, 2, [(1, 1); (3, 2); (4, 3); (5, 4); (6, 5)]);
   (KRecv, 3, [(1, 1); (2, 2); (4, 3); (5, 4); (6, 5)]);
   (KRecv, 4, [(1, 1); (2, 2); (3, 3); (5, 4); (6, 5)]);
   (KRecv, 5, [(1, 1); (2, 2); (3, 3); (4, 4); (6, 5)]);
   (KRecv, 6, [(1, 1); (2, 2); (3, 3); (4, 4); (5, 5)])].
(** benches/mesh/empty/mpst/mesh_ten.rs:32-310,
    benches/mesh/normal/mpst/mesh_ten.rs:32-310. *)
Definition fns_37 : program := Program ["A"; "B"; "C"; "D"; "E"; "F"; "G"; "H"; "I"; "J"]
  [(KSend, 1, [(2, 1); (3, 2); (4, 3); (5, 4); (6, 5); (7, 6); (8, 7); (9, 8); (10, 9)]);
   (KSend, 2, [(1, 1); (3, 2); (4, 3); (5, 4); (6, 5); (7, 6); (8, 7); (9, 8); (10, 9)]);
   (KSend, 3, [(1, 1); (2, 2); (4, 3); (5, 4); (6, 5); (7, 6); (8, 7); (9, 8); (10, 9)]);
   (KSend, 4, [(1, 1); (2, 2); (3, 3); (5, 4); (6, 5); (7, 6); (8, 7); (9, 8); (10, 9)]);
   (KSend, 5, [(1, 1); (2, 2); (3, 3); (4, 4); (6, 5); (7, 6); (8, 7); (9, 8); (10, 9)]);
   (KSend, 6, [(1, 1); (2, 2); (3, 3); (4, 4); (5, 5); (7, 6); (8, 7); (9, 8); (10, 9)]);
   (KSend, 7, [(1, 1); (2, 2); (3, 3); (4, 4); (5, 5); (6, 6); (8, 7); (9, 8); (10, 9)]);
   (KSend, 8, [(1, 1); (2, 2); (3, 3); (4, 4); (5, 5); (6, 6); (7, 7); (9, 8); (10, 9)]);
   (KSend, 9, [(1, 1); (2, 2); (3, 3); (4, 4); (5, 5); (6, 6); (7, 7); (8, 8); (10, 9)]);
   (KSend, 10, [(1, 1); (2, 2); (3, 3); (4, 4); (5, 5); (6, 6); (7, 7); (8, 8); (9, 9)]);
   (KRecv, 1, [(2, 1); (3, 2); (4, 3); (5, 4); (6, 5); (7, 6); (8, 7); (9, 8); (10, 9)]);
   (KRecv, 2, [(1, 1); (3, 2); (4, 3); (5, 4); (6, 5); (7, 6); (8, 7); (9, 8); (10, 9)]);
   (KRecv, 3, [(1, 1); (2, 2); (4, 3); (5, 4); (6, 5); (7, 6); (8, 7); (9, 8); (10, 9)]);
   (KRecv, 4, [(1, 1); (2, 2); (3, 3); (5, 4); (6, 5); (7, 6); (8, 7); (9, 8); (10, 9)]);
   (KRecv, 5, [(1, 1); (2, 2); (3, 3); (4, 4); (6, 5); (7, 6); (8, 7); (9, 8); (10, 9)]);
   (KRecv, 6, [(1, 1); (2, 2); (3, 3); (4, 4); (5, 5); (7, 6); (8, 7); (9, 8); (10, 9)]);
   (KRecv, 7, [(1, 1); (2, 2); (3, 3); (4, 4); (5, 5); (6, 6); (8, 7); (9, 8); (10, 9)]);
   (KRecv, 8, [(1, 1); (2, 2); (3, 3); (4, 4); (5, 5); (6, 6); (7, 7); (9, 8); (10, 9)]);
   (KRecv, 9, [(1, 1); (2, 2); (3, 3); (4, 4); (5, 5); (6, 6); (7, 7); (8, 8); (10, 9)]);
   (KRecv, 10, [(1, 1); (2, 2); (3, 3); (4, 4); (5, 5); (6, 6); (7, 7); (8, 8); (9, 9)])].
(** benches/mesh/empty/mpst/mesh_three.rs:32-72,
    benches/mesh/normal/mpst/mesh_three.rs:32-72. *)
Definition fns_38 : program := Program ["A"; "B"; "C"]
  [(KSend, 1, [(2, 1); (3, 2)]);
   (KSend, 2, [(1, 1); (3, 2)]);
   (KSend, 3, [(1, 1); (2, 2)]);
   (KRecv, 1, [(2, 1); (3, 2)]);
   (KRecv, 2, [(1, 1); (3, 2)]);
   (KRecv, 3, [(1, 1); (2, 2)])].
(** benches/mesh/empty/mpst/mesh_twenty.rs:32-990,
    benches/mesh/normal/mpst/mesh_twenty.rs:32-990. *)
Definition fns_39 : program := Program ["A"; "B"; "C"; "D"; "E"; "F"; "G"; "H"; "I"; "J"; "K"; "L"; "M"; "N"; "O"; "P"; "Q"; "R"; "S"; "T"]
  [(KSend, 1, [(2, 1); (3, 2); (4, 3); (5, 4); (6, 5); (7, 6); (8, 7); (9, 8); (10, 9); (11, 10); (12, 11); (13, 12); (14, 13); (15, 14); (16, 15); (17, 16); (18, 17); (19, 18); (20, 19)]);
   (KSend, 2, [(1, 1); (3, 2); (4, 3); (5, 4); (6, 5); (7, 6); (8, 7); (9, 8); (10, 9); (11, 10); (12, 11); (13, 12); (14, 13); (15, 14); (16, 15); (17, 16); (18, 17); (19, 18); (20, 19)]);
   (KSend, 3, [(1, 1); (2, 2); (4, 3); (5, 4); (6, 5); (7, 6); (8, 7); (9, 8); (10, 9); (11, 10); (12, 11); (13, 12); (14, 13); (15, 14); (16, 15); (17, 16); (18, 17); (19, 18); (20, 19)]);
   (KSend, 4, [(1, 1); (2, 2); (3, 3); (5, 4); (6, 5); (7, 6); (8, 7); (9, 8); (10, 9); (11, 10); (12, 11); (13, 12); (14, 13); (15, 14); (16, 15); (17, 16); (18, 17); (19, 18); (20, 19)]);
   (KSend, 5, [(1, 1); (2, 2); (3, 3); (4, 4); (6, 5); (7, 6); (8, 7); (9, 8); (10, 9); (11, 10); (12, 11); (13, 12); (14, 13); (15, 14); (16, 15); (17, 16); (18, 17); (19, 18); (20, 19)]);
   (KSend, 6, [(1, 1); (2, 2); (3, 3); (4, 4); (5, 5); (7, 6); (8, 7); (9, 8); (10, 9); (11, 10); (12, 11); (13, 12); (14, 13); (15, 14); (16, 15); (17, 16); (18, 17); (19, 18); (20, 19)]);
   (KSend, 7, [(1, 1); (2, 2); (3, 3); (4, 4); (5, 5); (6, 6); (8, 7); (9, 8); (10, 9); (11, 10); (12, 11); (13, 12); (14, 13); (15, 14); (16, 15); (17, 16); (18, 17); (19, 18); (20, 19)]);
   (KSend, 8, [(1, 1); (2, 2); (3, 3); (4, 4); (5, 5); (6, 6); (7, 7); (9, 8); (10, 9); (11, 10); (12, 11); (13, 12); (14, 13); (15, 14); (16, 15); (17, 16); (18, 17); (19, 18); (20, 19)]);
   (KSend, 9, [(1, 1); (2, 2); (3, 3); (4, 4); (5, 5); (6, 6); (7, 7); (8, 8); (10, 9); (11, 10); (12, 11); (13, 12); (14, 13); (15, 14); (16, 15); (17, 16); (18, 17); (19, 18); (20, 19)]);
   (KSend, 10, [(1, 1); (2, 2); (3, 3); (4, 4); (5, 5); (6, 6); (7, 7); (8, 8); (9, 9); (11, 10); (12, 11); (13, 12); (14, 13); (15, 14); (16, 15); (17, 16); (18, 17); (19, 18); (20, 19)]);
   (KSend, 11, [(1, 1); (2, 2); (3, 3); (4, 4); (5, 5); (6, 6); (7, 7); (8, 8); (9, 9); (10, 10); (12, 11); (13, 12); (14, 13); (15, 14); (16, 15); (17, 16); (18, 17); (19, 18); (20, 19)]);
   (KSend, 12, [(1, 1); (2, 2); (3, 3); (4, 4); (5, 5); (6, 6); (7, 7); (8, 8); (9, 9); (10, 10); (11, 11); (13, 12); (14, 13); (15, 14); (16, 15); (17, 16); (18, 17); (19, 18); (20, 19)]);
   (KSend, 13, [(1, 1); (2, 2); (3, 3); (4, 4); (5, 5); (6, 6); (7, 7); (8, 8); (9, 9); (10, 10); (11, 11); (12, 12); (14, 13); (15, 14); (16, 15); (17, 16); (18, 17); (19, 18); (20, 19)]);
   (KSend, 14, [(1, 1); (2, 2); (3, 3); (4, 4); (5, 5); (6, 6); (7, 7); (8, 8); (9, 9); (10, 10); (11, 11); (12, 12); (13, 13); (15, 14); (16, 15); (17, 16); (18, 17); (19, 18); (20, 19)]);
   (KSend, 15, [(1, 1); (2, 2); (3, 3); (4, 4); (5, 5); (6, 6); (7, 7); (8, 8); (9, 9); (10, 10); (11, 11); (12, 12); (13, 13); (14, 14); (16, 15); (17, 16); (18, 17); (19, 18); (20, 19)]);
   (KSend, 16, [(1, 1); (2, 2); (3, 3); (4, 4); (5, 5); (6, 6); (7, 7); (8, 8); (9, 9); (10, 10); (11, 11); (12, 12); (13, 13); (14, 14); (15, 15); (17, 16); (18, 17); (19, 18); (20, 19)]);
   (KSend, 17, [(1, 1); (2, 2); (3, 3); (4, 4); (5, 5); (6, 6); (7, 7); (8, 8); (9, 9); (10, 10); (11, 11); (12, 12); (13, 13); (14, 14); (15, 15); (16, 16); (18, 17); (19, 18); (20, 19)]);
   (KSend, 18, [(1, 1); (2, 2); (3, 3); (4, 4); (5, 5); (6, 6); (7, 7); (8, 8); (9, 9); (10, 10); (11, 11); (12, 12); (13, 13); (14, 14); (15, 15); (16, 16); (17, 17); (19, 18); (20, 19)]);
   (KSend, 19, [(1, 1); (2, 2); (3, 3); (4, 4); (5, 5); (6, 6); (7, 7); (8, 8); (9, 9); (10, 10); (11, 11); (12, 12); (13, 13); (14, 14); (15, 15); (16, 16); (17, 17); (18, 18); (20, 19)]);
   (KSend, 20, [(1, 1); (2, 2); (3, 3); (4, 4); (5, 5); (6, 6); (7, 7); (8, 8); (9, 9); (10, 10); (11, 11); (12, 12); (13, 13); (14, 14); (15, 15); (16, 16); (17, 17); (18, 18); (19, 19)]);
   (KRecv, 1, [(2, 1); (3, 2); (4, 3); (5, 4); (6, 5); (7, 6); (8, 7); (9, 8); (10, 9); (11, 10); (12, 11); (13, 12); (14, 13); (15, 14); (16, 15); (17, 16); (18, 17); (19, 18); (20, 19)]);
   (KRecv, 2, [(1, 1); (3, 2); (4, 3); (5, 4); (6, 5); (7, 6); (8, 7); (9, 8); (10, 9); (11, 10); (12, 11); (13, 12); (14, 13); (15, 14); (16, 15); (17, 16); (18, 17); (19, 18); (20, 19)]);
   (KRecv, 3, [(1, 1); (2, 2); (4, 3); (5, 4); (6, 5); (7, 6); (8, 7); (9, 8); (10, 9); (11, 10); (12, 11); (13, 12); (14, 13); (15, 14); (16, 15); (17, 16); (18, 17); (19, 18); (20, 19)]);
   (KRecv, 4, [(1, 1); (2, 2); (3, 3); (5, 4); (6, 5); (7, 6); (8, 7); (9, 8); (10, 9); (11, 10); (12, 11); (13, 12); (14, 13); (15, 14); (16, 15); (17, 16); (18, 17); (19, 18); (20, 19)]);
   (KRecv, 5, [(1, 1); (2, 2); (3, 3); (4, 4); (6, 5); (7, 6); (8, 7); (9, 8); (10, 9); (11, 10); (12, 11); (13, 12); (14, 13); (15, 14); (16, 15); (17, 16); (18, 17); (19, 18); (20, 19)]);
   (KRecv, 6, [(1, 1); (2, 2); (3, 3); (4, 4); (5, 5); (7, 6); (8, 7); (9, 8); (10, 9); (11, 10); (12, 11); (13, 12); (14, 13); (15, 14); (16, 15); (17, 16); (18, 17); (19, 18); (20, 19)]);
   (KRecv, 7, [(1, 1); (2, 2); (3, 3); (4, 4); (5, 5); (6, 6); (8, 7); (9, 8); (10, 9); (11, 10); (12, 11); (13, 12); (14, 13); (15, 14); (16, 15); (17, 16); (18, 17); (19, 18); (20, 19)]);
   (KRecv, 8, [(1, 1); (2, 2); (3, 3); (4, 4); (5, 5); (6, 6); (7, 7); (9, 8); (10, 9); (11, 10); (12, 11); (13, 12); (14, 13); (15, 14); (16, 15); (17, 16); (18, 17); (19, 18); (20, 19)]);
   (KRecv, 9, [(1, 1); (2, 2); (3, 3); (4, 4); (5, 5); (6, 6); (7, 7); (8, 8); (10, 9); (11, 10); (12, 11); (13, 12); (14, 13); (15, 14); (16, 15); (17, 16); (18, 17); (19, 18); (20, 19)]);
   (KRecv, 10, [(1, 1); (2, 2); (3, 3); (4, 4); (5, 5); (6, 6); (7, 7); (8, 8); (9, 9); (11, 10); (12, 11); (13, 12); (14, 13); (15, 14); (16, 15); (17, 16); (18, 17); (19, 18); (20, 19)]);
   (KRecv, 11, [(1, 1); (2, 2); (3, 3); (4, 4); (5, 5); (6, 6); (7, 7); (8, 8); (9, 9); (10, 10); (12, 11); (13, 12); (14, 13); (15, 14); (16, 15); (17, 16); (18, 17); (19, 18); (20, 19)]);
   (KRecv, 12, [(1, 1); (2, 2); (3, 3); (4, 4); (5, 5); (6, 6); (7, 7); (8, 8); (9, 9); (10, 10); (11, 11); (13, 12); (14, 13); (15, 14); (16, 15); (17, 16); (18, 17); (19, 18); (20, 19)]);
   (KRecv, 13, [(1, 1); (2, 2); (3, 3); (4, 4); (5, 5); (6, 6); (7, 7); (8, 8); (9, 9); (10, 10); (11, 11); (12, 12); (14, 13); (15, 14); (16, 15); (17, 16); (18, 17); (19, 18); (20, 19)]);
   (KRecv, 14, [(1, 1); (2, 2); (3, 3); (4, 4); (5, 5); (6, 6); (7, 7); (8, 8); (9, 9); (10, 10); (11, 11); (12, 12); (13, 13); (15, 14); (16, 15); (17, 16); (18, 17); (19, 18); (20, 19)]);
   (KRecv, 15, [(1, 1); (2, 2); (3, 3); (4, 4); (5, 5); (6, 6); (7, 7); (8, 8); (9, 9); (10, 10); (11, 11); (12, 12); (13, 13); (14, 14); (16, 15); (17, 16); (18, 17); (19, 18); (20, 19)]);
   (KRecv, 16, [(1, 1); (2, 2); (3, 3); (4, 4); (5, 5); (6, 6); (7, 7); (8, 8); (9, 9); (10, 10); (11, 11); (12, 12); (13, 13); (14, 14); (15, 15); (17, 16); (18, 17); (19, 18); (20, 19)]);
   (KRecv, 17, [(1, 1); (2, 2); (3, 3); (4, 4); (5, 5); (6, 6); (7, 7); (8, 8); (9, 9); (10, 10); (11, 11); (12, 12); (13, 13); (14, 14); (15, 15); (16, 16); (18, 17); (19, 18); (20, 19)]);
   (KRecv, 18, [(1, 1); (2, 2); (3, 3); (4, 4); (5, 5); (6, 6); (7, 7); (8, 8); (9, 9); (10, 10); (11, 11); (12, 12); (13, 13); (14, 14); (15, 15); (16, 16); (17, 17); (19, 18); (20, 19)]);
   (KRecv, 19, [(1, 1); (2, 2); (3, 3); (4, 4); (5, 5); (6, 6); (7, 7); (8, 8); (9, 9); (10, 10); (11, 11); (12, 12); (13, 13); (14, 14); (15, 15); (16, 16); (17, 17); (18, 18); (20, 19)]);
   (KRecv, 20, [(1, 1); (2, 2); (3, 3); (4, 4); (5, 5); (6, 6); (7, 7); (8, 8); (9, 9); (10, 10); (11, 11); (12, 12); (13, 13); (14, 14); (15, 15); (16, 16); (17, 17); (18, 18); (19, 19)])].
(** benches/ping_pong_save/ping_pong_cancel_broadcast_1.rs:31-53,
    examples/ping_pong_save/ping_pong_cancel_broadcast_1.rs:29-51,
    tests/cancel_mod/cancel_14.rs:31-53. *)
Definition fns_40 : program := Program ["Broadcaster"; "A"; "B"]
  [(KCheck, 2, [(3, 2)]);
   (KCheck, 3, [(2, 2)]);
   (KRecv, 2, [(3, 2)]);
   (KRecv, 3, [(2, 2)])].
(** benches/ring/cancel/ring_eight.rs:32-144,
    examples/ring/ring_eight_cancel.rs:26-138. *)
Definition fns_41 : program := Program ["A"; "B"; "C"; "D"; "E"; "F"; "G"; "H"]
  [(KCancel, 1, [(2, 1)]);
   (KCancel, 2, [(1, 1); (3, 2)]);
   (KCancel, 3, [(2, 2); (4, 3)]);
   (KCancel, 4, [(3, 3); (5, 4)]);
   (KCancel, 5, [(4, 4); (6, 5)]);
   (KCancel, 6, [(5, 5); (7, 6)]);
   (KCancel, 7, [(6, 6); (8, 7)]);
   (KCancel, 8, [(7, 7)]);
   (KRecv, 1, [(2, 1); (8, 7)]);
   (KRecv, 2, [(1, 1); (3, 2); (8, 7)]);
   (KRecv, 3, [(2, 2); (4, 3); (8, 7)]);
   (KRecv, 4, [(3, 3); (5, 4); (8, 7)]);
   (KRecv, 5, [(4, 4); (6, 5); (8, 7)]);
   (KRecv, 6, [(5, 5); (7, 6); (8, 7)]);
   (KRecv, 7, [(6, 6); (8, 7)]);
   (KRecv, 8, [(7, 7)])].
(** benches/ring/cancel/ring_eleven.rs:32-189,
    examples/ring/ring_eleven_cancel.rs:26-183. *)
Definition fns_42 : program := Program ["A"; "B"; "C"; "D"; "E"; "F"; "G"; "H"; "I"; "J"; "K"]
  [(KCancel, 1, [(2, 1)]);
   (KCancel, 2, [(1, 1); (3, 2)]);
   (KCancel, 3, [(2, 2); (4, 3)]);
   (KCancel, 4, [(3, 3); (5, 4)]);
   (KCancel, 5, [(4, 4); (6, 5)]);
   (KCancel, 6, [(5, 5); (7, 6)]);
   (KCancel, 7, [(6, 6); (8, 7)]);
   (KCancel, 8, [(7, 7); (9, 8)]);
   (KCancel, 9, [(8, 8); (10, 9)]);
   (KCancel, 10, [(9, 9); (11, 10)]);
   (KCancel, 11, [(10, 10)]);
   (KRecv, 1, [(2, 1); (11, 10)]);
   (KRecv, 2, [(1, 1); (3, 2); (11, 10)]);
   (KRecv, 3, [(2, 2); (4, 3); (11, 10)]);
   (KRecv, 4, [(3, 3); (5, 4); (11, 10)]);
   (KRecv, 5, [(4, 4); (6, 5); (11, 10)]);
   (KRecv, 6, [(5, 5); (7, 6); (11, 10)]);
   (KRecv, 7, [(6, 6); (8, 7); (11, 10)]);
   (KRecv, 8, [(7, 7); (9, 8); (11, 10)]);
   (KRecv, 9, [(8, 8); (10, 9); (11, 10)]);
   (KRecv, 10, [(9, 9); (11, 10)]);
   (KRecv, 11, [(10, 10)])].
(** benches/ring/cancel/ring_five.rs:32-99,
    examples/ring/ring_five_cancel.rs:26-93. *)
Definition fns_43 : program := Program ["A"; "B"; "C"; "D"; "E"]
  [(KCancel, 1, [(2, 1)]);
   (KCancel, 2, [(1, 1); (3, 2)]);
   (KCancel, 3, [(2, 2); (4, 3)]);
   (KCancel, 4, [(3, 3); (5, 4)]);
   (KCancel, 5, [(4, 4)]);
   (KRecv, 1, [(2, 1); (5, 4)]);
   (KRecv, 2, [(1, 1); (3, 2); (5, 4)]);
   (KRecv, 3, [(2, 2); (4, 3); (5, 4)]);
   (KRecv, 4, [(3, 3); (5, 4)]);
   (KRecv, 5, [(4, 4)])].
(** benches/ring/cancel/ring_four.rs:32-84,
    examples/ring/ring_four_cancel.rs:26-78. *)
Definition fns_44 : program := Program ["A"; "B"; "C"; "D"]
  [(KCancel, 1, [(2, 1)]);
   (KCancel, 2, [(1, 1); (3, 2)]);
   (KCancel, 3, [(2, 2); (4, 3)]);
   (KCancel, 4, [(3, 3)]);
   (KRecv, 1, [(2, 1); (4, 3)]);
   (KRecv, 2, [(1, 1); (3, 2); (4, 3)]);
   (KRecv, 3, [(2, 2); (4, 3)]);
   (KRecv, 4, [(3, 3)])].
(** benches/ring/cancel/ring_nine.rs:32-159,
    examples/ring/ring_nine_cancel.rs:26-153. *)
Definition fns_45 : program := Program ["A"; "B"; "C"; "D"; "E"; "F"; "G"; "H"; "I"]
  [(KCancel, 1, [(2, 1)]);
   (KCancel, 2, [(1, 1); (3, 2)]);
   (KCancel, 3, [(2, 2); (4, 3)]);
   (KCancel, 4, [(3, 3); (5, 4)]);
   (KCancel, 5, [(4, 4); (6, 5)]);
   (KCancel, 6, [(5, 5); (7, 6)]);
   (KCancel, 7, [(6, 6); (8, 7)]);
   (KCancel, 8, [(7, 7); (9, 8)]);
   (KCancel, 9, [(8, 8)]);
   (KRecv, 1, [(2, 1); (9, 8)]);
   (KRecv, 2, [(1, 1); (3, 2); (9, 8)]);
   (KRecv, 3, [(2, 2); (4, 3); (9, 8)]);
   (KRecv, 4, [(3, 3); (5, 4); (9, 8)]);
   (KRecv, 5, [(4, 4); (6, 5); (9, 8)]);
   (KRecv, 6, [(5, 5); (7, 6); (9, 8)]);
   (KRecv, 7, [(6, 6); (8, 7); (9, 8)]);
   (KRecv, 8, [(7, 7); (9, 8)]);
   (KRecv, 9, [(8, 8)])].
(** benches/ring/cancel/ring_seven.rs:32-129,
    examples/ring/ring_seven_cancel.rs:26-123. *)
Definition fns_46 : program := Program ["A"; "B"; "C"; "D"; "E"; "F"; "G"]
  [(KCancel, 1, [(2, 1)]);
   (KCancel, 2, [(1, 1); (3, 2)]);
   (KCancel, 3, [(2, 2); (4, 3)]);
   (KCancel, 4, [(3, 3); (5, 4)]);
   (KCancel, 5, [(4, 4); (6, 5)]);
   (KCancel, 6, [(5, 5); (7, 6)]);
   (KCancel, 7, [(6, 6)]);
   (KRecv, 1, [(2, 1); (7, 6)]);
   (KRecv, 2, [(1, 1); (3, 2); (7, 6)]);
   (KRecv, 3, [(2, 2); (4, 3); (7, 6)]);
   (KRecv, 4, [(3, 3); (5, 4); (7, 6)]);
   (KRecv, 5, [(4, 4); (6, 5); (7, 6)]);
   (KRecv, 6, [(5, 5); (7, 6)]);
   (KRecv, 7, [(6, 6)])].
(** benches/ring/cancel/ring_six.rs:32-114,
    examples/ring/ring_six_cancel.rs:26-108. *)
Definition fns_47 : program := Program ["A"; "B"; "C"; "D"; "E"; "F"]
  [(KCancel, 1, [(2, 1)]);
   (KCancel, 2, [(1, 1); (3, 2)]);
   (KCancel, 3, [(2, 2); (4, 3)]);
   (KCancel, 4, [(3, 3); (5, 4)]);
   (KCancel, 5, [(4, 4); (6, 5)]);
   (KCancel, 6, [(5, 5)]);
   (KRecv, 1, [(2, 1); (6, 5)]);
   (KRecv, 2, [(1, 1); (3, 2); (6, 5)]);
   (KRecv, 3, [(2, 2); (4, 3); (6, 5)]);
   (KRecv, 4, [(3, 3); (5, 4); (6, 5)]);
   (KRecv, 5, [(4, 4); (6, 5)]);
   (KRecv, 6, [(5, 5)])].
(** benches/ring/cancel/ring_ten.rs:32-174,
    examples/ring/ring_ten_cancel.rs:26-168. *)
Definition fns_48 : program := Program ["A"; "B"; "C"; "D"; "E"; "F"; "G"; "H"; "I"; "J"]
  [(KCancel, 1, [(2, 1)]);
   (KCancel, 2, [(1, 1); (3, 2)]);
   (KCancel, 3, [(2, 2); (4, 3)]);
   (KCancel, 4, [(3, 3); (5, 4)]);
   (KCancel, 5, [(4, 4); (6, 5)]);
   (KCancel, 6, [(5, 5); (7, 6)]);
   (KCancel, 7, [(6, 6); (8, 7)]);
   (KCancel, 8, [(7, 7); (9, 8)]);
   (KCancel, 9, [(8, 8); (10, 9)]);
   (KCancel, 10, [(9, 9)]);
   (KRecv, 1, [(2, 1); (10, 9)]);
   (KRecv, 2, [(1, 1); (3, 2); (10, 9)]);
   (KRecv, 3, [(2, 2); (4, 3); (10, 9)]);
   (KRecv, 4, [(3, 3); (5, 4); (10, 9)]);
   (KRecv, 5, [(4, 4); (6, 5); (10, 9)]);
   (KRecv, 6, [(5, 5); (7, 6); (10, 9)]);
   (KRecv, 7, [(6, 6); (8, 7); (10, 9)]);
   (KRecv, 8, [(7, 7); (9, 8); (10, 9)]);
   (KRecv, 9, [(8, 8); (10, 9)]);
   (KRecv, 10, [(9, 9)])].
(** benches/ring/cancel/ring_three.rs:32-69,
    examples/ring/ring_three_cancel.rs:26-63. *)
Definition fns_49 : program := Program ["A"; "B"; "C"]
  [(KCancel, 1, [(2, 1)]);
   (KCancel, 2, [(1, 1); (3, 2)]);
   (KCancel, 3, [(2, 2)]);
   (KRecv, 1, [(2, 1); (3, 2)]);
   (KRecv, 2, [(1, 1); (3, 2)]);
   (KRecv, 3, [(2, 2)])].
(** benches/ring/cancel/ring_twenty.rs:32-324,
    examples/ring/ring_twenty_cancel.rs:26-318. *)
Definition fns_50 : program := Program ["A"; "B"; "C"; "D"; "E"; "F"; "G"; "H"; "I"; "J"; "K"; "L"; "M"; "N"; "O"; "P"; "Q"; "R"; "S"; "T"]
  [(KCancel, 1, [(2, 1)]);
   (KCancel, 2, [(1, 1); (3, 2)]);
   (KCancel, 3, [(2, 2); (4, 3)]);
   (KCancel, 4, [(3, 3); (5, 4)]);
   (KCancel, 5, [(4, 4); (6, 5)]);
   (KCancel, 6, [(5, 5); (7, 6)]);
   (KCancel, 7, [(6, 6); (8, 7)]);
   (KCancel, 8, [(7, 7); (9, 8)]);
   (KCancel, 9, [(8, 8); (10, 9)]);
   (KCancel, 10, [(9, 9); (11, 10)]);
   (KCancel, 11, [(10, 10); (12, 11)]);
   (KCancel, 12, [(11, 11); (13, 12)]);
   (KCancel, 13, [(12, 12); (14, 13)]);
   (KCancel, 14, [(13, 13); (15, 14)]);
   (KCancel, 15, [(14, 14); (16, 15)]);
   (KCancel, 16, [(15, 15); (17, 16)]);
   (KCancel, 17, [(16, 16); (18, 17)]);
   (KCancel, 18, [(17, 17); (19, 18)]);
   (KCancel, 19, [(18, 18); (20, 19)]);
   (KCancel, 20, [(19, 19)]);
   (KRecv, 1, [(2, 1); (20, 19)]);
   (KRecv, 2, [(1, 1); (3, 2); (20, 19)]);
   (KRecv, 3, [(2, 2); (4, 3); (20, 19)]);
   (KRecv, 4, [(3, 3); (5, 4); (20, 19)]);
   (KRecv, 5, [(4, 4); (6, 5); (20, 19)]);
   (KRecv, 6, [(5, 5); (7, 6); (20, 19)]);
   (KRecv, 7, [(6, 6); (8, 7); (20, 19)]);
   (KRecv, 8, [(7, 7); (9, 8); (20, 19)]);
   (KRecv, 9, [(8, 8); (10, 9); (20, 19)]);
   (KRecv, 10, [(9, 9); (11, 10); (20, 19)]);
   (KRecv, 11, [(10, 10); (12, 11); (20, 19)]);
   (KRecv, 12, [(11, 11); (13, 12); (20, 19)]);
   (KRecv, 13, [(12, 12); (14, 13); (20, 19)]);
   (KRecv, 14, [(13, 13); (15, 14); (20, 19)]);
   (KRecv, 15, [(14, 14); (16, 15); (20, 19)]);
   (KRecv, 16, [(15, 15); (17, 16); (20, 19)]);
   (KRecv, 17, [(16, 16); (18, 17); (20, 19)]);
   (KRecv, 18, [(17, 17); (19, 18); (20, 19)]);
   (KRecv, 19, [(18, 18); (20, 19)]);
   (KRecv, 20, [(19, 19)])].
(** benches/ring/cancel_broadcast/ring_eight.rs:33-145,
    examples/ring/ring_eight_broadcast_cancel.rs:26-138. *)
Definition fns_51 : program := Program ["Broadcaster"; "A"; "B"; "C"; "D"; "E"; "F"; "G"; "H"]
  [(KCheck, 2, [(3, 2)]);
   (KCheck, 3, [(2, 2); (4, 3)]);
   (KCheck, 4, [(3, 3); (5, 4)]);
   (KCheck, 5, [(4, 4); (6, 5)]);
   (KCheck, 6, [(5, 5); (7, 6)]);
   (KCheck, 7, [(6, 6); (8, 7)]);
   (KCheck, 8, [(7, 7); (9, 8)]);
   (KCheck, 9, [(8, 8)]);
   (KRecv, 2, [(3, 2); (9, 8)]);
   (KRecv, 3, [(2, 2); (4, 3); (9, 8)]);
   (KRecv, 4, [(3, 3); (5, 4); (9, 8)]);
   (KRecv, 5, [(4, 4); (6, 5); (9, 8)]);
   (KRecv, 6, [(5, 5); (7, 6); (9, 8)]);
   (KRecv, 7, [(6, 6); (8, 7); (9, 8)]);
   (KRecv, 8, [(7, 7); (9, 8)]);
   (KRecv, 9, [(8, 8)])].
(** benches/ring/cancel_broadcast/ring_eleven.rs:33-190,
    examples/ring/ring_eleven_broadcast_cancel.rs:26-183. *)
Definition fns_52 : program := Program ["Broadcaster"; "A"; "B"; "C"; "D"; "E"; "F"; "G"; "H"; "I"; "J"; "K"]
  [(KCheck, 2, [(3, 2)]);
   (KCheck, 3, [(2, 2); (4, 3)]);
   (KCheck, 4, [(3, 3); (5, 4)]);
   (KCheck, 5, [(4, 4); (6, 5)]);
   (KCheck, 6, [(5, 5); (7, 6)]);
   (KCheck, 7, [(6, 6); (8, 7)]);
   (KCheck, 8, [(7, 7); (9, 8)]);
   (KCheck, 9, [(8, 8); (10, 9)]);
   (KCheck, 10, [(9, 9); (11, 10)]);
   (KCheck, 11, [(10, 10); (12, 11)]);
   (KCheck, 12, [(11, 11)]);
   (KRecv, 2, [(3, 2); (12, 11)]);
   (KRecv, 3, [(2, 2); (4, 3); (12, 11)]);
   (KRecv, 4, [(3, 3); (5, 4); (12, 11)]);
   (KRecv, 5, [(4, 4); (6, 5); (12, 11)]);
   (KRecv, 6, [(5, 5); (7, 6); (12, 11)]);
   (KRecv, 7, [(6, 6); (8, 7); (12, 11)]);
   (KRecv, 8, [(7, 7); (9, 8); (12, 11)]);
   (KRecv, 9, [(8, 8); (10, 9); (12, 11)]);
   (KRecv, 10, [(9, 9); (11, 10); (12, 11)]);
   (KRecv, 11, [(10, 10); (12, 11)]);
   (KRecv, 12, [(11, 11)])].
(** benches/ring/cancel_broadcast/ring_five.rs:33-100,
    examples/ring/ring_five_broadcast_cancel.rs:26-93. *)
Definition fns_53 : program := Program ["Broadcaster"; "A"; "B"; "C"; "D"; "E"]
  [(KCheck, 2, [(3, 2)]);
   (KCheck, 3, [(2, 2); (4, 3)]);
   (KCheck, 4, [(3, 3); (5, 4)]);
   (KCheck, 5, [(4, 4); (6, 5)]);
   (KCheck, 6, [(5, 5)]);
   (KRecv, 2, [(3, 2); (6, 5)]);
   (KRecv, 3, [(2, 2); (4, 3); (6, 5)]);
   (KRecv, 4, [(3, 3); (5, 4); (6, 5)]);
   (KRecv, 5, [(4, 4); (6, 5)]);
   (KRecv, 6, [(5, 5)])].
(** benches/ring/cancel_broadcast/ring_four.rs:33-85,
    examples/ring/ring_four_broadcast_cancel.rs:26-78. *)
Definition fns_54 : program := Program ["Broadcaster"; "A"; "B"; "C"; "D"]
  [(KCheck, 2, [(3, 2)]);
   (KCheck, 3, [(2, 2); (4, 3)]);
   (KCheck, 4, [(3, 3); (5, 4)]);
   (KCheck, 5, [(4, 4)]);
   (KRecv, 2, [(3, 2); (5, 4)]);
   (KRecv, 3, [(2, 2); (4, 3); (5, 4)]);
   (KRecv, 4, [(3, 3); (5, 4)]);
   (KRecv, 5, [(4, 4)])].
(** benches/ring/cancel_broadcast/ring_nine.rs:33-160,
    examples/ring/ring_nine_broadcast_cancel.rs:26-153. *)
Definition fns_55 : program := Program ["Broadcaster"; "A"; "B"; "C"; "D"; "E"; "F"; "G"; "H"; "I"]
  [(KCheck, 2, [(3, 2)]);
   (KCheck, 3, [(2, 2); (4, 3)]);
   (KCheck, 4, [(3, 3); (5, 4)]);
   (KCheck, 5, [(4, 4); (6, 5)]);
   (KCheck, 6, [(5, 5); (7, 6)]);
   (KCheck, 7, [(6, 6); (8, 7)]);
   (KCheck, 8, [(7, 7); (9, 8)]);
   (KCheck, 9, [(8, 8); (10, 9)]);
   (KCheck, 10, [(9, 9)]);
   (KRecv, 2, [(3, 2); (10, 9)]);
   (KRecv, 3, [(2, 2); (4, 3); (10, 9)]);
   (KRecv, 4, [(3, 3); (5, 4); (10, 9)]);
   (KRecv, 5, [(4, 4); (6, 5); (10, 9)]);
   (KRecv, 6, [(5, 5); (7, 6); (10, 9)]);
   (KRecv, 7, [(6, 6); (8, 7); (10, 9)]);
   (KRecv, 8, [(7, 7); (9, 8); (10, 9)]);
   (KRecv, 9, [(8, 8); (10, 9)]);
   (KRecv, 10, [(9, 9)])].
(** benches/ring/cancel_broadcast/ring_seven.rs:33-130,
    examples/ring/ring_seven_broadcast_cancel.rs:26-123. *)
Definition fns_56 : program := Program ["Broadcaster"; "A"; "B"; "C"; "D"; "E"; "F"; "G"]
  [(KCheck, 2, [(3, 2)]);
   (KCheck, 3, [(2, 2); (4, 3)]);
   (KCheck, 4, [(3, 3); (5, 4)]);
   (KCheck, 5, [(4, 4); (6, 5)]);
   (KCheck, 6, [(5, 5); (7, 6)]);
   (KCheck, 7, [(6, 6); (8, 7)]);
   (KCheck, 8, [(7, 7)]);
   (KRecv, 2, [(3, 2); (8, 7)]);
   (KRecv, 3, [(2, 2); (4, 3); (8, 7)]);
   (KRecv, 4, [(3, 3); (5, 4); (8, 7)]);
   (KRecv, 5, [(4, 4); (6, 5); (8, 7)]);
   (KRecv, 6, [(5, 5); (7, 6); (8, 7)]);
   (KRecv, 7, [(6, 6); (8, 7)]);
   (KRecv, 8, [(7, 7)])].
(** benches/ring/cancel_broadcast/ring_six.rs:33-115,
    examples/ring/ring_six_broadcast_cancel.rs:26-108. *)
Definition fns_57 : program := Program ["Broadcaster"; "A"; "B"; "C"; "D"; "E"; "F"]
  [(KCheck, 2, [(3, 2)]);
   (KCheck, 3, [(2, 2); (4, 3)]);
   (KCheck, 4, [(3, 3); (5, 4)]);
   (KCheck, 5, [(4, 4); (6, 5)]);
   (KCheck, 6, [(5, 5); (7, 6)]);
   (KCheck, 7, [(6, 6)]);
   (KRecv, 2, [(3, 2); (7, 6)]);
   (KRecv, 3, [(2, 2); (4, 3); (7, 6)]);
   (KRecv, 4, [(3, 3); (5, 4); (7, 6)]);
   (KRecv, 5, [(4, 4); (6, 5); (7, 6)]);
   (KRecv, 6, [(5, 5); (7, 6)]);
   (KRecv, 7, [(6, 6)])].
(** benches/ring/cancel_broadcast/ring_ten.rs:33-175,
    examples/ring/ring_ten_broadcast_cancel.rs:26-168. *)
Definition fns_58 : program := Program ["Broadcaster"; "A"; "B"; "C"; "D"; "E"; "F"; "G"; "H"; "I"; "J"]
  [(KCheck, 2, [(3, 2)]);
   (KCheck, 3, [(2, 2); (4, 3)]);
   (KCheck, 4, [(3, 3); (5, 4)]);
   (KCheck, 5, [(4, 4); (6, 5)]);
   (KCheck, 6, [(5, 5); (7, 6)]);
   (KCheck, 7, [(6, 6); (8, 7)]);
   (KCheck, 8, [(7, 7); (9, 8)]);
   (KCheck, 9, [(8, 8); (10, 9)]);
   (KCheck, 10, [(9, 9); (11, 10)]);
   (KCheck, 11, [(10, 10)]);
   (KRecv, 2, [(3, 2); (11, 10)]);
   (KRecv, 3, [(2, 2); (4, 3); (11, 10)]);
   (KRecv, 4, [(3, 3); (5, 4); (11, 10)]);
   (KRecv, 5, [(4, 4); (6, 5); (11, 10)]);
   (KRecv, 6, [(5, 5); (7, 6); (11, 10)]);
   (KRecv, 7, [(6, 6); (8, 7); (11, 10)]);
   (KRecv, 8, [(7, 7); (9, 8); (11, 10)]);
   (KRecv, 9, [(8, 8); (10, 9); (11, 10)]);
   (KRecv, 10, [(9, 9); (11, 10)]);
   (KRecv, 11, [(10, 10)])].
(** benches/ring/cancel_broadcast/ring_three.rs:33-70,
    examples/ring/ring_three_broadcast_cancel.rs:27-64. *)
Definition fns_59 : program := Program ["Broadcaster"; "A"; "B"; "C"]
  [(KCheck, 2, [(3, 2)]);
   (KCheck, 3, [(2, 2); (4, 3)]);
   (KCheck, 4, [(3, 3)]);
   (KRecv, 2, [(3, 2); (4, 3)]);
   (KRecv, 3, [(2, 2); (4, 3)]);
   (KRecv, 4, [(3, 3)])].
(** benches/ring/cancel_broadcast/ring_twenty.rs:37-329,
    examples/ring/ring_twenty_broadcast_cancel.rs:30-322. *)
Definition fns_60 : program := Program ["Broadcaster"; "A"; "B"; "C"; "D"; "E"; "F"; "G"; "H"; "I"; "J"; "K"; "L"; "M"; "N"; "O"; "P"; "Q"; "R"; "S"; "T"]
  [(KCheck, 2, [(3, 2)]);
   (KCheck, 3, [(2, 2); (4, 3)]);
   (KCheck, 4, [(3, 3); (5, 4)]);
   (KCheck, 5, [(4, 4); (6, 5)]);
   (KCheck, 6, [(5, 5); (7, 6)]);
   (KCheck, 7, [(6, 6); (8, 7)]);
   (KCheck, 8, [(7, 7); (9, 8)]);
   (KCheck, 9, [(8, 8); (10, 9)]);
   (KCheck, 10, [(9, 9); (11, 10)]);
   (KCheck, 11, [(10, 10); (12, 11)]);
   (KCheck, 12, [(11, 11); (13, 12)]);
   (KCheck, 13, [(12, 12); (14, 13)]);
   (KCheck, 14, [(13, 13); (15, 14)]);
   (KCheck, 15, [(14, 14); (16, 15)]);
   (KCheck, 16, [(15, 15); (17, 16)]);
   (KCheck, 17, [(16, 16); (18, 17)]);
   (KCheck, 18, [(17, 17); (19, 18)]);
   (KCheck, 19, [(18, 18); (20, 19)]);
   (KCheck, 20, [(19, 19); (21, 20)]);
   (KCheck, 21, [(20, 20)]);
   (KRecv, 2, [(3, 2); (21, 20)]);
   (KRecv, 3, [(2, 2); (4, 3); (21, 20)]);
   (KRecv, 4, [(3, 3); (5, 4); (21, 20)]);
   (KRecv, 5, [(4, 4); (6, 5); (21, 20)]);
   (KRecv, 6, [(5, 5); (7, 6); (21, 20)]);
   (KRecv, 7, [(6, 6); (8, 7); (21, 20)]);
   (KRecv, 8, [(7, 7); (9, 8); (21, 20)]);
   (KRecv, 9, [(8, 8); (10, 9); (21, 20)]);
   (KRecv, 10, [(9, 9); (11, 10); (21, 20)]);
   (KRecv, 11, [(10, 10); (12, 11); (21, 20)]);
   (KRecv, 12, [(11, 11); (13, 12); (21, 20)]);
   (KRecv, 13, [(12, 12); (14, 13); (21, 20)]);
   (KRecv, 14, [(13, 13); (15, 14); (21, 20)]);
   (KRecv, 15, [(14, 14); (16, 15); (21, 20)]);
   (KRecv, 16, [(15, 15); (17, 16); (21, 20)]);
   (KRecv, 17, [(16, 16); (18, 17); (21, 20)]);
   (KRecv, 18, [(17, 17); (19, 18); (21, 20)]);
   (KRecv, 19, [(18, 18); (20, 19); (21, 20)]);
   (KRecv, 20, [(19, 19); (21, 20)]);
   (KRecv, 21, [(20, 20)])].
(** benches/ring/empty/mpst/ring_eight.rs:32-144,
    benches/ring/normal/mpst/ring_eight.rs:32-144. *)
Definition fns_61 : program := Program ["A"; "B"; "C"; "D"; "E"; "F"; "G"; "H"]
  [(KSend, 1, [(2, 1)]);
   (KSend, 2, [(1, 1); (3, 2)]);
   (KSend, 3, [(2, 2); (4, 3)]);
   (KSend, 4, [(3, 3); (5, 4)]);
   (KSend, 5, [(4, 4); (6, 5)]);
   (KSend, 6, [(5, 5); (7, 6)]);
   (KSend, 7, [(6, 6); (8, 7)]);
   (KSend, 8, [(7, 7)]);
   (KRecv, 1, [(2, 1); (8, 7)]);
   (KRecv, 2, [(1, 1); (3, 2); (8, 7)]);
   (KRecv, 3, [(2, 2); (4, 3); (8, 7)]);
   (KRecv, 4, [(3, 3); (5, 4); (8, 7)]);
   (KRecv, 5, [(4, 4); (6, 5); (8, 7)]);
   (KRecv, 6, [(5, 5); (7, 6); (8, 7)]);
   (KRecv, 7, [(6, 6); (8, 7)]);
   (KRecv, 8, [(7, 7)])].
(** benches/ring/empty/mpst/ring_eleven.rs:32-189,
    benches/ring/normal/mpst/ring_eleven.rs:32-189. *)
Definition fns_62 : program := Program ["A"; "B"; "C"; "D"; "E"; "F"; "G"; "H"; "I"; "J"; "K"]
  [(KSend, 1, [(2, 1)]);
   (KSend, 2, [(1, 1); (3, 2)]);
   (KSend, 3, [(2, 2); (4, 3)]);
   (KSend, 4, [(3, 3); (5, 4)]);
   (KSend, 5, [(4, 4); (6, 5)]);
   (KSend, 6, [(5, 5); (7, 6)]);
   (KSend, 7, [(6, 6); (8, 7)]);
   (KSend, 8, [(7, 7); (9, 8)]);
   (KSend, 9, [(8, 8); (10, 9)]);
   (KSend, 10, [(9, 9); (11, 10)]);
   (KSend, 11, [(10, 10)]);
   (KRecv, 1, [(2, 1); (11, 10)]);
   (KRecv, 2, [(1, 1); (3, 2); (11, 10)]);
   (KRecv, 3, [(2, 2); (4, 3); (11, 10)]);
   (KRecv, 4, [(3, 3); (5, 4); (11, 10)]);
   (KRecv, 5, [(4, 4); (6, 5); (11, 10)]);
   (KRecv, 6, [(5, 5); (7, 6); (11, 10)]);
   (KRecv, 7, [(6, 6); (8, 7); (11, 10)]);
   (KRecv, 8, [(7, 7); (9, 8); (11, 10)]);
   (KRecv, 9, [(8, 8); (10, 9); (11, 10)]);
   (KRecv, 10, [(9, 9); (11, 10)]);
   (KRecv, 11, [(10, 10)])].
(** benches/ring/empty/mpst/ring_five.rs:32-99,
    benches/ring/normal/mpst/ring_five.rs:32-99. *)
Definition fns_63 : program := Program ["A"; "B"; "C"; "D"; "E"]
  [(KSend, 1, [(2, 1)]);
   (KSend, 2, [(1, 1); (3, 2)]);
   (KSend, 3, [(2, 2); (4, 3)]);
   (KSend, 4, [(3, 3); (5, 4)]);
   (KSend, 5, [(4, 4)]);
   (KRecv, 1, [(2, 1); (5, 4)]);
   (KRecv, 2, [(1, 1); (3, 2); (5, 4)]);
   (KRecv, 3, [(2, 2); (4, 3); (5, 4)]);
   (KRecv, 4, [(3, 3); (5, 4)]);
   (KRecv, 5, [(4, 4)])].
(** benches/ring/empty/mpst/ring_four.rs:32-84,
    benches/ring/normal/mpst/ring_four.rs:32-84. *)
Definition fns_64 : program := Program ["A"; "B"; "C"; "D"]
  [(KSend, 1, [(2, 1)]);
   (KSend, 2, [(1, 1); (3, 2)]);
   (KSend, 3, [(2, 2); (4, 3)]);
   (KSend, 4, [(3, 3)]);
   (KRecv, 1, [(2, 1); (4, 3)]);
   (KRecv, 2, [(1, 1); (3, 2); (4, 3)]);
   (KRecv, 3, [(2, 2); (4, 3)]);
   (KRecv, 4, [(3, 3)])].
(** benches/ring/empty/mpst/ring_nine.rs:32-159,
    benches/ring/normal/mpst/ring_nine.rs:32-159. *)
Definition fns_65 : program := Program ["A"; "B"; "C"; "D"; "E"; "F"; "G"; "H"; "I"]
  [(KSend, 1, [(2, 1)]);
   (KSend, 2, [(1, 1); (3, 2)]);
   (KSend, 3, [(2, 2); (4, 3)]);
   (KSend, 4, [(3, 3); (5, 4)]);
   (KSend, 5, [(4, 4); (6, 5)]);
   (KSend, 6, [(5, 5); (7, 6)]);
   (KSend, 7, [(6, 6); (8, 7)]);
   (KSend, 8, [(7, 7); (9, 8)]);
   (KSend, 9, [(8, 8)]);
   (KRecv, 1, [(2, 1); (9, 8)]);
   (KRecv, 2, [(1, 1); (3, 2); (9, 8)]);
   (KRecv, 3, [(2, 2); (4, 3); (9, 8)]);
   (KRecv, 4, [(3, 3); (5, 4); (9, 8)]);
   (KRecv, 5, [(4, 4); (6, 5); (9, 8)]);
   (KRecv, 6, [(5, 5); (7, 6); (9, 8)]);
   (KRecv, 7, [(6, 6); (8, 7); (9, 8)]);
   (KRecv, 8, [(7, 7); (9, 8)]);
   (KRecv, 9, [(8, 8)])].
(** benches/ring/empty/mpst/ring_seven.rs:32-129,
    benches/ring/normal/mpst/ring_seven.rs:32-129. *)
Definition fns_66 : program := Program ["A"; "B"; "C"; "D"; "E"; "F"; "G"]
  [(KSend, 1, [(2, 1)]);
   (KSend, 2, [(1, 1); (3, 2)]);
   (KSend, 3, [(2, 2); (4, 3)]);
   (KSend, 4, [(3, 3); (5, 4)]);
   (KSend, 5, [(4, 4); (6, 5)]);
   (KSend, 6, [(5, 5); (7, 6)]);
   (KSend, 7, [(6, 6)]);
   (KRecv, 1, [(2, 1); (7, 6)]);
   (KRecv, 2, [(1, 1); (3, 2); (7, 6)]);
   (KRecv, 3, [(2, 2); (4, 3); (7, 6)]);
   (KRecv, 4, [(3, 3); (5, 4); (7, 6)]);
   (KRecv, 5, [(4, 4); (6, 5); (7, 6)]);
   (KRecv, 6, [(5, 5); (7, 6)]);
   (KRecv, 7, [(6, 6)])].
(** benches/ring/empty/mpst/ring_six.rs:32-114,
    benches/ring/normal/mpst/ring_six.rs:32-114. *)
Definition fns_67 : program := Program ["A"; "B"; "C"; "D"; "E"; "F"]
  [(KSend, 1, [(2, 1)]);
   (KSend, 2, [(1, 1); (3, 2)]);
   (KSend, 3, [(2, 2); (4, 3)]);
   (KSend, 4, [(3, 3); (5, 4)]);
   (KSend, 5, [(4, 4); (6, 5)]);
   (KSend, 6, [(5, 5)]);
   (KRecv, 1, [(2, 1); (6, 5)]);
   (KRecv, 2, [(1, 1); (3, 2); (6, 5)]);
   (KRecv, 3, [(2, 2); (4, 3); (6, 5)]);
   (KRecv, 4, [(3, 3); (5, 4); (6, 5)]);
   (KRecv, 5, [(4, 4); (6, 5)]);
   (KRecv, 6, [(5, 5)])].
(** benches/ring/empty/mpst/ring_ten.rs:32-174,
    benches/ring/normal/mpst/ring_ten.rs:32-174. *)
Definition fns_68 : program := Program ["A"; "B"; "C"; "D"; "E"; "F"; "G"; "H"; "I"; "J"]
  [(KSend, 1, [(2, 1)]);
   (KSend, 2, [(1, 1); (3, 2)]);
   (KSend, 3, [(2, 2); (4, 3)]);
   (KSend, 4, [(3, 3); (5, 4)]);
   (KSend, 5, [(4, 4); (6, 5)]);
   (KSend, 6, [(5, 5); (7, 6)]);
   (KSend, 7, [(6, 6); (8, 7)]);
   (KSend, 8, [(7, 7); (9, 8)]);
   (KSend, 9, [(8, 8); (10, 9)]);
   (KSend, 10, [(9, 9)]);
   (KRecv, 1, [(2, 1); (10, 9)]);
   (KRecv, 2, [(1, 1); (3, 2); (10, 9)]);
   (KRecv, 3, [(2, 2); (4, 3); (10, 9)]);
   (KRecv, 4, [(3, 3); (5, 4); (10, 9)]);
   (KRecv, 5, [(4, 4); (6, 5); (10, 9)]);
   (KRecv, 6, [(5, 5); (7, 6); (10, 9)]);
   (KRecv, 7, [(6, 6); (8, 7); (10, 9)]);
   (KRecv, 8, [(7, 7); (9, 8); (10, 9)]);
   (KRecv, 9, [(8, 8); (10, 9)]);
   (KRecv, 10, [(9, 9)])].
(** benches/ring/empty/mpst/ring_three.rs:32-69,
    benches/ring/normal/mpst/ring_three.rs:32-69. *)
Definition fns_69 : program := Program ["A"; "B"; "C"]
  [(KSend, 1, [(2, 1)]);
   (KSend, 2, [(1, 1); (3, 2)]);
   (KSend, 3, [(2, 2)]);
   (KRecv, 1, [(2, 1); (3, 2)]);
   (KRecv, 2, [(1, 1); (3, 2)]);
   (KRecv, 3, [(2, 2)])].
(** benches/ring/empty/mpst/ring_twenty.rs:32-324,
    benches/ring/normal/mpst/ring_twenty.rs:32-324. *)
Definition fns_70 : program := Program ["A"; "B"; "C"; "D"; "E"; "F"; "G"; "H"; "I"; "J"; "K"; "L"; "M"; "N"; "O"; "P"; "Q"; "R"; "S"; "T"]
  [(KSend, 1, [(2, 1)]);
   (KSend, 2, [(1, 1); (3, 2)]);
   (KSend, 3, [(2, 2); (4, 3)]);
   (KSend, 4, [(3, 3); (5, 4)]);
   (KSend, 5, [(4, 4); (6, 5)]);
   (KSend, 6, [(5, 5); (7, 6)]);
   (KSend, 7, [(6, 6); (8, 7)]);
   (KSend, 8, [(7, 7); (9, 8)]);
   (KSend, 9, [(8, 8); (10, 9)]);
   (KSend, 10, [(9, 9); (11, 10)]);
   (KSend, 11, [(10, 10); (12, 11)]);
   (KSend, 12, [(11, 11); (13, 12)]);
   (KSend, 13, [(12, 12); (14, 13)]);
   (KSend, 14, [(13, 13); (15, 14)]);
   (KSend, 15, [(14, 14); (16, 15)]);
   (KSend, 16, [(15, 15); (17, 16)]);
   (KSend, 17, [(16, 16); (18, 17)]);
   (KSend, 18, [(17, 17); (19, 18)]);
   (KSend, 19, [(18, 18); (20, 19)]);
   (KSend, 20, [(19, 19)]);
   (KRecv, 1, [(2, 1); (20, 19)]);
   (KRecv, 2, [(1, 1); (3, 2); (20, 19)]);
   (KRecv, 3, [(2, 2); (4, 3); (20, 19)]);
   (KRecv, 4, [(3, 3); (5, 4); (20, 19)]);
   (KRecv, 5, [(4, 4); (6, 5); (20, 19)]);
   (KRecv, 6, [(5, 5); (7, 6); (20, 19)]);
   (KRecv, 7, [(6, 6); (8, 7); (20, 19)]);
   (KRecv, 8, [(7, 7); (9, 8); (20, 19)]);
   (KRecv, 9, [(8, 8); (10, 9); (20, 19)]);
   (KRecv, 10, [(9, 9); (11, 10); (20, 19)]);
   (KRecv, 11, [(10, 10); (12, 11); (20, 19)]);
   (KRecv, 12, [(11, 11); (13, 12); (20, 19)]);
   (KRecv, 13, [(12, 12); (14, 13); (20, 19)]);
   (KRecv, 14, [(13, 13); (15, 14); (20, 19)]);
   (KRecv, 15, [(14, 14); (16, 15); (20, 19)]);
   (KRecv, 16, [(15, 15); (17, 16); (20, 19)]);
   (KRecv, 17, [(16, 16); (18, 17); (20, 19)]);
   (KRecv, 18, [(17, 17); (19, 18); (20, 19)]);
   (KRecv, 19, [(18, 18); (20, 19)]);
   (KRecv, 20, [(19, 19)])].
(** tests/cancel_mod/cancel_01.rs:28-59. *)
Definition fns_71 : program := Program ["A"; "B"; "C"]
  [(KCancel, 1, [(2, 1)]);
   (KSend, 2, [(3, 2)]);
   (KRecv, 2, [(1, 1)]);
   (KRecv, 3, [(2, 2)])].
(** tests/cancel_mod/cancel_02.rs:32-63. *)
Definition fns_72 : program := Program ["A"; "B"; "C"]
  [(KCancel, 1, [(2, 1)]);
   (KSend, 3, [(1, 1)]);
   (KRecv, 1, [(3, 2)]);
   (KRecv, 2, [(1, 1)])].
(** tests/cancel_mod/cancel_03.rs:33-64. *)
Definition fns_73 : program := Program ["A"; "B"; "C"; "D"]
  [(KCancel, 1, [(2, 1)]);
   (KSend, 3, [(4, 3)]);
   (KRecv, 2, [(1, 1)]);
   (KRecv, 4, [(3, 3)])].
(** tests/cancel_mod/cancel_04.rs:32-56. *)
Definition fns_74 : program := Program ["A"; "B"; "C"]
  [(KCancel, 1, [(2, 1)]);
   (KSend, 3, [(2, 2)]);
   (KRecv, 2, [(1, 1); (3, 2)])].
(** tests/cancel_mod/cancel_05.rs:33-62. *)
Definition fns_75 : program := Program ["A"; "B"; "C"]
  [(KSend, 1, [(3, 2)]);
   (KCancel, 1, [(2, 1)]);
   (KRecv, 2, [(1, 1)]);
   (KRecv, 3, [(1, 1)])].
(** tests/cancel_mod/cancel_06.rs:32-63,
    tests/cancel_mod/cancel_07.rs:31-54. *)
Definition fns_76 : program := Program ["Broadcaster"; "B"; "C"; "D"]
  [(KCheck, 3, [(2, 2); (4, 3)]);
   (KRecv, 2, [(3, 2)]);
   (KRecv, 4, [(3, 3)])].
(** tests/cancel_mod/cancel_08.rs:31-71,
    tests/cancel_mod/cancel_09.rs:31-71,
    tests/cancel_mod/cancel_10.rs:31-71,
    tests/cancel_mod/cancel_12.rs:31-71,
    tests/cancel_mod/cancel_13.rs:31-71. *)
Definition fns_77 : program := Program ["Broadcaster"; "B"; "C"; "D"]
  [(KCheck, 2, [(3, 2); (4, 3)]);
   (KCheck, 3, [(2, 2); (4, 3)]);
   (KCheck, 4, [(2, 2); (3, 3)]);
   (KRecv, 2, [(3, 2); (4, 3)]);
   (KRecv, 3, [(2, 2); (4, 3)]);
   (KRecv, 4, [(2, 2); (3, 3)])].
(** tests/cancel_mod/cancel_11.rs:29-51. *)
Definition fns_78 : program := Program ["Broadcaster"; "B"; "C"]
  [(KCheck, 2, [(3, 2)]);
   (KCheck, 3, [(2, 2)]);
   (KRecv, 2, [(3, 2)]);
   (KRecv, 3, [(2, 2)])].
(** tests/interleaved_mod/macro_multi_recursion_solo.rs:30-41,
    tests/interleaved_mod/macro_recursive_solo.rs:31-42,
    tests/macros_multiple_mod/macro_recursive.rs:30-41,
    tests/macros_simple_mod/macro_choice.rs:37-49. *)
Definition fns_79 : program := Program ["A"; "B"; "C"]
  [(KSend, 3, [(1, 1)]);
   (KSend, 1, [(3, 2)]);
   (KSend, 3, [(2, 2)]);
   (KSend, 2, [(1, 1)]);
   (KSend, 1, [(2, 1)]);
   (KRecv, 3, [(1, 1)]);
   (KRecv, 1, [(3, 2)]);
   (KRecv, 2, [(3, 2); (1, 1)]);
   (KRecv, 1, [(2, 1)])].
(** tests/interleaved_mod/macro_multi_send_recv_meshedchannels_solo.rs:28-31,
    tests/macros_multiple_mod/macro_multi_send_recv_meshedchannels.rs:27-30. *)
Definition fns_80 : program := Program ["Role1"; "B"; "Role3"; "D"; "Role5"]
  [(KSend, 4, [(2, 2)]);
   (KRecv, 2, [(4, 3)])].
(** tests/macros_multiple_mod/macro_multi_choice.rs:33-45,
    tests/macros_multiple_mod/macro_multi_recursion.rs:33-45. *)
Definition fns_81 : program := Program ["A"; "B"; "D"]
  [(KSend, 3, [(1, 1)]);
   (KSend, 1, [(3, 2)]);
   (KSend, 3, [(2, 2)]);
   (KSend, 2, [(1, 1)]);
   (KSend, 1, [(2, 1)]);
   (KRecv, 3, [(1, 1)]);
   (KRecv, 1, [(3, 2)]);
   (KRecv, 2, [(3, 2); (1, 1)]);
   (KRecv, 1, [(2, 1)])].
(** tests/macros_simple_mod/macro_basics.rs:35-40. *)
Definition fns_82 : program := Program ["A"; "Role2"; "D"]
  [(KSend, 3, [(1, 1)]);
   (KSend, 1, [(3, 2)]);
   (KRecv, 3, [(1, 1)]);
   (KRecv, 1, [(3, 2)])].

(** All of them. *)
Definition programs : list program := [fns_00; fns_01; fns_02; fns_03; fns_04; fns_05; fns_06; fns_07; fns_08; fns_09; fns_10; fns_11; fns_12; fns_13; fns_14; fns_15; fns_16; fns_17; fns_18; fns_19; fns_20; fns_21; fns_22; fns_23; fns_24; fns_25; fns_26; fns_27; fns_28; fns_29; fns_30; fns_31; fns_32; fns_33; fns_34; fns_35; fns_36; fns_37; fns_38; fns_39; fns_40; fns_41; fns_42; fns_43; fns_44; fns_45; fns_46; fns_47; fns_48; fns_49; fns_50; fns_51; fns_52; fns_53; fns_54; fns_55; fns_56; fns_57; fns_58; fns_59; fns_60; fns_61; fns_62; fns_63; fns_64; fns_65; fns_66; fns_67; fns_68; fns_69; fns_70; fns_71; fns_72; fns_73; fns_74; fns_75; fns_76; fns_77; fns_78; fns_79; fns_80; fns_81; fns_82].
