(** The uses of [generate!] and [generate_atmp!] in the programs of the repository: 343 files.
    For each the form, the MeshedChannels and roles, and the macros with which
    the program chooses with the number of labels: 1041 choices. *)
From Coq Require Import List String.
Import ListNotations.
Open Scope string_scope.

(** src/baking/mod.rs:99-108, 109-118, 119-128, 129-138, 139-158, 159-179; src/baking_atmp/mod.rs:35-46. *)
Inductive form := Basic | Recursive | Cancel | RecAndCancel | Interleaved | AtmpInterleaved | Atmp.

(** Form, protocols, uses of the macros; the files are named above each definition. *)
Definition generated : Type := (form * list (string * list string) * list (string * nat))%type.

(** benches/examples/ampst/calculator.rs:15;
    examples/ampst/calculator.rs:13. *)
Definition generated_000 : generated :=
  (RecAndCancel, [("MeshedChannels", ["C"; "S"])],
   [("choose_mpst_c_to_all", 1)]).
(** benches/examples/ampst/circuit_breaker.rs:21-28;
    benches/examples/interleaved/circuit_breaker_solo.rs:22-29;
    examples/ampst/circuit_breaker.rs:14-21;
    examples/interleaved/baking/circuit_breaker_solo.rs:14-21. *)
Definition generated_001 : generated :=
  (RecAndCancel, [("MeshedChannels", ["Api"; "Controller"; "Storage"; "User"])],
   [("choose_mpst_controller_to_all", 3)]).
(** benches/examples/ampst/distributed_calculators.rs:18-24;
    examples/ampst/distributed_calculators.rs:16-22. *)
Definition generated_002 : generated :=
  (RecAndCancel, [("MeshedChannels", ["Calculator1"; "Calculator2"; "Server"])],
   [("choose_mpst_server_to_all", 2)]).
(** benches/examples/ampst/dns_fowler.rs:21;
    benches/examples/basic/dns_fowler.rs:21;
    examples/ampst/dns_fowler.rs:13;
    examples/ampst/dns_fowler_checking.rs:14. *)
Definition generated_003 : generated :=
  (RecAndCancel, [("MeshedChannels", ["Data"; "Handler"; "Regional"])],
   [("choose_mpst_regional_to_all", 2)]).
(** benches/examples/ampst/dns_imai.rs:21;
    examples/ampst/dns_imai.rs:13. *)
Definition generated_004 : generated :=
  (RecAndCancel, [("MeshedChannels", ["Client"; "Other"; "Server"])],
   [("choose_mpst_server_to_all", 2)]).
(** benches/examples/ampst/fib.rs:19;
    benches/ping_pong_save/ping_pong_baking_ampst_1.rs:11;
    examples/ampst/fib.rs:13;
    examples/artifact/basic.rs:11;
    examples/checking/basic.rs:11;
    examples/ping_pong_save/ping_pong_baking_ampst_1.rs:9. *)
Definition generated_005 : generated :=
  (RecAndCancel, [("MeshedChannels", ["A"; "B"])],
   [("choose_mpst_a_to_all", 1)]).
(** benches/examples/ampst/http.rs:15-22;
    examples/ampst/http.rs:13-20. *)
Definition generated_006 : generated :=
  (RecAndCancel, [("MeshedChannels", ["Client"; "ProxyOne"; "ProxyTwo"; "Server"])],
   [("choose_mpst_client_to_all", 3); ("choose_mpst_server_to_all", 3)]).
(** benches/examples/ampst/logging.rs:19;
    benches/examples/interleaved/logging_solo.rs:16;
    examples/ampst/logging.rs:14;
    examples/interleaved/baking/logging_solo.rs:14. *)
Definition generated_007 : generated :=
  (RecAndCancel, [("MeshedChannels", ["Controller"; "Logs"])],
   [("choose_mpst_controller_to_all", 1); ("choose_mpst_logs_to_all", 1)]).
(** benches/examples/ampst/o_auth.rs:20;
    benches/examples/basic/o_auth.rs:20;
    examples/ampst/o_auth.rs:12;
    examples/ampst/o_auth_checking.rs:13. *)
Definition generated_008 : generated :=
  (RecAndCancel, [("MeshedChannels", ["A"; "C"; "S"])],
   [("choose_mpst_a_to_all", 2)]).
(** benches/examples/ampst/online_wallet.rs:19;
    examples/ampst/online_wallet.rs:11. *)
Definition generated_009 : generated :=
  (RecAndCancel, [("MeshedChannels", ["A"; "C"; "S"])],
   [("choose_mpst_a_to_all", 2); ("choose_mpst_c_to_all", 2)]).
(** benches/examples/ampst/remote_data.rs:18;
    examples/ampst/remote_data.rs:16. *)
Definition generated_010 : generated :=
  (RecAndCancel, [("MeshedChannels", ["Satellite"; "Sensor"; "Server"])],
   [("choose_mpst_server_to_all", 2)]).
(** benches/examples/ampst/servo.rs:15-21;
    examples/ampst/servo.rs:7-13;
    examples/ampst/servo_8257_fixed.rs:6-12;
    examples/ampst/servo_8257_original.rs:6-12;
    examples/checking/servo_8257_fixed.rs:6-12;
    examples/checking/servo_8257_original.rs:6-12. *)
Definition generated_011 : generated :=
  (RecAndCancel, [("MeshedChannels", ["Constellation"; "Layout"; "Script"])],
   []).
(** benches/examples/ampst/simple_voting.rs:21;
    examples/ampst/simple_voting.rs:13. *)
Definition generated_012 : generated :=
  (RecAndCancel, [("MeshedChannels", ["Voter"; "Server"])],
   [("choose_mpst_server_to_all", 1); ("choose_mpst_voter_to_all", 1)]).
(** benches/examples/ampst/smtp.rs:19;
    examples/ampst/smtp.rs:11. *)
Definition generated_013 : generated :=
  (RecAndCancel, [("MeshedChannels", ["C"; "S"])],
   [("choose_mpst_c_to_all", 1); ("choose_mpst_s_to_all", 1)]).
(** benches/examples/ampst/three_buyers.rs:21;
    benches/examples/ampst/travel_agency.rs:21;
    examples/ampst/three_buyers.rs:13;
    examples/ampst/travel_agency.rs:13. *)
Definition generated_014 : generated :=
  (RecAndCancel, [("MeshedChannels", ["A"; "C"; "S"])],
   [("choose_mpst_c_to_all", 2)]).
(** benches/examples/ampst/video_stream.rs:20;
    benches/mesh/baking/ampst/mesh_three.rs:17;
    benches/mesh/baking_cancel_inline/ampst/mesh_three.rs:17;
    benches/ring/baking/ampst/ring_three.rs:17;
    benches/ring/baking_cancel_inline/ampst/ring_three.rs:17;
    examples/ampst/video_stream.rs:14;
    examples/checking/adder.rs:7;
    examples/checking/video_stream.rs:11;
    examples/mesh/mesh_three_baking_ampst.rs:17;
    examples/mesh/mesh_three_baking_cancel_inline.rs:17;
    examples/ring/ring_three_baking_ampst.rs:17;
    examples/ring/ring_three_baking_cancel_inline.rs:17. *)
Definition generated_015 : generated :=
  (RecAndCancel, [("MeshedChannels", ["A"; "B"; "C"])],
   [("choose_mpst_c_to_all", 2)]).
(** benches/examples/atmp/calculator.rs:25;
    examples/atmp/calculator.rs:23. *)
Definition generated_016 : generated :=
  (Atmp, [("MeshedChannels", ["C"; "S"])],
   [("choose_mpst_c_to_all", 1)]).
(** benches/examples/atmp/circuit_breaker.rs:18;
    examples/atmp/circuit_breaker.rs:16. *)
Definition generated_017 : generated :=
  (Atmp, [("MeshedChannels", ["Api"; "Controller"; "Storage"; "User"])],
   [("choose_mpst_controller_to_all", 3)]).
(** benches/examples/atmp/distributed_calculators.rs:21;
    examples/atmp/distributed_calculators.rs:22. *)
Definition generated_018 : generated :=
  (Atmp, [("MeshedChannels", ["Calculator1"; "Calculator2"; "Server"])],
   [("choose_mpst_server_to_all", 2)]).
(** benches/examples/atmp/fib.rs:22;
    benches/ping_pong_save/ping_pong_baking_atmp_1.rs:14;
    examples/artifact_atmp/basic.rs:16;
    examples/atmp/fib.rs:22;
    examples/ping_pong_save/ping_pong_baking_atmp_1.rs:12. *)
Definition generated_019 : generated :=
  (Atmp, [("MeshedChannels", ["A"; "B"])],
   [("choose_mpst_a_to_all", 1)]).
(** benches/examples/atmp/http.rs:18;
    examples/atmp/http.rs:16;
    examples/atmp/non_feasible.rs:16. *)
Definition generated_020 : generated :=
  (Atmp, [("MeshedChannels", ["Client"; "ProxyOne"; "ProxyTwo"; "Server"])],
   [("choose_mpst_client_to_all", 3); ("choose_mpst_server_to_all", 3)]).
(** benches/examples/atmp/logging.rs:16;
    examples/atmp/logging.rs:16. *)
Definition generated_021 : generated :=
  (Atmp, [("MeshedChannels", ["Controller"; "Logs"])],
   [("choose_mpst_controller_to_all", 1); ("choose_mpst_logs_to_all", 1)]).
(** benches/examples/atmp/o_auth.rs:23;
    examples/atmp/o_auth.rs:21. *)
Definition generated_022 : generated :=
  (Atmp, [("MeshedChannels", ["A"; "C"; "S"])],
   [("choose_mpst_a_to_all", 2)]).
(** benches/examples/atmp/online_wallet.rs:22;
    examples/atmp/online_wallet.rs:22. *)
Definition generated_023 : generated :=
  (Atmp, [("MeshedChannels", ["A"; "C"; "S"])],
   [("choose_mpst_a_to_all", 2); ("choose_mpst_c_to_all", 2)]).
(** benches/examples/atmp/remote_data.rs:21;
    examples/artifact_atmp/generated_files/RemoteDataCorrect.rs:12;
    examples/atmp/remote_data.rs:19. *)
Definition generated_024 : generated :=
  (Atmp, [("MeshedChannels", ["Satellite"; "Sensor"; "Server"])],
   [("choose_mpst_server_to_all", 2)]).
(** benches/examples/atmp/servo.rs:18;
    examples/atmp/servo.rs:10;
    examples/atmp/servo_8257_async_failing.rs:11;
    examples/atmp/servo_8257_async_fixed.rs:11;
    examples/atmp/servo_8257_async_working.rs:11. *)
Definition generated_025 : generated :=
  (Atmp, [("MeshedChannels", ["Constellation"; "Layout"; "Script"])],
   []).
(** benches/examples/atmp/simple_voting.rs:21;
    examples/atmp/simple_voting.rs:19. *)
Definition generated_026 : generated :=
  (Atmp, [("MeshedChannels", ["Voter"; "Server"])],
   [("choose_mpst_server_to_all", 1); ("choose_mpst_voter_to_all", 1)]).
(** benches/examples/atmp/smtp.rs:23;
    examples/atmp/smtp.rs:23. *)
Definition generated_027 : generated :=
  (Atmp, [("MeshedChannels", ["C"; "S"])],
   [("choose_mpst_c_to_all", 1); ("choose_mpst_s_to_all", 1)]).
(** benches/examples/atmp/three_buyers.rs:24;
    benches/examples/atmp/travel_agency.rs:24;
    examples/artifact_atmp/generated_files/ThreeBuyersCorrect.rs:13;
    examples/atmp/three_buyers.rs:22;
    examples/atmp/travel_agency.rs:22. *)
Definition generated_028 : generated :=
  (Atmp, [("MeshedChannels", ["A"; "C"; "S"])],
   [("choose_mpst_c_to_all", 2)]).
(** benches/examples/atmp/video_stream.rs:16;
    benches/mesh/baking/atmp/mesh_three.rs:20;
    benches/ring/baking/atmp/ring_three.rs:20;
    examples/atmp/video_stream.rs:16;
    examples/mesh/mesh_three_baking_atmp.rs:20;
    examples/ring/ring_three_baking_atmp.rs:20. *)
Definition generated_029 : generated :=
  (Atmp, [("MeshedChannels", ["A"; "B"; "C"])],
   [("choose_mpst_c_to_all", 2)]).
(** benches/examples/mpst/calculator.rs:15;
    examples/mpst/calculator.rs:13. *)
Definition generated_030 : generated :=
  (Recursive, [("MeshedChannels", ["C"; "S"])],
   [("choose_mpst_c_to_all", 1)]).
(** benches/examples/mpst/circuit_breaker.rs:21;
    examples/mpst/circuit_breaker.rs:14. *)
Definition generated_031 : generated :=
  (Recursive, [("MeshedChannels", ["Api"; "Controller"; "Storage"; "User"])],
   [("choose_mpst_controller_to_all", 3)]).
(** benches/examples/mpst/distributed_calculators.rs:18-24;
    examples/mpst/distributed_calculators.rs:16-22. *)
Definition generated_032 : generated :=
  (Recursive, [("MeshedChannels", ["Calculator1"; "Calculator2"; "Server"])],
   [("choose_mpst_server_to_all", 2)]).
(** benches/examples/mpst/dns_fowler.rs:21;
    examples/mpst/dns_fowler.rs:13;
    examples/mpst/dns_fowler_checking.rs:14. *)
Definition generated_033 : generated :=
  (Recursive, [("MeshedChannels", ["Data"; "Handler"; "Regional"])],
   [("choose_mpst_regional_to_all", 2)]).
(** benches/examples/mpst/dns_imai.rs:21;
    examples/mpst/dns_imai.rs:13. *)
Definition generated_034 : generated :=
  (Recursive, [("MeshedChannels", ["Client"; "Other"; "Server"])],
   [("choose_mpst_server_to_all", 2)]).
(** benches/examples/mpst/fib.rs:19;
    benches/ping_pong_save/ping_pong_baking_mpst_1.rs:11;
    examples/mpst/fib.rs:13;
    examples/ping_pong_save/ping_pong_baking_mpst_1.rs:9. *)
Definition generated_035 : generated :=
  (Recursive, [("MeshedChannels", ["A"; "B"])],
   [("choose_mpst_a_to_all", 1)]).
(** benches/examples/mpst/http.rs:15-22;
    examples/mpst/http.rs:13-20. *)
Definition generated_036 : generated :=
  (Recursive, [("MeshedChannels", ["Client"; "ProxyOne"; "ProxyTwo"; "Server"])],
   [("choose_mpst_client_to_all", 3); ("choose_mpst_server_to_all", 3)]).
(** benches/examples/mpst/logging.rs:19;
    examples/mpst/logging.rs:14. *)
Definition generated_037 : generated :=
  (Recursive, [("MeshedChannels", ["Controller"; "Logs"])],
   [("choose_mpst_controller_to_all", 1); ("choose_mpst_logs_to_all", 1)]).
(** benches/examples/mpst/o_auth.rs:20;
    examples/mpst/o_auth.rs:12;
    examples/mpst/o_auth_checking.rs:13. *)
Definition generated_038 : generated :=
  (Recursive, [("MeshedChannels", ["A"; "C"; "S"])],
   [("choose_mpst_a_to_all", 2)]).
(** benches/examples/mpst/online_wallet.rs:19;
    examples/mpst/online_wallet.rs:11. *)
Definition generated_039 : generated :=
  (Recursive, [("MeshedChannels", ["A"; "C"; "S"])],
   [("choose_mpst_a_to_all", 2); ("choose_mpst_c_to_all", 2)]).
(** benches/examples/mpst/remote_data.rs:18;
    examples/mpst/remote_data.rs:16. *)
Definition generated_040 : generated :=
  (Recursive, [("MeshedChannels", ["Satellite"; "Sensor"; "Server"])],
   [("choose_mpst_server_to_all", 2)]).
(** benches/examples/mpst/servo.rs:15;
    examples/mpst/servo.rs:7;
    examples/mpst/servo_8257_fixed.rs:6;
    examples/mpst/servo_8257_original.rs:6. *)
Definition generated_041 : generated :=
  (Recursive, [("MeshedChannels", ["Constellation"; "Layout"; "Script"])],
   []).
(** benches/examples/mpst/simple_voting.rs:21;
    examples/mpst/simple_voting.rs:13. *)
Definition generated_042 : generated :=
  (Recursive, [("MeshedChannels", ["Voter"; "Server"])],
   [("choose_mpst_server_to_all", 1); ("choose_mpst_voter_to_all", 1)]).
(** benches/examples/mpst/smtp.rs:19;
    examples/mpst/smtp.rs:11. *)
Definition generated_043 : generated :=
  (Recursive, [("MeshedChannels", ["C"; "S"])],
   [("choose_mpst_c_to_all", 1); ("choose_mpst_s_to_all", 1)]).
(** benches/examples/mpst/three_buyers.rs:21;
    benches/examples/mpst/travel_agency.rs:21;
    examples/mpst/three_buyers.rs:13;
    examples/mpst/travel_agency.rs:13. *)
Definition generated_044 : generated :=
  (Recursive, [("MeshedChannels", ["A"; "C"; "S"])],
   [("choose_mpst_c_to_all", 2)]).
(** benches/examples/mpst/video_stream.rs:20;
    benches/mesh/baking/mpst/mesh_three.rs:17;
    benches/ring/baking/mpst/ring_three.rs:17;
    examples/mesh/mesh_three_baking_mpst.rs:17;
    examples/mpst/video_stream.rs:14;
    examples/ring/ring_three_baking_mpst.rs:17. *)
Definition generated_045 : generated :=
  (Recursive, [("MeshedChannels", ["A"; "B"; "C"])],
   [("choose_mpst_c_to_all", 2)]).
(** benches/examples/rate_based_ampst/gravity_android.rs:18;
    examples/rate_based_ampst/gravity_android.rs:16. *)
Definition generated_046 : generated :=
  (RecAndCancel, [("MeshedChannels", ["Sensor"; "SensorManager"])],
   [("choose_mpst_sensormanager_to_all", 1)]).
(** benches/examples/rate_based_ampst/pinetime_heart_rate.rs:19;
    examples/rate_based_ampst/pinetime_heart_rate.rs:17. *)
Definition generated_047 : generated :=
  (RecAndCancel, [("MeshedChannels", ["Scl"; "Sda"])],
   [("choose_mpst_sda_to_all", 1)]).
(** benches/examples/rate_based_ampst/proximity_based_car_key.rs:19;
    examples/rate_based_ampst/proximity_based_car_key.rs:17. *)
Definition generated_048 : generated :=
  (RecAndCancel, [("MeshedChannels", ["Car"; "Key"])],
   [("choose_mpst_key_to_all", 1)]).
(** benches/examples/rate_based_atmp/gravity_android.rs:21;
    examples/rate_based_atmp/gravity_android.rs:22. *)
Definition generated_049 : generated :=
  (Atmp, [("MeshedChannels", ["Sensor"; "SensorManager"])],
   [("choose_mpst_sensormanager_to_all", 1)]).
(** benches/examples/rate_based_atmp/pinetime_heart_rate.rs:22;
    examples/rate_based_atmp/pinetime_heart_rate.rs:23. *)
Definition generated_050 : generated :=
  (Atmp, [("MeshedChannels", ["Scl"; "Sda"])],
   [("choose_mpst_sda_to_all", 1)]).
(** benches/examples/rate_based_atmp/proximity_based_car_key.rs:23;
    examples/rate_based_atmp/proximity_based_car_key.rs:22. *)
Definition generated_051 : generated :=
  (Atmp, [("MeshedChannels", ["Car"; "Key"])],
   [("choose_mpst_key_to_all", 1)]).
(** benches/mesh/baking/ampst/mesh_eight.rs:17;
    benches/mesh/baking_cancel_inline/ampst/mesh_eight.rs:17;
    benches/ring/baking/ampst/ring_eight.rs:16;
    benches/ring/baking_cancel_inline/ampst/ring_eight.rs:16;
    examples/mesh/mesh_eight_baking_ampst.rs:17;
    examples/mesh/mesh_eight_baking_cancel_inline.rs:17;
    examples/ring/ring_eight_baking_ampst.rs:16;
    examples/ring/ring_eight_baking_cancel_inline.rs:16. *)
Definition generated_052 : generated :=
  (RecAndCancel, [("MeshedChannels", ["A"; "B"; "C"; "D"; "E"; "F"; "G"; "H"])],
   [("choose_mpst_h_to_all", 7)]).
(** benches/mesh/baking/ampst/mesh_eleven.rs:13-27;
    benches/mesh/baking_cancel_inline/ampst/mesh_eleven.rs:17-31;
    benches/ring/baking/ampst/ring_eleven.rs:13-27;
    benches/ring/baking_cancel_inline/ampst/ring_eleven.rs:17-31;
    examples/mesh/mesh_eleven_baking_ampst.rs:17-31;
    examples/mesh/mesh_eleven_baking_cancel_inline.rs:17;
    examples/ring/ring_eleven_baking_ampst.rs:17-31;
    examples/ring/ring_eleven_baking_cancel_inline.rs:17. *)
Definition generated_053 : generated :=
  (RecAndCancel, [("MeshedChannels", ["A"; "B"; "C"; "D"; "E"; "F"; "G"; "H"; "I"; "J"; "K"])],
   [("choose_mpst_k_to_all", 10)]).
(** benches/mesh/baking/ampst/mesh_five.rs:17;
    benches/mesh/baking_cancel_inline/ampst/mesh_five.rs:17;
    benches/ring/baking/ampst/ring_five.rs:17;
    benches/ring/baking_cancel_inline/ampst/ring_five.rs:17;
    examples/mesh/mesh_five_baking_ampst.rs:17;
    examples/mesh/mesh_five_baking_cancel_inline.rs:17;
    examples/ring/ring_five_baking_ampst.rs:17;
    examples/ring/ring_five_baking_cancel_inline.rs:17. *)
Definition generated_054 : generated :=
  (RecAndCancel, [("MeshedChannels", ["A"; "B"; "C"; "D"; "E"])],
   [("choose_mpst_e_to_all", 4)]).
(** benches/mesh/baking/ampst/mesh_four.rs:17;
    benches/mesh/baking_cancel_inline/ampst/mesh_four.rs:17;
    benches/ring/baking/ampst/ring_four.rs:17;
    benches/ring/baking_cancel_inline/ampst/ring_four.rs:17;
    examples/mesh/mesh_four_baking_ampst.rs:17;
    examples/mesh/mesh_four_baking_cancel_inline.rs:17;
    examples/ring/ring_four_baking_ampst.rs:17;
    examples/ring/ring_four_baking_cancel_inline.rs:17. *)
Definition generated_055 : generated :=
  (RecAndCancel, [("MeshedChannels", ["A"; "B"; "C"; "D"])],
   [("choose_mpst_d_to_all", 3)]).
(** benches/mesh/baking/ampst/mesh_nine.rs:17;
    benches/mesh/baking_cancel_inline/ampst/mesh_nine.rs:17;
    benches/ring/baking/ampst/ring_nine.rs:17;
    benches/ring/baking_cancel_inline/ampst/ring_nine.rs:17;
    examples/mesh/mesh_nine_baking_ampst.rs:17;
    examples/mesh/mesh_nine_baking_cancel_inline.rs:17;
    examples/ring/ring_nine_baking_ampst.rs:17;
    examples/ring/ring_nine_baking_cancel_inline.rs:17. *)
Definition generated_056 : generated :=
  (RecAndCancel, [("MeshedChannels", ["A"; "B"; "C"; "D"; "E"; "F"; "G"; "H"; "I"])],
   [("choose_mpst_i_to_all", 8)]).
(** benches/mesh/baking/ampst/mesh_seven.rs:17;
    benches/mesh/baking_cancel_inline/ampst/mesh_seven.rs:17;
    benches/ring/baking/ampst/ring_seven.rs:17;
    benches/ring/baking_cancel_inline/ampst/ring_seven.rs:17;
    examples/mesh/mesh_seven_baking_ampst.rs:17;
    examples/mesh/mesh_seven_baking_cancel_inline.rs:17;
    examples/ring/ring_seven_baking_ampst.rs:17;
    examples/ring/ring_seven_baking_cancel_inline.rs:17. *)
Definition generated_057 : generated :=
  (RecAndCancel, [("MeshedChannels", ["A"; "B"; "C"; "D"; "E"; "F"; "G"])],
   [("choose_mpst_g_to_all", 6)]).
(** benches/mesh/baking/ampst/mesh_six.rs:17;
    benches/mesh/baking_cancel_inline/ampst/mesh_six.rs:17;
    benches/ring/baking/ampst/ring_six.rs:17;
    benches/ring/baking_cancel_inline/ampst/ring_six.rs:17;
    examples/mesh/mesh_six_baking_ampst.rs:17;
    examples/mesh/mesh_six_baking_cancel_inline.rs:17;
    examples/ring/ring_six_baking_ampst.rs:17;
    examples/ring/ring_six_baking_cancel_inline.rs:17. *)
Definition generated_058 : generated :=
  (RecAndCancel, [("MeshedChannels", ["A"; "B"; "C"; "D"; "E"; "F"])],
   [("choose_mpst_f_to_all", 5)]).
(** benches/mesh/baking/ampst/mesh_ten.rs:17-30;
    benches/mesh/baking_cancel_inline/ampst/mesh_ten.rs:17-30;
    benches/ring/baking/ampst/ring_ten.rs:17-30;
    benches/ring/baking_cancel_inline/ampst/ring_ten.rs:17-30;
    examples/mesh/mesh_ten_baking_ampst.rs:17-30;
    examples/mesh/mesh_ten_baking_cancel_inline.rs:17;
    examples/ring/ring_ten_baking_ampst.rs:17-30;
    examples/ring/ring_ten_baking_cancel_inline.rs:17. *)
Definition generated_059 : generated :=
  (RecAndCancel, [("MeshedChannels", ["A"; "B"; "C"; "D"; "E"; "F"; "G"; "H"; "I"; "J"])],
   [("choose_mpst_j_to_all", 9)]).
(** benches/mesh/baking/ampst/mesh_twenty.rs:17-40;
    benches/mesh/baking_cancel_inline/ampst/mesh_twenty.rs:17-40;
    benches/ring/baking/ampst/ring_twenty.rs:13-36;
    benches/ring/baking_cancel_inline/ampst/ring_twenty.rs:17-40;
    examples/mesh/mesh_twenty_baking_ampst.rs:17-40;
    examples/mesh/mesh_twenty_baking_cancel_inline.rs:17-40;
    examples/ring/ring_twenty_baking_ampst.rs:17-40;
    examples/ring/ring_twenty_baking_cancel_inline.rs:17-40. *)
Definition generated_060 : generated :=
  (RecAndCancel, [("MeshedChannels", ["A"; "B"; "C"; "D"; "E"; "F"; "G"; "H"; "I"; "J"; "K"; "L"; "M"; "N"; "O"; "P"; "Q"; "R"; "S"; "T"])],
   [("choose_mpst_t_to_all", 19)]).
(** benches/mesh/baking/ampst/mesh_two.rs:17;
    benches/mesh/baking_cancel_inline/ampst/mesh_two.rs:17;
    benches/ring/baking/ampst/ring_two.rs:17;
    benches/ring/baking_cancel_inline/ampst/ring_two.rs:17;
    examples/mesh/mesh_two_baking_ampst.rs:17;
    examples/mesh/mesh_two_baking_cancel_inline.rs:17;
    examples/ring/ring_two_baking_ampst.rs:17;
    examples/ring/ring_two_baking_cancel_inline.rs:17. *)
Definition generated_061 : generated :=
  (RecAndCancel, [("MeshedChannels", ["A"; "B"])],
   [("choose_mpst_b_to_all", 1)]).
(** benches/mesh/baking/atmp/mesh_eight.rs:20;
    benches/ring/baking/atmp/ring_eight.rs:19;
    examples/mesh/mesh_eight_baking_atmp.rs:20;
    examples/ring/ring_eight_baking_atmp.rs:19. *)
Definition generated_062 : generated :=
  (Atmp, [("MeshedChannels", ["A"; "B"; "C"; "D"; "E"; "F"; "G"; "H"])],
   [("choose_mpst_h_to_all", 7)]).
(** benches/mesh/baking/atmp/mesh_five.rs:20;
    benches/ring/baking/atmp/ring_five.rs:20;
    examples/mesh/mesh_five_baking_atmp.rs:20;
    examples/ring/ring_five_baking_atmp.rs:20. *)
Definition generated_063 : generated :=
  (Atmp, [("MeshedChannels", ["A"; "B"; "C"; "D"; "E"])],
   [("choose_mpst_e_to_all", 4)]).
(** benches/mesh/baking/atmp/mesh_four.rs:20;
    benches/ring/baking/atmp/ring_four.rs:20;
    examples/mesh/mesh_four_baking_atmp.rs:20;
    examples/ring/ring_four_baking_atmp.rs:20. *)
Definition generated_064 : generated :=
  (Atmp, [("MeshedChannels", ["A"; "B"; "C"; "D"])],
   [("choose_mpst_d_to_all", 3)]).
(** benches/mesh/baking/atmp/mesh_nine.rs:20;
    benches/ring/baking/atmp/ring_nine.rs:20;
    examples/mesh/mesh_nine_baking_atmp.rs:20;
    examples/ring/ring_nine_baking_atmp.rs:20. *)
Definition generated_065 : generated :=
  (Atmp, [("MeshedChannels", ["A"; "B"; "C"; "D"; "E"; "F"; "G"; "H"; "I"])],
   [("choose_mpst_i_to_all", 8)]).
(** benches/mesh/baking/atmp/mesh_seven.rs:20;
    benches/ring/baking/atmp/ring_seven.rs:20;
    examples/mesh/mesh_seven_baking_atmp.rs:20;
    examples/ring/ring_seven_baking_atmp.rs:20. *)
Definition generated_066 : generated :=
  (Atmp, [("MeshedChannels", ["A"; "B"; "C"; "D"; "E"; "F"; "G"])],
   [("choose_mpst_g_to_all", 6)]).
(** benches/mesh/baking/atmp/mesh_six.rs:20;
    benches/ring/baking/atmp/ring_six.rs:20;
    examples/mesh/mesh_six_baking_atmp.rs:20;
    examples/ring/ring_six_baking_atmp.rs:20. *)
Definition generated_067 : generated :=
  (Atmp, [("MeshedChannels", ["A"; "B"; "C"; "D"; "E"; "F"])],
   [("choose_mpst_f_to_all", 5)]).
(** benches/mesh/baking/atmp/mesh_ten.rs:20;
    benches/ring/baking/atmp/ring_ten.rs:20;
    examples/mesh/mesh_ten_baking_atmp.rs:20;
    examples/ring/ring_ten_baking_atmp.rs:20. *)
Definition generated_068 : generated :=
  (Atmp, [("MeshedChannels", ["A"; "B"; "C"; "D"; "E"; "F"; "G"; "H"; "I"; "J"])],
   [("choose_mpst_j_to_all", 9)]).
(** benches/mesh/baking/atmp/mesh_two.rs:20;
    benches/ring/baking/atmp/ring_two.rs:20;
    examples/mesh/mesh_two_baking_atmp.rs:20;
    examples/ring/ring_two_baking_atmp.rs:20. *)
Definition generated_069 : generated :=
  (Atmp, [("MeshedChannels", ["A"; "B"])],
   [("choose_mpst_b_to_all", 1)]).
(** benches/mesh/baking/mpst/mesh_eight.rs:17;
    benches/ring/baking/mpst/ring_eight.rs:16;
    examples/mesh/mesh_eight_baking_mpst.rs:17;
    examples/ring/ring_eight_baking_mpst.rs:16. *)
Definition generated_070 : generated :=
  (Recursive, [("MeshedChannels", ["A"; "B"; "C"; "D"; "E"; "F"; "G"; "H"])],
   [("choose_mpst_h_to_all", 7)]).
(** benches/mesh/baking/mpst/mesh_eleven.rs:17;
    benches/ring/baking/mpst/ring_eleven.rs:17;
    examples/mesh/mesh_eleven_baking_mpst.rs:17;
    examples/ring/ring_eleven_baking_mpst.rs:17. *)
Definition generated_071 : generated :=
  (Recursive, [("MeshedChannels", ["A"; "B"; "C"; "D"; "E"; "F"; "G"; "H"; "I"; "J"; "K"])],
   [("choose_mpst_k_to_all", 10)]).
(** benches/mesh/baking/mpst/mesh_five.rs:17;
    benches/ring/baking/mpst/ring_five.rs:17;
    examples/mesh/mesh_five_baking_mpst.rs:17;
    examples/ring/ring_five_baking_mpst.rs:17. *)
Definition generated_072 : generated :=
  (Recursive, [("MeshedChannels", ["A"; "B"; "C"; "D"; "E"])],
   [("choose_mpst_e_to_all", 4)]).
(** benches/mesh/baking/mpst/mesh_four.rs:17;
    benches/ring/baking/mpst/ring_four.rs:17;
    examples/mesh/mesh_four_baking_mpst.rs:17;
    examples/ring/ring_four_baking_mpst.rs:17. *)
Definition generated_073 : generated :=
  (Recursive, [("MeshedChannels", ["A"; "B"; "C"; "D"])],
   [("choose_mpst_d_to_all", 3)]).
(** benches/mesh/baking/mpst/mesh_nine.rs:17;
    benches/ring/baking/mpst/ring_nine.rs:17;
    examples/mesh/mesh_nine_baking_mpst.rs:17;
    examples/ring/ring_nine_baking_mpst.rs:17. *)
Definition generated_074 : generated :=
  (Recursive, [("MeshedChannels", ["A"; "B"; "C"; "D"; "E"; "F"; "G"; "H"; "I"])],
   [("choose_mpst_i_to_all", 8)]).
(** benches/mesh/baking/mpst/mesh_seven.rs:17;
    benches/ring/baking/mpst/ring_seven.rs:17;
    examples/mesh/mesh_seven_baking_mpst.rs:17;
    examples/ring/ring_seven_baking_mpst.rs:17. *)
Definition generated_075 : generated :=
  (Recursive, [("MeshedChannels", ["A"; "B"; "C"; "D"; "E"; "F"; "G"])],
   [("choose_mpst_g_to_all", 6)]).
(** benches/mesh/baking/mpst/mesh_six.rs:17;
    benches/ring/baking/mpst/ring_six.rs:17;
    examples/mesh/mesh_six_baking_mpst.rs:17;
    examples/ring/ring_six_baking_mpst.rs:17. *)
Definition generated_076 : generated :=
  (Recursive, [("MeshedChannels", ["A"; "B"; "C"; "D"; "E"; "F"])],
   [("choose_mpst_f_to_all", 5)]).
(** benches/mesh/baking/mpst/mesh_ten.rs:17;
    benches/ring/baking/mpst/ring_ten.rs:17;
    examples/mesh/mesh_ten_baking_mpst.rs:17;
    examples/ring/ring_ten_baking_mpst.rs:17. *)
Definition generated_077 : generated :=
  (Recursive, [("MeshedChannels", ["A"; "B"; "C"; "D"; "E"; "F"; "G"; "H"; "I"; "J"])],
   [("choose_mpst_j_to_all", 9)]).
(** benches/mesh/baking/mpst/mesh_twenty.rs:17-40;
    benches/ring/baking/mpst/ring_twenty.rs:17-40;
    examples/mesh/mesh_twenty_baking_mpst.rs:17-40;
    examples/ring/ring_twenty_baking_mpst.rs:17-40. *)
Definition generated_078 : generated :=
  (Recursive, [("MeshedChannels", ["A"; "B"; "C"; "D"; "E"; "F"; "G"; "H"; "I"; "J"; "K"; "L"; "M"; "N"; "O"; "P"; "Q"; "R"; "S"; "T"])],
   [("choose_mpst_t_to_all", 19)]).
(** benches/mesh/baking/mpst/mesh_two.rs:17;
    benches/ring/baking/mpst/ring_two.rs:17;
    examples/mesh/mesh_two_baking_mpst.rs:17;
    examples/ring/ring_two_baking_mpst.rs:17. *)
Definition generated_079 : generated :=
  (Recursive, [("MeshedChannels", ["A"; "B"])],
   [("choose_mpst_b_to_all", 1)]).
(** examples/artifact_atmp/generated_files/RemoteData.rs:12. *)
Definition generated_080 : generated :=
  (Atmp, [("MeshedChannels", ["Satellite"; "Sensor"; "Server"])],
   []).
(** examples/artifact_atmp/generated_files/Servo.rs:11;
    examples/artifact_atmp/generated_files/ServoCorrect.rs:11. *)
Definition generated_081 : generated :=
  (Atmp, [("MeshedChannels", ["C"; "L"; "S"])],
   []).
(** examples/artifact_atmp/generated_files/ThreeBuyers.rs:12. *)
Definition generated_082 : generated :=
  (Atmp, [("MeshedChannels", ["A"; "C"; "S"])],
   []).
(** examples/interleaved/atmp/circuit_breaker_logging.rs:15-28. *)
Definition generated_083 : generated :=
  (AtmpInterleaved, [("MeshedChannelsFour", ["Api"; "ControllerCB"; "Storage"; "User"]); ("MeshedChannelsTwo", ["ControllerLog"; "Logs"])],
   [("choose_mpst_controllercb_to_all", 3); ("choose_mpst_controllerlog_to_all", 1); ("choose_mpst_logs_to_all", 1)]).
(** examples/interleaved/atmp/sleeping_barber.rs:13-24. *)
Definition generated_084 : generated :=
  (AtmpInterleaved, [("MeshedChannelsBarber", ["Barber"; "ShopBarber"]); ("MeshedChannelsClient", ["Client"; "ShopClient"])],
   [("choose_mpst_shopbarber_to_all", 1); ("choose_mpst_shopclient_to_all", 1)]).
(** examples/interleaved/baking/circuit_breaker_logging.rs:13-26;
    tests/interleaved_mod/macro_multi_recursion.rs:15-28. *)
Definition generated_085 : generated :=
  (Interleaved, [("MeshedChannelsFour", ["Api"; "ControllerCB"; "Storage"; "User"]); ("MeshedChannelsTwo", ["ControllerLog"; "Logs"])],
   [("choose_mpst_controllercb_to_all", 3); ("choose_mpst_controllerlog_to_all", 1); ("choose_mpst_logs_to_all", 1)]).
(** examples/interleaved/baking/sleeping_barber.rs:10-21. *)
Definition generated_086 : generated :=
  (Interleaved, [("MeshedChannelsBarber", ["Barber"; "ShopBarber"]); ("MeshedChannelsClient", ["Client"; "ShopClient"])],
   [("choose_mpst_shopbarber_to_all", 1); ("choose_mpst_shopclient_to_all", 1)]).
(** tests/baking_atmp_mod/timeless.rs:14;
    tests/baking_atmp_mod/timers.rs:15;
    tests/baking_atmp_mod/timers_err.rs:15. *)
Definition generated_087 : generated :=
  (Atmp, [("MeshedChannels", ["A"; "B"; "D"])],
   [("choose_mpst_d_to_all", 2)]).
(** tests/baking_message_mod/macro_multi_recursion_message.rs:19;
    tests/baking_message_mod/macro_multi_recursion_message_option.rs:22;
    tests/baking_mod/macros_baking/macro_basics.rs:9;
    tests/baking_mod/macros_baking/macro_multi_choice.rs:12;
    tests/baking_mod/macros_baking/macro_multi_recursion.rs:12;
    tests/baking_mod/macros_baking/macro_multi_recursion_macro_of_macro.rs:12. *)
Definition generated_088 : generated :=
  (Basic, [("MeshedChannels", ["A"; "B"; "D"])],
   []).
(** tests/baking_mod/unit_meshedchannels.rs:10;
    tests/baking_mod/macros_baking/macro_choice.rs:12;
    tests/baking_mod/macros_baking/macro_recursive.rs:13;
    tests/extra_mod/baking/long_simple_three_mpst_short_fail.rs:9. *)
Definition generated_089 : generated :=
  (Basic, [("MeshedChannels", ["A"; "B"; "C"])],
   []).
(** tests/baking_mod/macros_baking/macro_multi_recursion_short.rs:12. *)
Definition generated_090 : generated :=
  (Recursive, [("MeshedChannels", ["A"; "B"; "D"])],
   [("choose_mpst_d_to_all", 2)]).
(** tests/baking_mod/macros_baking/macro_multi_send_recv_meshedchannels.rs:9. *)
Definition generated_091 : generated :=
  (Basic, [("MeshedChannels", ["A"; "B"; "C"; "D"; "E"])],
   []).
(** tests/cancel_mod/cancel_15.rs:12. *)
Definition generated_092 : generated :=
  (Cancel, [("MeshedChannels", ["A"; "B"; "C"])],
   []).
(** tests/cancel_mod/cancel_16.rs:12. *)
Definition generated_093 : generated :=
  (RecAndCancel, [("MeshedChannels", ["A"; "B"; "C"])],
   []).
(** tests/nuscr_mod/correct/Basic.rs:11;
    tests/nuscr_mod/correct/Choice.rs:12;
    tests/nuscr_mod/correct/Recursion.rs:12;
    tests/nuscr_mod/correct/basic_correct.rs:14. *)
Definition generated_094 : generated :=
  (Atmp, [("MeshedChannels", ["A"; "B"; "C"])],
   []).
(** tests/nuscr_mod/correct/choice_correct.rs:13;
    tests/nuscr_mod/correct/recursion_correct.rs:12. *)
Definition generated_095 : generated :=
  (Atmp, [("MeshedChannels", ["A"; "B"; "C"])],
   [("choose_mpst_a_to_all", 2)]).

(** All of the above. *)
Definition all_generated : list generated :=
  [generated_000; generated_001; generated_002; generated_003; generated_004; generated_005; generated_006; generated_007;
   generated_008; generated_009; generated_010; generated_011; generated_012; generated_013; generated_014; generated_015;
   generated_016; generated_017; generated_018; generated_019; generated_020; generated_021; generated_022; generated_023;
   generated_024; generated_025; generated_026; generated_027; generated_028; generated_029; generated_030; generated_031;
   generated_032; generated_033; generated_034; generated_035; generated_036; generated_037; generated_038; generated_039;
   generated_040; generated_041; generated_042; generated_043; generated_044; generated_045; generated_046; generated_047;
   generated_048; generated_049; generated_050; generated_051; generated_052; generated_053; generated_054; generated_055;
   generated_056; generated_057; generated_058; generated_059; generated_060; generated_061; generated_062; generated_063;
   generated_064; generated_065; generated_066; generated_067; generated_068; generated_069; generated_070; generated_071;
   generated_072; generated_073; generated_074; generated_075; generated_076; generated_077; generated_078; generated_079;
   generated_080; generated_081; generated_082; generated_083; generated_084; generated_085; generated_086; generated_087;
   generated_088; generated_089; generated_090; generated_091; generated_092; generated_093; generated_094; generated_095].
