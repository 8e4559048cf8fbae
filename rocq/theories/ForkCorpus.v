(** The choices that programs of the repository make with an explicit index: 154 files. A use is the kind of macro, the position
    of the chooser in the order of the roles, and the index written in the file ([exclusion]). *)
From Coq Require Import List.
Import ListNotations.

(** choose_mpst_multi_to_all! and choose_mpst_create_multi_to_all!, choose_mpst_multi_cancel_to_all!,
    create_fn_choose_mpst_multi_to_all_bundle!, create_fn_choose_mpst_cancel_multi_to_all_bundle!
    (src/macros_multiple/choose.rs:289-305, 362-371, 478-498, 539-561, 603-627). *)
Inductive choice_kind := Macro | MacroCancel | Fns | FnsCancel.

(** Number of roles (with the broadcaster), uses; the files are named above each definition. *)
Definition choice_file : Type := (nat * list (choice_kind * nat * nat))%type.

(** benches/examples/basic/calculator.rs:117-124, 130-137;
    benches/examples/basic/three_buyers.rs:144-151, 159-166;
    benches/examples/basic/travel_agency.rs:168-175, 179-186, 199-206, 213-220. *)
Definition choices_00 : choice_file := (3, [(Macro, 2, 2)]).
(** benches/examples/basic/circuit_breaker.rs:273-281, 290-298, 305-313;
    examples/basic/circuit_breaker.rs:265-273, 282-290, 297-305. *)
Definition choices_01 : choice_file := (4, [(Macro, 2, 2)]).
(** benches/examples/basic/dns_imai.rs:119-119;
    tests/macros_multiple_mod/macro_multi_recursion.rs:164-171, 179-186. *)
Definition choices_02 : choice_file := (3, [(Macro, 3, 3)]).
(** benches/examples/basic/fib_mpst.rs:86-92, 97-103;
    benches/ping_pong_save/ping_pong_cancel_1.rs:76-82, 87-93;
    benches/ping_pong_save/ping_pong_mpst_1.rs:76-82, 87-93;
    examples/ping_pong_save/ping_pong_cancel_1.rs:74-80, 85-91;
    examples/ping_pong_save/ping_pong_mpst_1.rs:74-80, 85-91. *)
Definition choices_03 : choice_file := (2, [(Macro, 1, 1)]).
(** benches/examples/basic/logging.rs:131-137, 145-151, 169-175, 183-189;
    benches/examples/basic/simple_voting.rs:115-121, 127-133, 147-153, 159-165;
    examples/basic/logging.rs:133-139, 147-153, 171-177, 185-191. *)
Definition choices_04 : choice_file := (2, [(Macro, 1, 2); (Macro, 2, 2)]).
(** benches/examples/basic/online_wallet.rs:161-168, 175-182, 259-266, 273-280. *)
Definition choices_05 : choice_file := (3, [(Macro, 1, 1); (Macro, 2, 2)]).
(** benches/examples/basic/smtp.rs:226-230, 237-241, 268-272, 279-283, 296-300, 307-311, 338-342, 349-353, 380-384, 391-395, 422-426, 434-438, 452-456, 463-467, 474-478, 513-517, 524-528, 571-575, 582-586, 613-617, 624-628, 655-659, 666-670. *)
Definition choices_06 : choice_file := (2, [(Macro, 1, 1); (Macro, 2, 2)]).
(** benches/mesh/cancel/mesh_eight.rs:413-432;
    benches/mesh/empty/mpst/mesh_eight.rs:413-432;
    benches/mesh/normal/mpst/mesh_eight.rs:413-432;
    benches/ring/cancel/ring_eight.rs:423-436;
    benches/ring/empty/mpst/ring_eight.rs:423-436;
    benches/ring/normal/mpst/ring_eight.rs:423-436;
    examples/mesh/mesh_eight_cancel.rs:407-426;
    examples/ring/ring_eight_cancel.rs:417-430. *)
Definition choices_07 : choice_file := (8, [(Fns, 8, 8)]).
(** benches/mesh/cancel/mesh_eleven.rs:664-689;
    benches/mesh/empty/mpst/mesh_eleven.rs:664-689;
    benches/mesh/normal/mpst/mesh_eleven.rs:664-689;
    benches/ring/cancel/ring_eleven.rs:650-675;
    benches/ring/empty/mpst/ring_eleven.rs:650-675;
    benches/ring/normal/mpst/ring_eleven.rs:650-675;
    examples/mesh/mesh_eleven_cancel.rs:778-803;
    examples/ring/ring_eleven_cancel.rs:764-789. *)
Definition choices_08 : choice_file := (11, [(Fns, 11, 11)]).
(** benches/mesh/cancel/mesh_five.rs:227-240;
    benches/mesh/empty/mpst/mesh_five.rs:227-240;
    benches/mesh/normal/mpst/mesh_five.rs:227-240;
    benches/ring/cancel/ring_five.rs:225-235;
    benches/ring/empty/mpst/ring_five.rs:225-235;
    benches/ring/normal/mpst/ring_five.rs:225-235;
    examples/mesh/mesh_five_cancel.rs:221-234;
    examples/ring/ring_five_cancel.rs:219-229. *)
Definition choices_09 : choice_file := (5, [(Fns, 5, 5)]).
(** benches/mesh/cancel/mesh_four.rs:172-183;
    benches/mesh/empty/mpst/mesh_four.rs:172-183;
    benches/mesh/normal/mpst/mesh_four.rs:172-183;
    benches/ring/cancel/ring_four.rs:170-179;
    benches/ring/empty/mpst/ring_four.rs:170-179;
    benches/ring/normal/mpst/ring_four.rs:170-179;
    examples/mesh/mesh_four_cancel.rs:166-177;
    examples/ring/ring_four_cancel.rs:164-173. *)
Definition choices_10 : choice_file := (4, [(Fns, 4, 4)]).
(** benches/mesh/cancel/mesh_nine.rs:495-516;
    benches/mesh/empty/mpst/mesh_nine.rs:495-516;
    benches/mesh/normal/mpst/mesh_nine.rs:495-516;
    benches/ring/cancel/ring_nine.rs:499-513;
    benches/ring/empty/mpst/ring_nine.rs:499-513;
    benches/ring/normal/mpst/ring_nine.rs:499-513;
    examples/mesh/mesh_nine_cancel.rs:489-510;
    examples/ring/ring_nine_cancel.rs:493-507. *)
Definition choices_11 : choice_file := (9, [(Fns, 9, 9)]).
(** benches/mesh/cancel/mesh_seven.rs:345-362;
    benches/mesh/empty/mpst/mesh_seven.rs:345-362;
    benches/mesh/normal/mpst/mesh_seven.rs:345-362;
    benches/ring/cancel/ring_seven.rs:341-353;
    benches/ring/empty/mpst/ring_seven.rs:341-353;
    benches/ring/normal/mpst/ring_seven.rs:341-353;
    examples/mesh/mesh_seven_cancel.rs:339-356;
    examples/ring/ring_seven_cancel.rs:353-365. *)
Definition choices_12 : choice_file := (7, [(Fns, 7, 7)]).
(** benches/mesh/cancel/mesh_six.rs:283-298;
    benches/mesh/empty/mpst/mesh_six.rs:283-298;
    benches/mesh/normal/mpst/mesh_six.rs:283-298;
    benches/ring/cancel/ring_six.rs:281-292;
    benches/ring/empty/mpst/ring_six.rs:281-292;
    benches/ring/normal/mpst/ring_six.rs:281-292;
    examples/mesh/mesh_six_cancel.rs:277-292;
    examples/ring/ring_six_cancel.rs:275-286. *)
Definition choices_13 : choice_file := (6, [(Fns, 6, 6)]).
(** benches/mesh/cancel/mesh_ten.rs:576-599;
    benches/mesh/empty/mpst/mesh_ten.rs:576-599;
    benches/mesh/normal/mpst/mesh_ten.rs:576-599;
    benches/ring/cancel/ring_ten.rs:572-595;
    benches/ring/empty/mpst/ring_ten.rs:572-595;
    benches/ring/normal/mpst/ring_ten.rs:572-595;
    examples/mesh/mesh_ten_cancel.rs:570-593;
    examples/ring/ring_ten_cancel.rs:566-589. *)
Definition choices_14 : choice_file := (10, [(Fns, 10, 10)]).
(** benches/mesh/cancel/mesh_three.rs:115-122;
    benches/mesh/empty/mpst/mesh_three.rs:114-121;
    benches/mesh/normal/mpst/mesh_three.rs:114-121;
    benches/ring/cancel/ring_three.rs:106-113;
    benches/ring/empty/mpst/ring_three.rs:106-113;
    benches/ring/normal/mpst/ring_three.rs:106-113;
    examples/mesh/mesh_three_cancel.rs:108-115;
    examples/ring/ring_three_cancel.rs:100-107. *)
Definition choices_15 : choice_file := (3, [(Fns, 3, 3)]).
(** benches/mesh/cancel/mesh_twenty.rs:3379-3422;
    benches/mesh/empty/mpst/mesh_twenty.rs:3379-3422;
    benches/mesh/normal/mpst/mesh_twenty.rs:3379-3422;
    benches/ring/cancel/ring_twenty.rs:2399-2442;
    benches/ring/empty/mpst/ring_twenty.rs:2399-2442;
    benches/ring/normal/mpst/ring_twenty.rs:2399-2442;
    examples/mesh/mesh_twenty_cancel.rs:3373-3416;
    examples/ring/ring_twenty_cancel.rs:2393-2436. *)
Definition choices_16 : choice_file := (20, [(Fns, 20, 20)]).
(** benches/mesh/cancel/mesh_two.rs:74-81;
    benches/mesh/empty/mpst/mesh_two.rs:74-81;
    benches/mesh/normal/mpst/mesh_two.rs:74-81;
    benches/ring/cancel/ring_two.rs:75-82;
    benches/ring/empty/mpst/ring_two.rs:75-82;
    benches/ring/normal/mpst/ring_two.rs:75-82;
    examples/mesh/mesh_two_cancel.rs:68-75;
    examples/ring/ring_two_cancel.rs:69-76. *)
Definition choices_17 : choice_file := (2, [(Fns, 2, 2)]).
(** benches/mesh/cancel_broadcast/mesh_eight.rs:431-450;
    benches/ring/cancel_broadcast/ring_eight.rs:449-462;
    examples/mesh/mesh_eight_broadcast_cancel.rs:425-444;
    examples/ring/ring_eight_broadcast_cancel.rs:443-456. *)
Definition choices_18 : choice_file := (9, [(FnsCancel, 9, 9)]).
(** benches/mesh/cancel_broadcast/mesh_eleven.rs:809-834;
    benches/ring/cancel_broadcast/ring_eleven.rs:806-831;
    examples/mesh/mesh_eleven_broadcast_cancel.rs:815-840;
    examples/ring/ring_eleven_broadcast_cancel.rs:812-837. *)
Definition choices_19 : choice_file := (12, [(FnsCancel, 12, 12)]).
(** benches/mesh/cancel_broadcast/mesh_five.rs:235-248;
    benches/ring/cancel_broadcast/ring_five.rs:238-248;
    examples/mesh/mesh_five_broadcast_cancel.rs:228-241;
    examples/ring/ring_five_broadcast_cancel.rs:231-241. *)
Definition choices_20 : choice_file := (6, [(FnsCancel, 6, 6)]).
(** benches/mesh/cancel_broadcast/mesh_four.rs:178-189;
    benches/ring/cancel_broadcast/ring_four.rs:178-187;
    examples/mesh/mesh_four_broadcast_cancel.rs:171-182;
    examples/ring/ring_four_broadcast_cancel.rs:171-180. *)
Definition choices_21 : choice_file := (5, [(FnsCancel, 5, 5)]).
(** benches/mesh/cancel_broadcast/mesh_nine.rs:508-529;
    benches/ring/cancel_broadcast/ring_nine.rs:521-535;
    examples/mesh/mesh_nine_broadcast_cancel.rs:501-522;
    examples/ring/ring_nine_broadcast_cancel.rs:514-528. *)
Definition choices_22 : choice_file := (10, [(FnsCancel, 10, 10)]).
(** benches/mesh/cancel_broadcast/mesh_seven.rs:355-372;
    benches/ring/cancel_broadcast/ring_seven.rs:376-388;
    examples/mesh/mesh_seven_broadcast_cancel.rs:349-366;
    examples/ring/ring_seven_broadcast_cancel.rs:370-382. *)
Definition choices_23 : choice_file := (8, [(FnsCancel, 8, 8)]).
(** benches/mesh/cancel_broadcast/mesh_six.rs:292-307;
    benches/ring/cancel_broadcast/ring_six.rs:296-307;
    examples/mesh/mesh_six_broadcast_cancel.rs:286-301;
    examples/ring/ring_six_broadcast_cancel.rs:308-319. *)
Definition choices_24 : choice_file := (7, [(FnsCancel, 7, 7)]).
(** benches/mesh/cancel_broadcast/mesh_ten.rs:591-614;
    benches/ring/cancel_broadcast/ring_ten.rs:597-620;
    examples/mesh/mesh_ten_broadcast_cancel.rs:704-727;
    examples/ring/ring_ten_broadcast_cancel.rs:710-733. *)
Definition choices_25 : choice_file := (11, [(FnsCancel, 11, 11)]).
(** benches/mesh/cancel_broadcast/mesh_three.rs:117-124;
    benches/ring/cancel_broadcast/ring_three.rs:120-127;
    examples/mesh/mesh_three_broadcast_cancel.rs:110-117;
    examples/ring/ring_three_broadcast_cancel.rs:114-121. *)
Definition choices_26 : choice_file := (4, [(FnsCancel, 4, 4)]).
(** benches/mesh/cancel_broadcast/mesh_twenty.rs:3468-3511;
    benches/ring/cancel_broadcast/ring_twenty.rs:2508-2551;
    examples/mesh/mesh_twenty_broadcast_cancel.rs:3461-3504;
    examples/ring/ring_twenty_broadcast_cancel.rs:2501-2544. *)
Definition choices_27 : choice_file := (21, [(FnsCancel, 21, 21)]).
(** benches/ping_pong_save/ping_pong_cancel_broadcast_1.rs:87-94;
    examples/ping_pong_save/ping_pong_cancel_broadcast_1.rs:74-81;
    tests/cancel_mod/cancel_14.rs:76-83. *)
Definition choices_28 : choice_file := (3, [(FnsCancel, 2, 2)]).
(** tests/cancel_mod/cancel_08.rs:150-160, 165-175;
    tests/cancel_mod/cancel_09.rs:154-164, 169-179;
    tests/cancel_mod/cancel_10.rs:152-162, 168-178;
    tests/cancel_mod/cancel_12.rs:150-160, 165-175;
    tests/cancel_mod/cancel_13.rs:154-164, 169-179. *)
Definition choices_29 : choice_file := (4, [(MacroCancel, 4, 4)]).
(** tests/cancel_mod/cancel_11.rs:95-103, 109-117. *)
Definition choices_30 : choice_file := (3, [(MacroCancel, 3, 3)]).

(** All of them (the files named above). *)
Definition choice_files : list choice_file := [choices_00; choices_01; choices_02; choices_03; choices_04; choices_05; choices_06; choices_07; choices_08; choices_09; choices_10; choices_11; choices_12; choices_13; choices_14; choices_15; choices_16; choices_17; choices_18; choices_19; choices_20; choices_21; choices_22; choices_23; choices_24; choices_25; choices_26; choices_27; choices_28; choices_29; choices_30].
