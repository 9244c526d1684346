(** clink/terminal/src/wcwidth.cpp 88-137, 209-333, 355-440, 511-537 and emoji-test.i: the width of a character in
    cells. *)
From Verif Require Import Base.
Open Scope N_scope.

(** wcwidth.cpp 116-120 *)
Definition halfwidth_exceptions : list (N * N) := [
   (12351, 12351); (12872, 12879); (19904, 19967)].

(** wcwidth.cpp 126-175 *)
Definition combining : list (N * N) := [
   (768, 879); (1155, 1158); (1160, 1161); (1425, 1469); (1471, 1471); (1473, 1474); (1476, 1477); (1479, 1479);
   (1536, 1539); (1552, 1557); (1611, 1630); (1648, 1648); (1750, 1764); (1767, 1768); (1770, 1773); (1807, 1807);
   (1809, 1809); (1840, 1866); (1958, 1968); (2027, 2035); (2305, 2306); (2364, 2364); (2369, 2376); (2381, 2381);
   (2385, 2388); (2402, 2403); (2433, 2433); (2492, 2492); (2497, 2500); (2509, 2509); (2530, 2531); (2561, 2562);
   (2620, 2620); (2625, 2626); (2631, 2632); (2635, 2637); (2672, 2673); (2689, 2690); (2748, 2748); (2753, 2757);
   (2759, 2760); (2765, 2765); (2786, 2787); (2817, 2817); (2876, 2876); (2879, 2879); (2881, 2883); (2893, 2893);
   (2902, 2902); (2946, 2946); (3008, 3008); (3021, 3021); (3134, 3136); (3142, 3144); (3146, 3149); (3157, 3158);
   (3260, 3260); (3263, 3263); (3270, 3270); (3276, 3277); (3298, 3299); (3393, 3395); (3405, 3405); (3530, 3530);
   (3538, 3540); (3542, 3542); (3633, 3633); (3636, 3642); (3655, 3662); (3761, 3761); (3764, 3769); (3771, 3772);
   (3784, 3789); (3864, 3865); (3893, 3893); (3895, 3895); (3897, 3897); (3953, 3966); (3968, 3972); (3974, 3975);
   (3984, 3991); (3993, 4028); (4038, 4038); (4141, 4144); (4146, 4146); (4150, 4151); (4153, 4153); (4184, 4185);
   (4448, 4607); (4959, 4959); (5906, 5908); (5938, 5940); (5970, 5971); (6002, 6003); (6068, 6069); (6071, 6077);
   (6086, 6086); (6089, 6099); (6109, 6109); (6155, 6157); (6313, 6313); (6432, 6434); (6439, 6440); (6450, 6450);
   (6457, 6459); (6679, 6680); (6912, 6915); (6964, 6964); (6966, 6970); (6972, 6972); (6978, 6978); (7019, 7027);
   (7616, 7626); (7678, 7679); (8203, 8207); (8234, 8238); (8288, 8291); (8298, 8303); (8400, 8431); (12330, 12335);
   (12441, 12442); (43014, 43014); (43019, 43019); (43045, 43046); (64286, 64286); (65024, 65039); (65056, 65059);
   (65279, 65279); (65529, 65531); (68097, 68099); (68101, 68102); (68108, 68111); (68152, 68154); (68159, 68159);
   (119143, 119145); (119155, 119170); (119173, 119179); (119210, 119213); (119362, 119364); (127995, 127999);
   (917505, 917505); (917536, 917631); (917760, 917999)].

(** wcwidth.cpp 259-293 *)
Definition ucs2_fullwidth_emoji : list (N * N) := [
   (8986, 8987); (9193, 9196); (9200, 9200); (9203, 9203); (9725, 9726); (9748, 9749); (9800, 9811); (9855, 9855);
   (9875, 9875); (9889, 9889); (9898, 9899); (9917, 9918); (9924, 9925); (9934, 9934); (9940, 9940); (9962, 9962);
   (9970, 9971); (9973, 9973); (9978, 9978); (9981, 9981); (9989, 9989); (9994, 9995); (10024, 10024); (10060,
   10060); (10062, 10062); (10067, 10069); (10071, 10071); (10133, 10135); (10160, 10160); (10175, 10175); (11035,
   11036); (11088, 11088); (11093, 11093)].

(** wcwidth.cpp 358-411 *)
Definition ambiguous : list (N * N) := [
   (161, 161); (164, 164); (167, 168); (170, 170); (174, 174); (176, 180); (182, 186); (188, 191); (198, 198); (208,
   208); (215, 216); (222, 225); (230, 230); (232, 234); (236, 237); (240, 240); (242, 243); (247, 250); (252, 252);
   (254, 254); (257, 257); (273, 273); (275, 275); (283, 283); (294, 295); (299, 299); (305, 307); (312, 312); (319,
   322); (324, 324); (328, 331); (333, 333); (338, 339); (358, 359); (363, 363); (462, 462); (464, 464); (466, 466);
   (468, 468); (470, 470); (472, 472); (474, 474); (476, 476); (593, 593); (609, 609); (708, 708); (711, 711); (713,
   715); (717, 717); (720, 720); (728, 731); (733, 733); (735, 735); (913, 929); (931, 937); (945, 961); (963, 969);
   (1025, 1025); (1040, 1103); (1105, 1105); (8208, 8208); (8211, 8214); (8216, 8217); (8220, 8221); (8224, 8226);
   (8228, 8231); (8240, 8240); (8242, 8243); (8245, 8245); (8251, 8251); (8254, 8254); (8308, 8308); (8319, 8319);
   (8321, 8324); (8364, 8364); (8451, 8451); (8453, 8453); (8457, 8457); (8467, 8467); (8470, 8470); (8481, 8482);
   (8486, 8486); (8491, 8491); (8531, 8532); (8539, 8542); (8544, 8555); (8560, 8569); (8592, 8601); (8632, 8633);
   (8658, 8658); (8660, 8660); (8679, 8679); (8704, 8704); (8706, 8707); (8711, 8712); (8715, 8715); (8719, 8719);
   (8721, 8721); (8725, 8725); (8730, 8730); (8733, 8736); (8739, 8739); (8741, 8741); (8743, 8748); (8750, 8750);
   (8756, 8759); (8764, 8765); (8776, 8776); (8780, 8780); (8786, 8786); (8800, 8801); (8804, 8807); (8810, 8811);
   (8814, 8815); (8834, 8835); (8838, 8839); (8853, 8853); (8857, 8857); (8869, 8869); (8895, 8895); (8978, 8978);
   (9312, 9449); (9451, 9547); (9552, 9587); (9600, 9615); (9618, 9621); (9632, 9633); (9635, 9641); (9650, 9651);
   (9654, 9655); (9660, 9661); (9664, 9665); (9670, 9672); (9675, 9675); (9678, 9681); (9698, 9701); (9711, 9711);
   (9733, 9734); (9737, 9737); (9742, 9743); (9748, 9749); (9756, 9756); (9758, 9758); (9792, 9792); (9794, 9794);
   (9824, 9825); (9827, 9829); (9831, 9834); (9836, 9837); (9839, 9839); (10045, 10045); (10102, 10111); (57344,
   63743); (65533, 65533); (983040, 1048573); (1048576, 1114109)].

(** emoji-test.i 3-87 *)
Definition emojis : list (N * N) := [
   (8986, 8987); (9193, 9196); (9200, 9200); (9203, 9203); (9725, 9726); (9748, 9749); (9800, 9811); (9855, 9855);
   (9875, 9875); (9889, 9889); (9898, 9899); (9917, 9918); (9924, 9925); (9934, 9934); (9940, 9940); (9962, 9962);
   (9970, 9971); (9973, 9973); (9978, 9978); (9981, 9981); (9989, 9989); (9994, 9995); (10024, 10024); (10060,
   10060); (10062, 10062); (10067, 10069); (10071, 10071); (10133, 10135); (10160, 10160); (10175, 10175); (11035,
   11036); (11088, 11088); (11093, 11093); (126980, 126980); (127183, 127183); (127374, 127374); (127377, 127386);
   (127489, 127489); (127514, 127514); (127535, 127535); (127538, 127542); (127544, 127546); (127568, 127569);
   (127744, 127776); (127789, 127797); (127799, 127868); (127870, 127891); (127904, 127946); (127951, 127955);
   (127968, 127984); (127988, 127988); (127992, 127994); (128000, 128062); (128064, 128064); (128066, 128252);
   (128255, 128317); (128331, 128334); (128336, 128359); (128378, 128378); (128405, 128406); (128420, 128420);
   (128507, 128591); (128640, 128709); (128716, 128716); (128720, 128722); (128725, 128727); (128732, 128735);
   (128747, 128748); (128756, 128764); (128992, 129003); (129008, 129008); (129292, 129338); (129340, 129349);
   (129351, 129535); (129648, 129660); (129664, 129672); (129680, 129725); (129727, 129733); (129742, 129755);
   (129760, 129768); (129776, 129784)].

(** emoji-test.i 129-248 *)
Definition possible_unqualified_half_width : list (N * N) := [
   (169, 169); (174, 174); (8252, 8252); (8265, 8265); (8482, 8482); (8505, 8505); (8596, 8601); (8617, 8618);
   (9000, 9000); (9167, 9167); (9197, 9199); (9201, 9202); (9208, 9210); (9410, 9410); (9642, 9643); (9654, 9654);
   (9664, 9664); (9723, 9724); (9728, 9732); (9742, 9742); (9745, 9745); (9752, 9752); (9757, 9757); (9760, 9760);
   (9762, 9763); (9766, 9766); (9770, 9770); (9774, 9775); (9784, 9786); (9792, 9792); (9794, 9794); (9823, 9824);
   (9827, 9827); (9829, 9830); (9832, 9832); (9851, 9851); (9854, 9854); (9874, 9874); (9876, 9879); (9881, 9881);
   (9883, 9884); (9888, 9888); (9895, 9895); (9904, 9905); (9928, 9928); (9935, 9935); (9937, 9937); (9939, 9939);
   (9961, 9961); (9968, 9969); (9972, 9972); (9975, 9977); (9986, 9986); (9992, 9993); (9996, 9997); (9999, 9999);
   (10002, 10002); (10004, 10004); (10006, 10006); (10013, 10013); (10017, 10017); (10035, 10036); (10052, 10052);
   (10055, 10055); (10083, 10084); (10145, 10145); (10548, 10549); (11013, 11015); (12336, 12336); (12349, 12349);
   (12951, 12951); (12953, 12953); (127344, 127345); (127358, 127359); (127490, 127490); (127543, 127543); (127777,
   127777); (127780, 127788); (127798, 127798); (127869, 127869); (127894, 127895); (127897, 127899); (127902,
   127903); (127947, 127950); (127956, 127967); (127987, 127987); (127989, 127989); (127991, 127991); (128063,
   128063); (128065, 128065); (128253, 128253); (128329, 128330); (128367, 128368); (128371, 128377); (128391,
   128391); (128394, 128397); (128400, 128400); (128421, 128421); (128424, 128424); (128433, 128434); (128444,
   128444); (128450, 128452); (128465, 128467); (128476, 128478); (128481, 128481); (128483, 128483); (128488,
   128488); (128495, 128495); (128499, 128499); (128506, 128506); (128715, 128715); (128717, 128719); (128736,
   128741); (128745, 128745); (128752, 128752); (128755, 128755)].


(** 93-111: while (max >= min); int32 indices; [None]: a read outside the table, or out of fuel *)
Fixpoint bi_loop (fuel : nat) (c : N) (tab : list (N * N)) (mn mx : Z) : option bool :=
  match fuel with
  | O => None
  | S fuel =>
    if (mn <=? mx)%Z then
      let mid := Z.quot (mn + mx) 2 in
      if (mid <? 0)%Z then None else
      match nth_error tab (Z.to_nat mid) with
      | None => None
      | Some (a, b) => if b <? c then bi_loop fuel c tab (mid + 1) mx else if c <? a then bi_loop fuel c tab mn (mid - 1) else Some true
      end
    else Some false
  end.
(** the last argument is the count of the table less one *)
Definition bisearch (c : N) (tab : list (N * N)) (mx : Z) : option bool :=
  match tab, nth_error tab (Z.to_nat mx) with
  | (a, _) :: _, Some (_, b) => if (c <? a) || (b <? c) then Some false else bi_loop (S (length tab)) c tab 0 mx
  | _, _ => None
  end.
Definition found (c : N) (tab : list (N * N)) : bool := match bisearch c tab (Z.of_nat (length tab) - 1) with Some b => b | None => false end.

(** 511-537 *)
Definition is_variant_selector (c : N) : bool := (c =? 65039) || ((127995 <=? c) && (c <=? 127999)).
Definition is_possible_unqualified_half_width (c : N) : bool := found c possible_unqualified_half_width.
Definition is_emoji (c : N) : bool := found c emojis.
(** 115-122 *)
Definition is_cjk_halfwidth (c : N) : bool := found c halfwidth_exceptions.
Definition within (a b c : N) : bool := (a <=? c) && (c <=? b).

(** 209-255; [ce] is g_color_emoji, [cm] is s_combining_mark_width *)
Definition mk_wcwidth (ce : bool) (cm : Z) (c : N) : Z :=
  if c =? 0 then 0%Z
  else if c <? 32 then (-1)%Z
  else if c <=? 126 then 1%Z
  else if c <? 160 then (-1)%Z
  else if ce && is_possible_unqualified_half_width c then 1%Z
  else if ce && is_emoji c then 2%Z
  else if found c combining then cm
  else if c <? 4352 then 1%Z
  else if c <=? 4447 then 2%Z
  else if (c =? 9001) || (c =? 9002) then 2%Z
  else if within 11904 42191 c then (1 + Z.b2z (negb (is_cjk_halfwidth c)))%Z
  else if within 44032 55203 c then (1 + Z.b2z (negb (is_cjk_halfwidth c)))%Z
  else if within 63744 64255 c || within 65040 65049 c || within 65072 65135 c || within 65280 65376 c || within 65504 65510 c || within 131072 196605 c || within 196608 262141 c then 2%Z
  else 1%Z.

(** 257-333 *)
Definition mk_wcwidth_ucs2 (win10 win11 : bool) (cm : Z) (c : N) : Z :=
  if c =? 0 then 0%Z
  else if c <? 32 then (-1)%Z
  else if c <=? 126 then 1%Z
  else if c <? 160 then (-1)%Z
  else if found c combining then cm
  else if c <? 4352 then 1%Z
  else if win10 && (c <=? 4447) then 2%Z
  else if win10 && ((c =? 9001) || (c =? 9002)) then 2%Z
  else if win10 && win11 && found c ucs2_fullwidth_emoji then 2%Z
  else if win10 && within 11904 42191 c then (1 + Z.b2z (negb (is_cjk_halfwidth c)))%Z
  else if win10 && within 44032 55203 c then (1 + Z.b2z (negb (is_cjk_halfwidth c)))%Z
  else if win10 && (within 63744 64255 c || within 65040 65049 c || within 65072 65135 c) then 2%Z
  else if win10 && (within 65280 65376 c || within 65504 65510 c) then 2%Z
  else if 65536 <=? c then 2%Z
  else 1%Z.

(** 422-438; [resolve] is resolve_ambiguous_wcwidth, which asks the font or the terminal *)
Definition mk_cjk (resolve : N -> Z) (base : N -> Z) (c : N) : Z := if found c ambiguous then resolve c else base c.
