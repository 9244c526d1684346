(** Model of str_compare_impl (clink/core/include/core/str_compare.h 47-104) and normalize_accent
    (clink/core/src/str_compare.cpp 43-397) over the str_iter of UtfModel.  CharLowerW, a system function, is the variable
    [lower] (any function).  None: a read outside of the memory, or exhausted fuel. *)
From Verif Require Import Base UtfModel.

(** fuzzy_accent_map (str_compare.cpp 65-368), transcribed entry by entry. *)
Definition accents : list (N * N) :=
  [
    (192, 65); (193, 65); (194, 65); (195, 65); (196, 65); (197, 65); (199, 67); (200, 69); (201, 69);
    (202, 69); (203, 69); (204, 73); (205, 73); (206, 73); (207, 73); (208, 68); (209, 78); (210, 79);
    (211, 79); (212, 79); (213, 79); (214, 79); (216, 79); (217, 85); (218, 85); (219, 85); (220, 85);
    (221, 89); (223, 115); (224, 97); (225, 97); (226, 97); (227, 97); (228, 97); (229, 97); (231, 99);
    (232, 101); (233, 101); (234, 101); (235, 101); (236, 105); (237, 105); (238, 105); (239, 105); (240, 100);
    (241, 110); (242, 111); (243, 111); (244, 111); (245, 111); (246, 111); (248, 111); (249, 117); (250, 117);
    (251, 117); (252, 117); (253, 121); (255, 121); (256, 65); (257, 97); (258, 65); (259, 97); (260, 65);
    (261, 97); (262, 67); (263, 99); (264, 67); (265, 99); (266, 67); (267, 99); (268, 67); (269, 99);
    (270, 68); (271, 100); (272, 68); (273, 100); (274, 69); (275, 101); (276, 69); (277, 101); (278, 69);
    (279, 101); (280, 69); (281, 101); (282, 69); (283, 101); (284, 71); (285, 103); (286, 71); (287, 103);
    (288, 71); (289, 103); (290, 71); (291, 103); (292, 72); (293, 104); (294, 72); (295, 104); (296, 73);
    (297, 105); (298, 73); (299, 105); (300, 73); (301, 105); (302, 73); (303, 105); (304, 73); (305, 105);
    (308, 74); (309, 106); (310, 75); (311, 107); (312, 107); (313, 76); (314, 108); (315, 76); (316, 108);
    (317, 76); (318, 108); (319, 76); (320, 108); (321, 76); (322, 108); (323, 78); (324, 110); (325, 78);
    (326, 110); (327, 78); (328, 110); (329, 110); (330, 78); (331, 110); (332, 79); (333, 111); (334, 79);
    (335, 111); (336, 79); (337, 111); (340, 82); (341, 114); (342, 82); (343, 114); (344, 82); (345, 114);
    (346, 83); (347, 115); (348, 83); (349, 115); (350, 83); (351, 115); (352, 83); (353, 115); (354, 84);
    (355, 116); (356, 84); (357, 116); (358, 84); (359, 116); (360, 85); (361, 117); (362, 85); (363, 117);
    (364, 85); (365, 117); (366, 85); (367, 117); (368, 85); (369, 117); (370, 85); (371, 117); (372, 87);
    (373, 119); (374, 89); (375, 121); (376, 89); (377, 90); (378, 122); (379, 90); (380, 122); (381, 90);
    (382, 122); (383, 115); (416, 79); (417, 111); (431, 85); (432, 117); (461, 65); (462, 97); (463, 73);
    (464, 105); (465, 79); (466, 111); (467, 85); (468, 117); (469, 85); (470, 117); (471, 85); (472, 117);
    (473, 85); (474, 117); (475, 85); (476, 117); (536, 83); (537, 115); (538, 84); (539, 116); (593, 97);
    (7840, 65); (7841, 97); (7842, 65); (7843, 97); (7844, 65); (7845, 97); (7846, 65); (7847, 97); (7848, 65);
    (7849, 97); (7850, 65); (7851, 97); (7852, 65); (7853, 97); (7854, 65); (7855, 97); (7856, 65); (7857, 97);
    (7858, 65); (7859, 97); (7860, 65); (7861, 97); (7862, 65); (7863, 97); (7864, 69); (7865, 101); (7866, 69);
    (7867, 101); (7868, 69); (7869, 101); (7870, 69); (7871, 101); (7872, 69); (7873, 101); (7874, 69); (7875, 101);
    (7876, 69); (7877, 101); (7878, 69); (7879, 101); (7880, 73); (7881, 105); (7882, 73); (7883, 105); (7884, 79);
    (7885, 111); (7886, 79); (7887, 111); (7888, 79); (7889, 111); (7890, 79); (7891, 111); (7892, 79); (7893, 111);
    (7894, 79); (7895, 111); (7896, 79); (7897, 111); (7898, 79); (7899, 111); (7900, 79); (7901, 111); (7902, 79);
    (7903, 111); (7904, 79); (7905, 111); (7906, 79); (7907, 111); (7908, 85); (7909, 117); (7910, 85); (7911, 117);
    (7912, 85); (7913, 117); (7914, 85); (7915, 117); (7916, 85); (7917, 117); (7918, 85); (7919, 117); (7920, 85);
    (7921, 117); (7922, 89); (7923, 121); (7924, 89); (7925, 121); (7926, 89); (7927, 121); (7928, 89); (7929, 121) ]%N.

(** normalize_accent: the binary search (str_compare.cpp 380-396). *)
Fixpoint accent_search (fuel lo hi : nat) (c : N) : N :=
  match fuel with
  | O => c
  | S k =>
      if Nat.ltb lo hi then
        let mid := (lo + hi) / 2 in
        let '(a, n) := nth mid accents (0, 0)%N in
        if (c =? a)%N then n
        else if (c <? a)%N then accent_search k lo mid c
        else accent_search k (S mid) hi c
      else c
  end.
Definition normalize_accent (c : N) : N := accent_search (S (length accents)) 0 (length accents) c.

(** path::is_separator (clink/core/src/path.cpp 254-261), for Windows. *)
Definition is_separator (c : N) : bool := ((c =? 47) || (c =? 92))%N.

Section Cmp.
Variable lower : N -> N.

(** The conversions of c and d (62-78); [mode] is MODE. *)
Definition fold_char (mode : nat) (exact_slash : bool) (c : N) : N :=
  let c := if Nat.ltb 0 mode then (if (65535 <? c)%N then c else lower c) else c in
  let c := if Nat.ltb 1 mode then (if (c =? 45)%N then 95%N else c) else c in
  if exact_slash then c else if (c =? 92)%N then 47%N else c.

(** while (path::is_separator(iter.peek())) iter.next() (98-101). *)
Fixpoint skip_seps (nextf : nat -> option (N * nat)) (fuel p : nat) : option nat :=
  match fuel with
  | O => None
  | S k => match nextf p with
           | None => None
           | Some (c, p') => if is_separator c then skip_seps nextf k p' else Some p
           end
  end.

(** The main loop (52-103); the result is where the two iterators end up. *)
Fixpoint cmp_loop (nl nr : nat -> option (N * nat)) (mode : nat) (fuzzy exact_slash : bool) (fuel p q : nat)
  : option (nat * nat) :=
  match fuel with
  | O => None
  | S k =>
      match nl p, nr q with
      | Some (c, p'), Some (d, q') =>
          if (c =? 0)%N || (d =? 0)%N then Some (p, q)
          else
            let c := fold_char mode exact_slash c in
            let d := fold_char mode exact_slash d in
            let go (c : N) :=
              if (c =? 47)%N then
                match skip_seps nl k p', skip_seps nr k q' with
                | Some p2, Some q2 => cmp_loop nl nr mode fuzzy exact_slash k p2 q2
                | _, _ => None
                end
              else cmp_loop nl nr mode fuzzy exact_slash k p' q' in
            if (c =? d)%N then go c
            else if negb fuzzy then Some (p, q)
            else
              let c := normalize_accent c in
              let d := normalize_accent d in
              if (c =? d)%N then go c else Some (p, q)
      | _, _ => None
      end
  end.

(** str_compare_impl for char ([wide] = false) or wchar_t on iterators at [p] and [q]; [lcd] is compute_lcd. *)
Definition str_compare (wide : bool) (mode : nat) (fuzzy lcd exact_slash : bool)
    (ml : list N) (el : option nat) (p : nat) (mr : list N) (er : option nat) (q : nat) : option Z :=
  let nl := if wide then next16 ml el else next8 ml el in
  let nr := if wide then next16 mr er else next8 mr er in
  match cmp_loop nl nr mode fuzzy exact_slash (S (length ml + length mr)) p q with
  | None => None
  | Some (p', q') =>
      match more ml el p', more mr er q' with
      | Some a, Some b => Some (if lcd || a || b then Z.of_nat (p' - p) else (-1)%Z)
      | _, _ => None
      end
  end.
End Cmp.
