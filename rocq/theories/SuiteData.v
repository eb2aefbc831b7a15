(** Written by tools/gen_suite.py from test/src/xmath_test.c: the tables of the tests of xlog and xexp. A row is the
    argument as written there and the expected value m / 2^e, the double nearest to the decimal literal. *)
From Coq Require Import ZArith List.
Import ListNotations.
Open Scope Z_scope.

Inductive entry := Inv (k : Z) | OnePlusInv (k : Z) | OneMinusInv (k : Z) | Int (k : Z).

(** test/src/xmath_test.c:20-301 *)
Definition log_table : list (entry * (Z * Z)) := [
  (Inv 2, (-6243314768165359, 53));
  (OnePlusInv 2, (1826052509787667, 52));
  (OneMinusInv 2, (-6243314768165359, 53));
  (Inv 3, (-4947709893870347, 52));
  (OnePlusInv 3, (5182419497180049, 54));
  (OneMinusInv 3, (-3652105019575333, 53));
  (Inv 5, (-7248263982714163, 52));
  (OnePlusInv 5, (6568826361910901, 55));
  (OneMinusInv 5, (-251237303637201, 50));
  (Inv 7, (-1095450027772747, 49));
  (OnePlusInv 7, (2405487720264253, 54));
  (OneMinusInv 7, (-2776931776915795, 54));
  (Inv 20, (-6745789375439761, 51));
  (OnePlusInv 20, (439462730345599, 53));
  (OneMinusInv 20, (-3696071383846047, 56));
  (Inv 30, (-7658815630333595, 51));
  (OnePlusInv 30, (4725511483109335, 57));
  (OneMinusInv 30, (-4885728495804163, 57));
  (Inv 50, (-8809092674755503, 51));
  (OnePlusInv 50, (2853859357185019, 57));
  (OneMinusInv 50, (-5823033929411575, 58));
  (Inv 70, (-4783380397244705, 50));
  (OnePlusInv 70, (8176885358612641, 59));
  (OneMinusInv 70, (-8294542416333755, 59));
  (Inv 200, (-5965375029419091, 50));
  (OnePlusInv 200, (2875121931598077, 59));
  (OneMinusInv 200, (-5779067261105427, 60));
  (Inv 300, (-802736019608251, 47));
  (OnePlusInv 300, (7673361521324653, 61));
  (OneMinusInv 300, (-7698982141541593, 61));
  (Inv 500, (-3498513339538481, 49));
  (OnePlusInv 500, (4607080472115017, 61));
  (OneMinusInv 500, (-4616303862598665, 61));
  (Inv 700, (-7375860738943915, 50));
  (OnePlusInv 700, (6583421558327535, 62));
  (OneMinusInv 700, (-206026036626593, 57));
  (Inv 2000, (-4278927685559151, 49));
  (OnePlusInv 2000, (576316685135673, 60));
  (OneMinusInv 2000, (-1153209831095707, 61));
  (Inv 3000, (-4507184249282609, 49));
  (OnePlusInv 3000, (384243131237581, 60));
  (OneMinusInv 3000, (-6149939738145577, 64));
  (Inv 5000, (-4794753510388087, 49));
  (OnePlusInv 5000, (1844489964521985, 63));
  (OneMinusInv 5000, (-7379435597643351, 65));
  (Inv 7000, (-4984170540321563, 49));
  (OnePlusInv 7000, (5270121878462207, 65));
  (OneMinusInv 7000, (-5270874806795333, 65));
  (Inv 20000, (-1393791964102189, 47));
  (OnePlusInv 20000, (3689256584103669, 66));
  (OneMinusInv 20000, (-3689441051536445, 66));
  (Inv 30000, (-5803424420132215, 49));
  (OnePlusInv 30000, (4919049769281311, 67));
  (OneMinusInv 30000, (-4919213740339835, 67));
  (Inv 50000, (-1522748420309423, 47));
  (OnePlusInv 50000, (2951449537383103, 67));
  (OneMinusInv 50000, (-5903017133961069, 68));
  (Inv 70000, (-196262834724099, 44));
  (OnePlusInv 70000, (4216368528581869, 68));
  (OneMinusInv 70000, (-8432857525696477, 69));
  (Inv 200000, (-3435704013629181, 48));
  (OnePlusInv 200000, (1475735836569915, 68));
  (OneMinusInv 200000, (-5902972861070179, 70));
  (Inv 300000, (-1774916147745455, 47));
  (OnePlusInv 300000, (1967649421794695, 69));
  (OneMinusInv 300000, (-7870623922548129, 71));
  (Inv 500000, (-7387233852087297, 49));
  (OnePlusInv 500000, (4722361760645253, 71));
  (OneMinusInv 500000, (-4722371205116075, 71));
  (Inv 700000, (-3788325441010387, 48));
  (OnePlusInv 700000, (6746233013529009, 72));
  (OneMinusInv 700000, (-6746242651535915, 72));
  (Inv 2000000, (-8167648198107967, 49));
  (OnePlusInv 2000000, (1180591325734625, 71));
  (OneMinusInv 2000000, (-2361183831536583, 72));
  (Inv 3000000, (-4197952380915713, 48));
  (OnePlusInv 3000000, (6296487595291763, 74));
  (OneMinusInv 3000000, (-6296489694121311, 74));
  (Inv 5000000, (-8683474022936903, 49));
  (OnePlusInv 5000000, (944473201629483, 72));
  (OneMinusInv 5000000, (-3777893564193721, 74));
  (Inv 7000000, (-8872891052870379, 49));
  (OnePlusInv 7000000, (1349247469449183, 73));
  (OneMinusInv 7000000, (-2698495326494823, 74));
  (Inv 20000000, (-2365972092239393, 47));
  (OnePlusInv 20000000, (1888946542832785, 75));
  (OneMinusInv 20000000, (-3777893282948837, 76));
  (Inv 30000000, (-4846072466340515, 48));
  (OnePlusInv 30000000, (5037190845233635, 77));
  (OneMinusInv 30000000, (-157412218636337, 72));
  (Inv 50000000, (-2494928548446627, 47));
  (OnePlusInv 50000000, (6044629067999661, 78));
  (OneMinusInv 50000000, (-1511157288834453, 76));
  (Inv 70000000, (-635570701482499, 45));
  (OnePlusInv 70000000, (8635184426702575, 79));
  (OneMinusInv 70000000, (-8635184482953489, 79));
  (Inv 200000000, (-5380064269903589, 48));
  (OnePlusInv 200000000, (6044629046225515, 80));
  (OneMinusInv 200000000, (-6044629076448661, 80));
  (Inv 300000000, (-2747096275882659, 47));
  (OnePlusInv 300000000, (4029752790320289, 80));
  (OneMinusInv 300000000, (-4029752803752799, 80));
  (Inv 500000000, (-5637977182318057, 48));
  (OnePlusInv 500000000, (4835703136859785, 81));
  (OneMinusInv 500000000, (-604462926870831, 78));
  (Inv 700000000, (-5732685697284795, 48));
  (OnePlusInv 700000000, (6908147800519945, 82));
  (OneMinusInv 700000000, (-6908147810388727, 82));
  (Inv 2000000000, (-753523044416049, 45));
  (OnePlusInv 2000000000, (2417851838678737, 82));
  (OneMinusInv 2000000000, (-2417851839887663, 82));
  (Inv 3000000000, (-6142312637190121, 48));
  (OnePlusInv 3000000000, (6447604903680599, 84));
  (OneMinusInv 3000000000, (-6447604905829801, 84));
  (Inv 5000000000, (-6286097267742859, 48));
  (OnePlusInv 5000000000, (7737125884932527, 85));
  (OneMinusInv 5000000000, (-7737125886479953, 85));
  (Inv 7000000000, (-3190402891354799, 47));
  (OnePlusInv 7000000000, (5526514807994881, 85));
  (OneMinusInv 7000000000, (-5526519103751679, 85));
  (Inv 20000000000, (-3338152220376597, 47));
  (OnePlusInv 20000000000, (1934281471378203, 85));
  (OneMinusInv 20000000000, (-1934281471474917, 85));
  (Inv 30000000000, (-1697608180653731, 46));
  (OnePlusInv 30000000000, (322380245232387, 83));
  (OneMinusInv 30000000000, (-322380245243133, 83));
  (Inv 50000000000, (-3467108676583831, 47));
  (OnePlusInv 50000000000, (6189700708503095, 88));
  (OneMinusInv 50000000000, (-6189700708626889, 88));
  (Inv 70000000000, (-1716046354525, 36));
  (OnePlusInv 70000000000, (1105301243683113, 86));
  (OneMinusInv 70000000000, (-1105301243698903, 86));
  (Inv 200000000000, (-7324424526177997, 48));
  (OnePlusInv 200000000000, (3094850354274759, 89));
  (OneMinusInv 200000000000, (-3094850354290233, 89));
  (Inv 300000000000, (-3719276404019863, 47));
  (OnePlusInv 300000000000, (8252934278072901, 91));
  (OneMinusInv 300000000000, (-8252934278100411, 91));
  (Inv 500000000000, (-7582337438592465, 48));
  (OnePlusInv 500000000000, (618956326960533, 88));
  (OneMinusInv 500000000000, (-618956326961771, 88));
  (Inv 700000000000, (-7677045953559203, 48));
  (OnePlusInv 700000000000, (7074257813105731, 92));
  (OneMinusInv 700000000000, (-1768427014325487, 90));
  (Int 2, (6243314768165359, 53));
  (Int 3, (4947709893870347, 52));
  (Int 5, (7248263982714163, 52));
  (Int 7, (8763600222181975, 52));
  (Int 20, (6745789375439761, 51));
  (Int 30, (7658815630333595, 51));
  (Int 50, (8809092674755503, 51));
  (Int 70, (4783380397244705, 50));
  (Int 200, (5965375029419091, 50));
  (Int 300, (802736019608251, 47));
  (Int 500, (3498513339538481, 49));
  (Int 700, (7375860738943915, 50));
  (Int 2000, (4278927685559151, 49));
  (Int 3000, (4507184249282609, 49));
  (Int 5000, (4794753510388087, 49));
  (Int 7000, (4984170540321563, 49));
  (Int 20000, (1393791964102189, 47));
  (Int 30000, (5803424420132215, 49));
  (Int 50000, (1522748420309423, 47));
  (Int 70000, (196262834724099, 44));
  (Int 200000, (3435704013629181, 48));
  (Int 300000, (1774916147745455, 47));
  (Int 500000, (7387233852087297, 49));
  (Int 700000, (3788325441010387, 48));
  (Int 2000000, (8167648198107967, 49));
  (Int 3000000, (4197952380915713, 48));
  (Int 5000000, (8683474022936903, 49));
  (Int 7000000, (8872891052870379, 49));
  (Int 20000000, (2365972092239393, 47));
  (Int 30000000, (4846072466340515, 48));
  (Int 50000000, (2494928548446627, 47));
  (Int 70000000, (635570701482499, 45));
  (Int 200000000, (5380064269903589, 48));
  (Int 300000000, (2747096275882659, 47));
  (Int 500000000, (5637977182318057, 48));
  (Int 700000000, (5732685697284795, 48));
  (Int 2000000000, (753523044416049, 45));
  (Int 3000000000, (6142312637190121, 48));
  (Int 5000000000, (6286097267742859, 48));
  (Int 7000000000, (3190402891354799, 47));
  (Int 20000000000, (3338152220376597, 47));
  (Int 30000000000, (1697608180653731, 46));
  (Int 50000000000, (3467108676583831, 47));
  (Int 70000000000, (1716046354525, 36));
  (Int 200000000000, (7324424526177997, 48));
  (Int 300000000000, (3719276404019863, 47));
  (Int 500000000000, (7582337438592465, 48));
  (Int 700000000000, (7677045953559203, 48))].

(** test/src/xmath_test.c:312-380 *)
Definition exp_table : list (entry * (Z * Z)) := [
  (Inv 3, (6285279597571347, 52));
  (Inv 5, (5500709006519437, 52));
  (Inv 7, (5195194881157255, 52));
  (Inv 9, (5032858461565281, 52));
  (Inv 10, (1244311833706549, 50));
  (Inv 30, (4656249647959909, 52));
  (Inv 50, (2297289187393689, 51));
  (Inv 70, (571049814007829, 49));
  (Inv 90, (569239831962895, 49));
  (Inv 100, (2274430778052883, 51));
  (Inv 300, (4518636673949507, 52));
  (Inv 500, (4512615839832295, 52));
  (Inv 700, (2255018969411413, 51));
  (Inv 900, (4508606407986149, 52));
  (Inv 1000, (1127026369887117, 50));
  (Inv 3000, (1126275269368517, 50));
  (Inv 5000, (281531277335873, 48));
  (Inv 7000, (4504243044703121, 52));
  (Inv 9000, (563012506891265, 49));
  (Inv 10000, (2252025004925991, 51));
  (Inv 30000, (4503749749860103, 52));
  (Inv 50000, (4503689700263769, 52));
  (Inv 70000, (4503663964967583, 52));
  (Inv 90000, (4503649667644357, 52));
  (Inv 100000, (2251822331795975, 51));
  (Inv 300000, (2251807319697137, 51));
  (Inv 500000, (2251804317289379, 51));
  (Inv 700000, (4503606061088845, 52));
  (Inv 900000, (2251802315686431, 51));
  (Inv 1000000, (4503604130972375, 52));
  (Inv 3000000, (2251800564285311, 51));
  (Inv 5000000, (281475033005657, 48));
  (Inv 7000000, (4503600270741917, 52));
  (Inv 9000000, (2251800063885241, 51));
  (Inv 10000000, (4503600077730481, 52));
  (Inv 30000000, (2251799888745243, 51));
  (Inv 50000000, (4503599717442489, 52));
  (Inv 70000000, (2251799845853817, 51));
  (Inv 90000000, (1125899919352623, 50));
  (Int 1, (6121026514868073, 51));
  (Int (-1), (828390857088487, 51));
  (Int 2, (4159668786720471, 49));
  (Int (-2), (1218991862308979, 53));
  (Int 3, (2826788018837635, 47));
  (Int (-3), (7175072721580207, 57));
  (Int 4, (960500813064011, 44));
  (Int (-4), (1319780871589693, 56));
  (Int 5, (5221823812744079, 45));
  (Int (-5), (3884161996073403, 59));
  (Int 6, (7097194390798479, 44));
  (Int (-6), (2857806689069675, 60));
  (Int 7, (2411521818193621, 41));
  (Int (-7), (8410626622007695, 63));
  (Int 8, (3277597968664119, 40));
  (Int (-8), (6188193243211693, 64));
  (Int 9, (4454717499606977, 39));
  (Int (-9), (2276509072173613, 64));
  (Int 10, (189205900470315, 33));
  (Int (-10), (6699847082343579, 67));
  (Int 11, (8229039377371007, 37));
  (Int (-11), (1232368000293337, 66));
  (Int 12, (2796106025647693, 34));
  (Int (-12), (7253805620247691, 70))].
