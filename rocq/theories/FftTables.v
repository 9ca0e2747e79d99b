(** The tables of complex roots.  Generated from
    src/internal/transforms/fft/fft_constants.go; each entry is the pair of
    decimal literals ((m, e), (m', e')) for m*10^-e + i*m'*10^-e'. *)
From Coq Require Import ZArith List.
Import ListNotations.
Local Open Scope Z_scope.

(** fft_constants.go:11-11 *)
Definition phi4_roots : list ((Z * Z) * (Z * Z)) :=
  [((0, 0), (1, 0));
   ((0, 0), (-1, 0))].
(** fft_constants.go:16-21 *)
Definition phi8_roots : list ((Z * Z) * (Z * Z)) :=
  [((707106781186548, 15), (707106781186547, 15));
   ((-707106781186548, 15), (-707106781186547, 15));
   ((707106781186548, 15), (-707106781186547, 15));
   ((-707106781186548, 15), (707106781186547, 15))].
(** fft_constants.go:26-35 *)
Definition phi16_roots : list ((Z * Z) * (Z * Z)) :=
  [((923879532511287, 15), (38268343236509, 14));
   ((-923879532511287, 15), (-38268343236509, 14));
   ((38268343236509, 14), (-923879532511287, 15));
   ((-38268343236509, 14), (923879532511287, 15));
   ((923879532511287, 15), (-38268343236509, 14));
   ((-923879532511287, 15), (38268343236509, 14));
   ((38268343236509, 14), (923879532511287, 15));
   ((-38268343236509, 14), (-923879532511287, 15))].
(** fft_constants.go:40-57 *)
Definition phi32_roots : list ((Z * Z) * (Z * Z)) :=
  [((98078528040323, 14), (195090322016128, 15));
   ((-98078528040323, 14), (-195090322016128, 15));
   ((195090322016128, 15), (-98078528040323, 14));
   ((-195090322016128, 15), (98078528040323, 14));
   ((831469612302545, 15), (-555570233019602, 15));
   ((-831469612302545, 15), (555570233019602, 15));
   ((555570233019602, 15), (831469612302545, 15));
   ((-555570233019602, 15), (-831469612302545, 15));
   ((98078528040323, 14), (-195090322016128, 15));
   ((-98078528040323, 14), (195090322016128, 15));
   ((195090322016128, 15), (98078528040323, 14));
   ((-195090322016128, 15), (-98078528040323, 14));
   ((831469612302545, 15), (555570233019602, 15));
   ((-831469612302545, 15), (-555570233019602, 15));
   ((555570233019602, 15), (-831469612302545, 15));
   ((-555570233019602, 15), (831469612302545, 15))].
(** fft_constants.go:62-95 *)
Definition phi64_roots : list ((Z * Z) * (Z * Z)) :=
  [((995184726672197, 15), (980171403295606, 16));
   ((-995184726672197, 15), (-980171403295606, 16));
   ((980171403295606, 16), (-995184726672197, 15));
   ((-980171403295606, 16), (995184726672197, 15));
   ((773010453362737, 15), (-634393284163646, 15));
   ((-773010453362737, 15), (634393284163646, 15));
   ((634393284163645, 15), (773010453362737, 15));
   ((-634393284163645, 15), (-773010453362737, 15));
   ((956940335732209, 15), (-290284677254462, 15));
   ((-956940335732209, 15), (290284677254462, 15));
   ((290284677254462, 15), (956940335732209, 15));
   ((-290284677254462, 15), (-956940335732209, 15));
   ((881921264348355, 15), (471396736825998, 15));
   ((-881921264348355, 15), (-471396736825998, 15));
   ((471396736825998, 15), (-881921264348355, 15));
   ((-471396736825998, 15), (881921264348355, 15));
   ((995184726672197, 15), (-980171403295606, 16));
   ((-995184726672197, 15), (980171403295606, 16));
   ((980171403295606, 16), (995184726672197, 15));
   ((-980171403295606, 16), (-995184726672197, 15));
   ((773010453362737, 15), (634393284163646, 15));
   ((-773010453362737, 15), (-634393284163646, 15));
   ((634393284163645, 15), (-773010453362737, 15));
   ((-634393284163645, 15), (773010453362737, 15));
   ((956940335732209, 15), (290284677254462, 15));
   ((-956940335732209, 15), (-290284677254462, 15));
   ((290284677254462, 15), (-956940335732209, 15));
   ((-290284677254462, 15), (956940335732209, 15));
   ((881921264348355, 15), (-471396736825998, 15));
   ((-881921264348355, 15), (471396736825998, 15));
   ((471396736825998, 15), (881921264348355, 15));
   ((-471396736825998, 15), (-881921264348355, 15))].
(** fft_constants.go:100-165 *)
Definition phi128_roots : list ((Z * Z) * (Z * Z)) :=
  [((998795456205172, 15), (49067674327418, 15));
   ((-998795456205172, 15), (-49067674327418, 15));
   ((49067674327418, 15), (-998795456205172, 15));
   ((-49067674327418, 15), (998795456205172, 15));
   ((740951125354959, 15), (-671558954847018, 15));
   ((-740951125354959, 15), (671558954847018, 15));
   ((671558954847018, 15), (740951125354959, 15));
   ((-671558954847018, 15), (-740951125354959, 15));
   ((941544065183021, 15), (-33688985339222, 14));
   ((-941544065183021, 15), (33688985339222, 14));
   ((33688985339222, 14), (941544065183021, 15));
   ((-33688985339222, 14), (-941544065183021, 15));
   ((903989293123443, 15), (427555093430282, 15));
   ((-903989293123443, 15), (-427555093430282, 15));
   ((427555093430282, 15), (-903989293123443, 15));
   ((-427555093430282, 15), (903989293123443, 15));
   ((989176509964781, 15), (-146730474455362, 15));
   ((-989176509964781, 15), (146730474455362, 15));
   ((146730474455362, 15), (989176509964781, 15));
   ((-146730474455362, 15), (-989176509964781, 15));
   ((803207531480645, 15), (595699304492433, 15));
   ((-803207531480645, 15), (-595699304492433, 15));
   ((595699304492433, 15), (-803207531480645, 15));
   ((-595699304492433, 15), (803207531480645, 15));
   ((970031253194544, 15), (242980179903264, 15));
   ((-970031253194544, 15), (-242980179903264, 15));
   ((242980179903264, 15), (-970031253194544, 15));
   ((-242980179903264, 15), (970031253194544, 15));
   ((857728610000272, 15), (-514102744193222, 15));
   ((-857728610000272, 15), (514102744193222, 15));
   ((514102744193222, 15), (857728610000272, 15));
   ((-514102744193222, 15), (-857728610000272, 15));
   ((998795456205172, 15), (-49067674327418, 15));
   ((-998795456205172, 15), (49067674327418, 15));
   ((49067674327418, 15), (998795456205172, 15));
   ((-49067674327418, 15), (-998795456205172, 15));
   ((740951125354959, 15), (671558954847018, 15));
   ((-740951125354959, 15), (-671558954847018, 15));
   ((671558954847018, 15), (-740951125354959, 15));
   ((-671558954847018, 15), (740951125354959, 15));
   ((941544065183021, 15), (33688985339222, 14));
   ((-941544065183021, 15), (-33688985339222, 14));
   ((33688985339222, 14), (-941544065183021, 15));
   ((-33688985339222, 14), (941544065183021, 15));
   ((903989293123443, 15), (-427555093430282, 15));
   ((-903989293123443, 15), (427555093430282, 15));
   ((427555093430282, 15), (903989293123443, 15));
   ((-427555093430282, 15), (-903989293123443, 15));
   ((989176509964781, 15), (146730474455362, 15));
   ((-989176509964781, 15), (-146730474455362, 15));
   ((146730474455362, 15), (-989176509964781, 15));
   ((-146730474455362, 15), (989176509964781, 15));
   ((803207531480645, 15), (-595699304492433, 15));
   ((-803207531480645, 15), (595699304492433, 15));
   ((595699304492433, 15), (803207531480645, 15));
   ((-595699304492433, 15), (-803207531480645, 15));
   ((970031253194544, 15), (-242980179903264, 15));
   ((-970031253194544, 15), (242980179903264, 15));
   ((242980179903264, 15), (970031253194544, 15));
   ((-242980179903264, 15), (-970031253194544, 15));
   ((857728610000272, 15), (514102744193222, 15));
   ((-857728610000272, 15), (-514102744193222, 15));
   ((514102744193222, 15), (-857728610000272, 15));
   ((-514102744193222, 15), (857728610000272, 15))].
(** fft_constants.go:170-299 *)
Definition phi256_roots : list ((Z * Z) * (Z * Z)) :=
  [((999698818696204, 15), (245412285229123, 16));
   ((-999698818696204, 15), (-245412285229123, 16));
   ((245412285229123, 16), (-999698818696204, 15));
   ((-245412285229123, 16), (999698818696204, 15));
   ((724247082951467, 15), (-689540544737067, 15));
   ((-724247082951467, 15), (689540544737067, 15));
   ((689540544737067, 15), (724247082951467, 15));
   ((-689540544737067, 15), (-724247082951467, 15));
   ((932992798834739, 15), (-359895036534988, 15));
   ((-932992798834739, 15), (359895036534988, 15));
   ((359895036534988, 15), (932992798834739, 15));
   ((-359895036534988, 15), (-932992798834739, 15));
   ((914209755703531, 15), (40524131400499, 14));
   ((-914209755703531, 15), (-40524131400499, 14));
   ((40524131400499, 14), (-914209755703531, 15));
   ((-40524131400499, 14), (914209755703531, 15));
   ((985277642388941, 15), (-170961888760301, 15));
   ((-985277642388941, 15), (170961888760301, 15));
   ((170961888760301, 15), (985277642388941, 15));
   ((-170961888760301, 15), (-985277642388941, 15));
   ((817584813151584, 15), (575808191417845, 15));
   ((-817584813151584, 15), (-575808191417845, 15));
   ((575808191417845, 15), (-817584813151584, 15));
   ((-575808191417845, 15), (817584813151584, 15));
   ((975702130038529, 15), (21910124015687, 14));
   ((-975702130038529, 15), (-21910124015687, 14));
   ((21910124015687, 14), (-975702130038529, 15));
   ((-21910124015687, 14), (975702130038529, 15));
   ((844853565249707, 15), (-534997619887097, 15));
   ((-844853565249707, 15), (534997619887097, 15));
   ((534997619887097, 15), (844853565249707, 15));
   ((-534997619887097, 15), (-844853565249707, 15));
   ((99729045667869, 14), (-735645635996674, 16));
   ((-99729045667869, 14), (735645635996674, 16));
   ((735645635996674, 16), (99729045667869, 14));
   ((-735645635996674, 16), (-99729045667869, 14));
   ((757208846506485, 15), (653172842953777, 15));
   ((-757208846506485, 15), (-653172842953777, 15));
   ((653172842953777, 15), (-757208846506485, 15));
   ((-653172842953777, 15), (757208846506485, 15));
   ((949528180593037, 15), (313681740398892, 15));
   ((-949528180593037, 15), (-313681740398892, 15));
   ((313681740398892, 15), (-949528180593037, 15));
   ((-313681740398892, 15), (949528180593037, 15));
   ((893224301195515, 15), (-449611329654607, 15));
   ((-893224301195515, 15), (449611329654607, 15));
   ((449611329654607, 15), (893224301195515, 15));
   ((-449611329654607, 15), (-893224301195515, 15));
   ((99247953459871, 14), (122410675199216, 15));
   ((-99247953459871, 14), (-122410675199216, 15));
   ((122410675199216, 15), (-99247953459871, 14));
   ((-122410675199216, 15), (99247953459871, 14));
   ((788346427626606, 15), (-615231590580627, 15));
   ((-788346427626606, 15), (615231590580627, 15));
   ((615231590580627, 15), (788346427626606, 15));
   ((-615231590580627, 15), (-788346427626606, 15));
   ((96377606579544, 14), (-266712757474898, 15));
   ((-96377606579544, 14), (266712757474898, 15));
   ((266712757474898, 15), (96377606579544, 14));
   ((-266712757474898, 15), (-96377606579544, 14));
   ((870086991108711, 15), (492898192229784, 15));
   ((-870086991108711, 15), (-492898192229784, 15));
   ((492898192229784, 15), (-870086991108711, 15));
   ((-492898192229784, 15), (870086991108711, 15));
   ((999698818696204, 15), (-245412285229123, 16));
   ((-999698818696204, 15), (245412285229123, 16));
   ((245412285229123, 16), (999698818696204, 15));
   ((-245412285229123, 16), (-999698818696204, 15));
   ((724247082951467, 15), (689540544737067, 15));
   ((-724247082951467, 15), (-689540544737067, 15));
   ((689540544737067, 15), (-724247082951467, 15));
   ((-689540544737067, 15), (724247082951467, 15));
   ((932992798834739, 15), (359895036534988, 15));
   ((-932992798834739, 15), (-359895036534988, 15));
   ((359895036534988, 15), (-932992798834739, 15));
   ((-359895036534988, 15), (932992798834739, 15));
   ((914209755703531, 15), (-40524131400499, 14));
   ((-914209755703531, 15), (40524131400499, 14));
   ((40524131400499, 14), (914209755703531, 15));
   ((-40524131400499, 14), (-914209755703531, 15));
   ((985277642388941, 15), (170961888760301, 15));
   ((-985277642388941, 15), (-170961888760301, 15));
   ((170961888760301, 15), (-985277642388941, 15));
   ((-170961888760301, 15), (985277642388941, 15));
   ((817584813151584, 15), (-575808191417845, 15));
   ((-817584813151584, 15), (575808191417845, 15));
   ((575808191417845, 15), (817584813151584, 15));
   ((-575808191417845, 15), (-817584813151584, 15));
   ((975702130038529, 15), (-21910124015687, 14));
   ((-975702130038529, 15), (21910124015687, 14));
   ((21910124015687, 14), (975702130038529, 15));
   ((-21910124015687, 14), (-975702130038529, 15));
   ((844853565249707, 15), (534997619887097, 15));
   ((-844853565249707, 15), (-534997619887097, 15));
   ((534997619887097, 15), (-844853565249707, 15));
   ((-534997619887097, 15), (844853565249707, 15));
   ((99729045667869, 14), (735645635996674, 16));
   ((-99729045667869, 14), (-735645635996674, 16));
   ((735645635996674, 16), (-99729045667869, 14));
   ((-735645635996674, 16), (99729045667869, 14));
   ((757208846506485, 15), (-653172842953777, 15));
   ((-757208846506485, 15), (653172842953777, 15));
   ((653172842953777, 15), (757208846506485, 15));
   ((-653172842953777, 15), (-757208846506485, 15));
   ((949528180593037, 15), (-313681740398892, 15));
   ((-949528180593037, 15), (313681740398892, 15));
   ((313681740398892, 15), (949528180593037, 15));
   ((-313681740398892, 15), (-949528180593037, 15));
   ((893224301195515, 15), (449611329654607, 15));
   ((-893224301195515, 15), (-449611329654607, 15));
   ((449611329654607, 15), (-893224301195515, 15));
   ((-449611329654607, 15), (893224301195515, 15));
   ((99247953459871, 14), (-122410675199216, 15));
   ((-99247953459871, 14), (122410675199216, 15));
   ((122410675199216, 15), (99247953459871, 14));
   ((-122410675199216, 15), (-99247953459871, 14));
   ((788346427626606, 15), (615231590580627, 15));
   ((-788346427626606, 15), (-615231590580627, 15));
   ((615231590580627, 15), (-788346427626606, 15));
   ((-615231590580627, 15), (788346427626606, 15));
   ((96377606579544, 14), (266712757474898, 15));
   ((-96377606579544, 14), (-266712757474898, 15));
   ((266712757474898, 15), (-96377606579544, 14));
   ((-266712757474898, 15), (96377606579544, 14));
   ((870086991108711, 15), (-492898192229784, 15));
   ((-870086991108711, 15), (492898192229784, 15));
   ((492898192229784, 15), (870086991108711, 15));
   ((-492898192229784, 15), (-870086991108711, 15))].
(** fft_constants.go:304-561 *)
Definition phi512_roots : list ((Z * Z) * (Z * Z)) :=
  [((999924701839145, 15), (122715382857199, 16));
   ((-999924701839145, 15), (-122715382857199, 16));
   ((122715382857199, 16), (-999924701839145, 15));
   ((-122715382857199, 16), (999924701839145, 15));
   ((715730825283819, 15), (-698376249408973, 15));
   ((-715730825283819, 15), (698376249408973, 15));
   ((698376249408973, 15), (715730825283819, 15));
   ((-698376249408973, 15), (-715730825283819, 15));
   ((928506080473216, 15), (-371317193951837, 15));
   ((-928506080473216, 15), (371317193951837, 15));
   ((371317193951837, 15), (928506080473216, 15));
   ((-371317193951837, 15), (-928506080473216, 15));
   ((919113851690058, 15), (393992040061048, 15));
   ((-919113851690058, 15), (-393992040061048, 15));
   ((393992040061048, 15), (-919113851690058, 15));
   ((-393992040061048, 15), (919113851690058, 15));
   ((983105487431216, 15), (-183039887955141, 15));
   ((-983105487431216, 15), (183039887955141, 15));
   ((183039887955141, 15), (983105487431216, 15));
   ((-183039887955141, 15), (-983105487431216, 15));
   ((824589302785025, 15), (565731810783613, 15));
   ((-824589302785025, 15), (-565731810783613, 15));
   ((565731810783613, 15), (-824589302785025, 15));
   ((-565731810783613, 15), (824589302785025, 15));
   ((978317370719628, 15), (207111376192219, 15));
   ((-978317370719628, 15), (-207111376192219, 15));
   ((207111376192219, 15), (-978317370719628, 15));
   ((-207111376192219, 15), (978317370719628, 15));
   ((838224705554838, 15), (-545324988422046, 15));
   ((-838224705554838, 15), (545324988422046, 15));
   ((545324988422046, 15), (838224705554838, 15));
   ((-545324988422046, 15), (-838224705554838, 15));
   ((996312612182778, 15), (-857973123444399, 16));
   ((-996312612182778, 15), (857973123444399, 16));
   ((857973123444399, 16), (996312612182778, 15));
   ((-857973123444399, 16), (-996312612182778, 15));
   ((765167265622459, 15), (643831542889791, 15));
   ((-765167265622459, 15), (-643831542889791, 15));
   ((643831542889791, 15), (-765167265622459, 15));
   ((-643831542889791, 15), (765167265622459, 15));
   ((953306040354194, 15), (302005949319228, 15));
   ((-953306040354194, 15), (-302005949319228, 15));
   ((302005949319228, 15), (-953306040354194, 15));
   ((-302005949319228, 15), (953306040354194, 15));
   ((887639620402854, 15), (-46053871095824, 14));
   ((-887639620402854, 15), (46053871095824, 14));
   ((46053871095824, 14), (887639620402854, 15));
   ((-46053871095824, 14), (-887639620402854, 15));
   ((993906970002356, 15), (110222207293883, 15));
   ((-993906970002356, 15), (-110222207293883, 15));
   ((110222207293883, 15), (-993906970002356, 15));
   ((-110222207293883, 15), (993906970002356, 15));
   ((780737228572094, 15), (-624859488142386, 15));
   ((-780737228572094, 15), (624859488142386, 15));
   ((624859488142386, 15), (780737228572094, 15));
   ((-624859488142386, 15), (-780737228572094, 15));
   ((960430519415566, 15), (-278519689385053, 15));
   ((-960430519415566, 15), (278519689385053, 15));
   ((278519689385053, 15), (960430519415566, 15));
   ((-278519689385053, 15), (-960430519415566, 15));
   ((876070094195407, 15), (482183772079123, 15));
   ((-876070094195407, 15), (-482183772079123, 15));
   ((482183772079123, 15), (-876070094195407, 15));
   ((-482183772079123, 15), (876070094195407, 15));
   ((99932238458835, 14), (-368072229413588, 16));
   ((-99932238458835, 14), (368072229413588, 16));
   ((368072229413588, 16), (99932238458835, 14));
   ((-368072229413588, 16), (-99932238458835, 14));
   ((732654271672413, 15), (680600997795453, 15));
   ((-732654271672413, 15), (-680600997795453, 15));
   ((680600997795453, 15), (-732654271672413, 15));
   ((-680600997795453, 15), (732654271672413, 15));
   ((937339011912575, 15), (348418680249435, 15));
   ((-937339011912575, 15), (-348418680249435, 15));
   ((348418680249435, 15), (-937339011912575, 15));
   ((-348418680249435, 15), (937339011912575, 15));
   ((909167983090522, 15), (-416429560097637, 15));
   ((-909167983090522, 15), (416429560097637, 15));
   ((416429560097637, 15), (909167983090522, 15));
   ((-416429560097637, 15), (-909167983090522, 15));
   ((987301418157858, 15), (158858143333861, 15));
   ((-987301418157858, 15), (-158858143333861, 15));
   ((158858143333861, 15), (-987301418157858, 15));
   ((-158858143333861, 15), (987301418157858, 15));
   ((810457198252595, 15), (-585797857456439, 15));
   ((-810457198252595, 15), (585797857456439, 15));
   ((585797857456439, 15), (810457198252595, 15));
   ((-585797857456439, 15), (-810457198252595, 15));
   ((97293995220556, 14), (-231058108280671, 15));
   ((-97293995220556, 14), (231058108280671, 15));
   ((231058108280671, 15), (97293995220556, 14));
   ((-231058108280671, 15), (-97293995220556, 14));
   ((851355193105265, 15), (524589682678469, 15));
   ((-851355193105265, 15), (-524589682678469, 15));
   ((524589682678469, 15), (-851355193105265, 15));
   ((-524589682678469, 15), (851355193105265, 15));
   ((998118112900149, 15), (613207363022086, 16));
   ((-998118112900149, 15), (-613207363022086, 16));
   ((613207363022086, 16), (-998118112900149, 15));
   ((-613207363022086, 16), (998118112900149, 15));
   ((749136394523459, 15), (-662415777590172, 15));
   ((-749136394523459, 15), (662415777590172, 15));
   ((662415777590172, 15), (749136394523459, 15));
   ((-662415777590172, 15), (-749136394523459, 15));
   ((945607325380521, 15), (-325310292162263, 15));
   ((-945607325380521, 15), (325310292162263, 15));
   ((325310292162263, 15), (945607325380521, 15));
   ((-325310292162263, 15), (-945607325380521, 15));
   ((898674465693954, 15), (438616238538528, 15));
   ((-898674465693954, 15), (-438616238538528, 15));
   ((438616238538528, 15), (-898674465693954, 15));
   ((-438616238538528, 15), (898674465693954, 15));
   ((99090263542778, 14), (-134580708507126, 15));
   ((-99090263542778, 14), (134580708507126, 15));
   ((134580708507126, 15), (99090263542778, 14));
   ((-134580708507126, 15), (-99090263542778, 14));
   ((795836904608884, 15), (605511041404325, 15));
   ((-795836904608884, 15), (-605511041404325, 15));
   ((605511041404326, 15), (-795836904608883, 15));
   ((-605511041404326, 15), (795836904608883, 15));
   ((966976471044852, 15), (254865659604515, 15));
   ((-966976471044852, 15), (-254865659604515, 15));
   ((254865659604515, 15), (-966976471044852, 15));
   ((-254865659604515, 15), (966976471044852, 15));
   ((863972856121587, 15), (-503538383725718, 15));
   ((-863972856121587, 15), (503538383725718, 15));
   ((503538383725718, 15), (863972856121587, 15));
   ((-503538383725718, 15), (-863972856121587, 15));
   ((999924701839145, 15), (-122715382857199, 16));
   ((-999924701839145, 15), (122715382857199, 16));
   ((122715382857199, 16), (999924701839145, 15));
   ((-122715382857199, 16), (-999924701839145, 15));
   ((715730825283819, 15), (698376249408973, 15));
   ((-715730825283819, 15), (-698376249408973, 15));
   ((698376249408973, 15), (-715730825283819, 15));
   ((-698376249408973, 15), (715730825283819, 15));
   ((928506080473216, 15), (371317193951837, 15));
   ((-928506080473216, 15), (-371317193951837, 15));
   ((371317193951837, 15), (-928506080473216, 15));
   ((-371317193951837, 15), (928506080473216, 15));
   ((919113851690058, 15), (-393992040061048, 15));
   ((-919113851690058, 15), (393992040061048, 15));
   ((393992040061048, 15), (919113851690058, 15));
   ((-393992040061048, 15), (-919113851690058, 15));
   ((983105487431216, 15), (183039887955141, 15));
   ((-983105487431216, 15), (-183039887955141, 15));
   ((183039887955141, 15), (-983105487431216, 15));
   ((-183039887955141, 15), (983105487431216, 15));
   ((824589302785025, 15), (-565731810783613, 15));
   ((-824589302785025, 15), (565731810783613, 15));
   ((565731810783613, 15), (824589302785025, 15));
   ((-565731810783613, 15), (-824589302785025, 15));
   ((978317370719628, 15), (-207111376192219, 15));
   ((-978317370719628, 15), (207111376192219, 15));
   ((207111376192219, 15), (978317370719628, 15));
   ((-207111376192219, 15), (-978317370719628, 15));
   ((838224705554838, 15), (545324988422046, 15));
   ((-838224705554838, 15), (-545324988422046, 15));
   ((545324988422046, 15), (-838224705554838, 15));
   ((-545324988422046, 15), (838224705554838, 15));
   ((996312612182778, 15), (857973123444399, 16));
   ((-996312612182778, 15), (-857973123444399, 16));
   ((857973123444399, 16), (-996312612182778, 15));
   ((-857973123444399, 16), (996312612182778, 15));
   ((765167265622459, 15), (-643831542889791, 15));
   ((-765167265622459, 15), (643831542889791, 15));
   ((643831542889791, 15), (765167265622459, 15));
   ((-643831542889791, 15), (-765167265622459, 15));
   ((953306040354194, 15), (-302005949319228, 15));
   ((-953306040354194, 15), (302005949319228, 15));
   ((302005949319228, 15), (953306040354194, 15));
   ((-302005949319228, 15), (-953306040354194, 15));
   ((887639620402854, 15), (46053871095824, 14));
   ((-887639620402854, 15), (-46053871095824, 14));
   ((46053871095824, 14), (-887639620402854, 15));
   ((-46053871095824, 14), (887639620402854, 15));
   ((993906970002356, 15), (-110222207293883, 15));
   ((-993906970002356, 15), (110222207293883, 15));
   ((110222207293883, 15), (993906970002356, 15));
   ((-110222207293883, 15), (-993906970002356, 15));
   ((780737228572094, 15), (624859488142386, 15));
   ((-780737228572094, 15), (-624859488142386, 15));
   ((624859488142386, 15), (-780737228572094, 15));
   ((-624859488142386, 15), (780737228572094, 15));
   ((960430519415566, 15), (278519689385053, 15));
   ((-960430519415566, 15), (-278519689385053, 15));
   ((278519689385053, 15), (-960430519415566, 15));
   ((-278519689385053, 15), (960430519415566, 15));
   ((876070094195407, 15), (-482183772079123, 15));
   ((-876070094195407, 15), (482183772079123, 15));
   ((482183772079123, 15), (876070094195407, 15));
   ((-482183772079123, 15), (-876070094195407, 15));
   ((99932238458835, 14), (368072229413588, 16));
   ((-99932238458835, 14), (-368072229413588, 16));
   ((368072229413588, 16), (-99932238458835, 14));
   ((-368072229413588, 16), (99932238458835, 14));
   ((732654271672413, 15), (-680600997795453, 15));
   ((-732654271672413, 15), (680600997795453, 15));
   ((680600997795453, 15), (732654271672413, 15));
   ((-680600997795453, 15), (-732654271672413, 15));
   ((937339011912575, 15), (-348418680249435, 15));
   ((-937339011912575, 15), (348418680249435, 15));
   ((348418680249435, 15), (937339011912575, 15));
   ((-348418680249435, 15), (-937339011912575, 15));
   ((909167983090522, 15), (416429560097637, 15));
   ((-909167983090522, 15), (-416429560097637, 15));
   ((416429560097637, 15), (-909167983090522, 15));
   ((-416429560097637, 15), (909167983090522, 15));
   ((987301418157858, 15), (-158858143333861, 15));
   ((-987301418157858, 15), (158858143333861, 15));
   ((158858143333861, 15), (987301418157858, 15));
   ((-158858143333861, 15), (-987301418157858, 15));
   ((810457198252595, 15), (585797857456439, 15));
   ((-810457198252595, 15), (-585797857456439, 15));
   ((585797857456439, 15), (-810457198252595, 15));
   ((-585797857456439, 15), (810457198252595, 15));
   ((97293995220556, 14), (231058108280671, 15));
   ((-97293995220556, 14), (-231058108280671, 15));
   ((231058108280671, 15), (-97293995220556, 14));
   ((-231058108280671, 15), (97293995220556, 14));
   ((851355193105265, 15), (-524589682678469, 15));
   ((-851355193105265, 15), (524589682678469, 15));
   ((524589682678469, 15), (851355193105265, 15));
   ((-524589682678469, 15), (-851355193105265, 15));
   ((998118112900149, 15), (-613207363022086, 16));
   ((-998118112900149, 15), (613207363022086, 16));
   ((613207363022086, 16), (998118112900149, 15));
   ((-613207363022086, 16), (-998118112900149, 15));
   ((749136394523459, 15), (662415777590172, 15));
   ((-749136394523459, 15), (-662415777590172, 15));
   ((662415777590172, 15), (-749136394523459, 15));
   ((-662415777590172, 15), (749136394523459, 15));
   ((945607325380521, 15), (325310292162263, 15));
   ((-945607325380521, 15), (-325310292162263, 15));
   ((325310292162263, 15), (-945607325380521, 15));
   ((-325310292162263, 15), (945607325380521, 15));
   ((898674465693954, 15), (-438616238538528, 15));
   ((-898674465693954, 15), (438616238538528, 15));
   ((438616238538528, 15), (898674465693954, 15));
   ((-438616238538528, 15), (-898674465693954, 15));
   ((99090263542778, 14), (134580708507126, 15));
   ((-99090263542778, 14), (-134580708507126, 15));
   ((134580708507126, 15), (-99090263542778, 14));
   ((-134580708507126, 15), (99090263542778, 14));
   ((795836904608884, 15), (-605511041404325, 15));
   ((-795836904608884, 15), (605511041404325, 15));
   ((605511041404326, 15), (795836904608883, 15));
   ((-605511041404326, 15), (-795836904608883, 15));
   ((966976471044852, 15), (-254865659604515, 15));
   ((-966976471044852, 15), (254865659604515, 15));
   ((254865659604515, 15), (966976471044852, 15));
   ((-254865659604515, 15), (-966976471044852, 15));
   ((863972856121587, 15), (503538383725718, 15));
   ((-863972856121587, 15), (-503538383725718, 15));
   ((503538383725718, 15), (-863972856121587, 15));
   ((-503538383725718, 15), (863972856121587, 15))].
(** fft_constants.go:566-1079 *)
Definition phi1024_roots : list ((Z * Z) * (Z * Z)) :=
  [((999981175282601, 15), (613588464915448, 17));
   ((-999981175282601, 15), (-613588464915448, 17));
   ((613588464915448, 17), (-999981175282601, 15));
   ((-613588464915448, 17), (999981175282601, 15));
   ((711432195745216, 15), (-702754744457225, 15));
   ((-711432195745216, 15), (702754744457225, 15));
   ((702754744457225, 15), (711432195745216, 15));
   ((-702754744457225, 15), (-711432195745216, 15));
   ((926210242138311, 15), (-377007410216418, 15));
   ((-926210242138311, 15), (377007410216418, 15));
   ((377007410216418, 15), (926210242138311, 15));
   ((-377007410216418, 15), (-926210242138311, 15));
   ((921514039342042, 15), (388345046698826, 15));
   ((-921514039342042, 15), (-388345046698826, 15));
   ((388345046698826, 15), (-921514039342042, 15));
   ((-388345046698826, 15), (921514039342042, 15));
   ((981963869109555, 15), (-189068664149806, 15));
   ((-981963869109555, 15), (189068664149806, 15));
   ((189068664149806, 15), (981963869109555, 15));
   ((-189068664149806, 15), (-981963869109555, 15));
   ((828045045257756, 15), (560661576197336, 15));
   ((-828045045257756, 15), (-560661576197336, 15));
   ((560661576197336, 15), (-828045045257756, 15));
   ((-560661576197336, 15), (828045045257756, 15));
   ((979569765685441, 15), (201104634842092, 15));
   ((-979569765685441, 15), (-201104634842092, 15));
   ((201104634842092, 15), (-979569765685441, 15));
   ((-201104634842092, 15), (979569765685441, 15));
   ((83486287498638, 14), (-550457972936605, 15));
   ((-83486287498638, 14), (550457972936605, 15));
   ((550457972936605, 15), (83486287498638, 14));
   ((-550457972936605, 15), (-83486287498638, 14));
   ((99576741446766, 14), (-919089564971327, 16));
   ((-99576741446766, 14), (919089564971327, 16));
   ((919089564971327, 16), (99576741446766, 14));
   ((-919089564971327, 16), (-99576741446766, 14));
   ((76910333764558, 14), (639124444863776, 15));
   ((-76910333764558, 14), (-639124444863776, 15));
   ((639124444863776, 15), (-76910333764558, 14));
   ((-639124444863776, 15), (76910333764558, 14));
   ((955141168305771, 15), (296150888243624, 15));
   ((-955141168305771, 15), (-296150888243624, 15));
   ((296150888243624, 15), (-955141168305771, 15));
   ((-296150888243624, 15), (955141168305771, 15));
   ((884797098430938, 15), (-465976495767966, 15));
   ((-884797098430938, 15), (465976495767966, 15));
   ((465976495767966, 15), (884797098430938, 15));
   ((-465976495767966, 15), (-884797098430938, 15));
   ((994564570734255, 15), (104121633872055, 15));
   ((-994564570734255, 15), (-104121633872055, 15));
   ((104121633872055, 15), (-994564570734255, 15));
   ((-104121633872055, 15), (994564570734255, 15));
   ((776888465673232, 15), (-629638238914927, 15));
   ((-776888465673232, 15), (629638238914927, 15));
   ((629638238914927, 15), (776888465673233, 15));
   ((-629638238914927, 15), (-776888465673233, 15));
   ((958703474895871, 15), (-284407537211272, 15));
   ((-958703474895871, 15), (284407537211272, 15));
   ((284407537211272, 15), (958703474895871, 15));
   ((-284407537211272, 15), (-958703474895871, 15));
   ((879012226428633, 15), (476799230063322, 15));
   ((-879012226428633, 15), (-476799230063322, 15));
   ((476799230063322, 15), (-879012226428634, 15));
   ((-476799230063322, 15), (879012226428634, 15));
   ((999077727752645, 15), (-429382569349408, 16));
   ((-999077727752645, 15), (429382569349408, 16));
   ((429382569349408, 16), (999077727752645, 15));
   ((-429382569349408, 16), (-999077727752645, 15));
   ((73681656887737, 14), (676092703575316, 15));
   ((-73681656887737, 14), (-676092703575316, 15));
   ((676092703575316, 15), (-73681656887737, 14));
   ((-676092703575316, 15), (73681656887737, 14));
   ((93945922360219, 14), (342660717311994, 15));
   ((-93945922360219, 14), (-342660717311994, 15));
   ((342660717311994, 15), (-93945922360219, 14));
   ((-342660717311994, 15), (93945922360219, 14));
   ((906595704514915, 15), (-4220002707998, 13));
   ((-906595704514915, 15), (4220002707998, 13));
   ((4220002707998, 13), (906595704514915, 15));
   ((-4220002707998, 13), (-906595704514915, 15));
   ((988257567730749, 15), (152797185258443, 15));
   ((-988257567730749, 15), (-152797185258443, 15));
   ((152797185258443, 15), (-988257567730749, 15));
   ((-152797185258443, 15), (988257567730749, 15));
   ((806847553543799, 15), (-590759701858874, 15));
   ((-806847553543799, 15), (590759701858874, 15));
   ((590759701858874, 15), (806847553543799, 15));
   ((-590759701858874, 15), (-806847553543799, 15));
   ((971503890986252, 15), (-237023605994367, 15));
   ((-971503890986252, 15), (237023605994367, 15));
   ((237023605994367, 15), (971503890986252, 15));
   ((-237023605994367, 15), (-971503890986252, 15));
   ((854557988365401, 15), (51935599016559, 14));
   ((-854557988365401, 15), (-51935599016559, 14));
   ((51935599016559, 14), (-854557988365401, 15));
   ((-51935599016559, 14), (854557988365401, 15));
   ((998475580573295, 15), (551952443496899, 16));
   ((-998475580573295, 15), (-551952443496899, 16));
   ((551952443496899, 16), (-998475580573295, 15));
   ((-551952443496899, 16), (998475580573295, 15));
   ((745057785441466, 15), (-666999922303638, 15));
   ((-745057785441466, 15), (666999922303638, 15));
   ((666999922303637, 15), (745057785441466, 15));
   ((-666999922303637, 15), (-745057785441466, 15));
   ((94359345816196, 14), (-331106305759876, 15));
   ((-94359345816196, 14), (331106305759876, 15));
   ((331106305759876, 15), (94359345816196, 14));
   ((-331106305759876, 15), (-94359345816196, 14));
   ((901348847046022, 15), (433093818853152, 15));
   ((-901348847046022, 15), (-433093818853152, 15));
   ((433093818853152, 15), (-901348847046022, 15));
   ((-433093818853152, 15), (901348847046022, 15));
   ((990058210262297, 15), (-140658239332849, 15));
   ((-990058210262297, 15), (140658239332849, 15));
   ((140658239332849, 15), (990058210262297, 15));
   ((-140658239332849, 15), (-990058210262297, 15));
   ((799537269107905, 15), (600616479383869, 15));
   ((-799537269107905, 15), (-600616479383869, 15));
   ((600616479383869, 15), (-799537269107905, 15));
   ((-600616479383869, 15), (799537269107905, 15));
   ((968522094274417, 15), (24892760574572, 14));
   ((-968522094274417, 15), (-24892760574572, 14));
   ((24892760574572, 14), (-968522094274417, 15));
   ((-24892760574572, 14), (968522094274417, 15));
   ((860866938637767, 15), (-508830142543107, 15));
   ((-860866938637767, 15), (508830142543107, 15));
   ((508830142543107, 15), (860866938637767, 15));
   ((-508830142543107, 15), (-860866938637767, 15));
   ((999830581795823, 15), (-184067299058048, 16));
   ((-999830581795823, 15), (184067299058048, 16));
   ((184067299058048, 16), (999830581795823, 15));
   ((-184067299058048, 16), (-999830581795823, 15));
   ((720002507961382, 15), (693971460889654, 15));
   ((-720002507961382, 15), (-693971460889654, 15));
   ((693971460889654, 15), (-720002507961382, 15));
   ((-693971460889654, 15), (720002507961382, 15));
   ((930766961078984, 15), (365612997804774, 15));
   ((-930766961078984, 15), (-365612997804774, 15));
   ((365612997804774, 15), (-930766961078984, 15));
   ((-365612997804774, 15), (930766961078984, 15));
   ((916679059921043, 15), (-399624199845647, 15));
   ((-916679059921043, 15), (399624199845647, 15));
   ((399624199845647, 15), (916679059921043, 15));
   ((-399624199845647, 15), (-916679059921043, 15));
   ((984210092386929, 15), (177004220412149, 15));
   ((-984210092386929, 15), (-177004220412149, 15));
   ((177004220412149, 15), (-984210092386929, 15));
   ((-177004220412149, 15), (984210092386929, 15));
   ((821102514991105, 15), (-570780745886967, 15));
   ((-821102514991105, 15), (570780745886967, 15));
   ((570780745886967, 15), (821102514991105, 15));
   ((-570780745886967, 15), (-821102514991105, 15));
   ((977028142657754, 15), (-213110319916091, 15));
   ((-977028142657754, 15), (213110319916091, 15));
   ((213110319916091, 15), (977028142657754, 15));
   ((-213110319916091, 15), (-977028142657754, 15));
   ((841554977436898, 15), (540171472729893, 15));
   ((-841554977436898, 15), (-540171472729893, 15));
   ((540171472729893, 15), (-841554977436898, 15));
   ((-540171472729893, 15), (841554977436898, 15));
   ((996820299291166, 15), (796824379714301, 16));
   ((-996820299291166, 15), (-796824379714301, 16));
   ((796824379714301, 16), (-996820299291166, 15));
   ((-796824379714301, 16), (996820299291166, 15));
   ((761202385484262, 15), (-648514401022113, 15));
   ((-761202385484262, 15), (648514401022113, 15));
   ((648514401022112, 15), (761202385484262, 15));
   ((-648514401022112, 15), (-761202385484262, 15));
   ((951435020969008, 15), (-307849640041535, 15));
   ((-951435020969008, 15), (307849640041535, 15));
   ((307849640041535, 15), (951435020969008, 15));
   ((-307849640041535, 15), (-951435020969008, 15));
   ((890448723244758, 15), (455083587126344, 15));
   ((-890448723244758, 15), (-455083587126344, 15));
   ((455083587126344, 15), (-890448723244758, 15));
   ((-455083587126344, 15), (890448723244758, 15));
   ((993211949234795, 15), (-116318630911905, 15));
   ((-993211949234795, 15), (116318630911905, 15));
   ((116318630911905, 15), (993211949234795, 15));
   ((-116318630911905, 15), (-993211949234795, 15));
   ((784556597155575, 15), (620057211763289, 15));
   ((-784556597155575, 15), (-620057211763289, 15));
   ((620057211763289, 15), (-784556597155575, 15));
   ((-620057211763289, 15), (784556597155575, 15));
   ((962121404269042, 15), (272621355449949, 15));
   ((-962121404269042, 15), (-272621355449949, 15));
   ((272621355449949, 15), (-962121404269042, 15));
   ((-272621355449949, 15), (962121404269042, 15));
   ((87309497841829, 14), (-487550160148436, 15));
   ((-87309497841829, 14), (487550160148436, 15));
   ((487550160148436, 15), (87309497841829, 14));
   ((-487550160148436, 15), (-87309497841829, 14));
   ((999529417501093, 15), (306748031766366, 16));
   ((-999529417501093, 15), (-306748031766366, 16));
   ((306748031766366, 16), (-999529417501093, 15));
   ((-306748031766366, 16), (999529417501093, 15));
   ((728464390448225, 15), (-6850836677727, 13));
   ((-728464390448225, 15), (6850836677727, 13));
   ((6850836677727, 13), (728464390448225, 15));
   ((-6850836677727, 13), (-728464390448225, 15));
   ((935183509938948, 15), (-35416352542049, 14));
   ((-935183509938948, 15), (35416352542049, 14));
   ((35416352542049, 14), (935183509938948, 15));
   ((-35416352542049, 14), (-935183509938948, 15));
   ((91170603200543, 14), (410843171057904, 15));
   ((-91170603200543, 14), (-410843171057904, 15));
   ((410843171057904, 15), (-91170603200543, 14));
   ((-410843171057904, 15), (91170603200543, 14));
   ((986308097244599, 15), (-16491312048997, 14));
   ((-986308097244599, 15), (16491312048997, 14));
   ((16491312048997, 14), (986308097244599, 15));
   ((-16491312048997, 14), (-986308097244599, 15));
   ((814036329705948, 15), (580813958095765, 15));
   ((-814036329705948, 15), (-580813958095765, 15));
   ((580813958095765, 15), (-814036329705948, 15));
   ((-580813958095765, 15), (814036329705948, 15));
   ((974339382785576, 15), (225083911359793, 15));
   ((-974339382785576, 15), (-225083911359793, 15));
   ((225083911359793, 15), (-974339382785576, 15));
   ((-225083911359793, 15), (974339382785576, 15));
   ((848120344803297, 15), (-529803624686295, 15));
   ((-848120344803297, 15), (529803624686295, 15));
   ((529803624686295, 15), (848120344803297, 15));
   ((-529803624686295, 15), (-848120344803297, 15));
   ((997723066644192, 15), (-674439195636641, 16));
   ((-997723066644192, 15), (674439195636641, 16));
   ((674439195636641, 16), (997723066644192, 15));
   ((-674439195636641, 16), (-997723066644192, 15));
   ((753186799043613, 15), (657806693297079, 15));
   ((-753186799043613, 15), (-657806693297079, 15));
   ((657806693297079, 15), (-753186799043613, 15));
   ((-657806693297079, 15), (753186799043613, 15));
   ((947585591017741, 15), (319502030816016, 15));
   ((-947585591017741, 15), (-319502030816016, 15));
   ((319502030816016, 15), (-947585591017741, 15));
   ((-319502030816016, 15), (947585591017741, 15));
   ((895966249756185, 15), (-444122144570429, 15));
   ((-895966249756185, 15), (444122144570429, 15));
   ((444122144570429, 15), (895966249756185, 15));
   ((-444122144570429, 15), (-895966249756185, 15));
   ((9917097536691, 13), (128498110793793, 15));
   ((-9917097536691, 13), (-128498110793793, 15));
   ((128498110793793, 15), (-9917097536691, 13));
   ((-128498110793793, 15), (9917097536691, 13));
   ((792106577300212, 15), (-610382806276309, 15));
   ((-792106577300212, 15), (610382806276309, 15));
   ((610382806276309, 15), (792106577300212, 15));
   ((-610382806276309, 15), (-792106577300212, 15));
   ((965394441697689, 15), (-260794117915276, 15));
   ((-965394441697689, 15), (260794117915276, 15));
   ((260794117915276, 15), (965394441697689, 15));
   ((-260794117915276, 15), (-965394441697689, 15));
   ((867046245515693, 15), (498227666972782, 15));
   ((-867046245515693, 15), (-498227666972782, 15));
   ((498227666972782, 15), (-867046245515693, 15));
   ((-498227666972782, 15), (867046245515693, 15));
   ((999981175282601, 15), (-613588464915448, 17));
   ((-999981175282601, 15), (613588464915448, 17));
   ((613588464915448, 17), (999981175282601, 15));
   ((-613588464915448, 17), (-999981175282601, 15));
   ((711432195745216, 15), (702754744457225, 15));
   ((-711432195745216, 15), (-702754744457225, 15));
   ((702754744457225, 15), (-711432195745216, 15));
   ((-702754744457225, 15), (711432195745216, 15));
   ((926210242138311, 15), (377007410216418, 15));
   ((-926210242138311, 15), (-377007410216418, 15));
   ((377007410216418, 15), (-926210242138311, 15));
   ((-377007410216418, 15), (926210242138311, 15));
   ((921514039342042, 15), (-388345046698826, 15));
   ((-921514039342042, 15), (388345046698826, 15));
   ((388345046698826, 15), (921514039342042, 15));
   ((-388345046698826, 15), (-921514039342042, 15));
   ((981963869109555, 15), (189068664149806, 15));
   ((-981963869109555, 15), (-189068664149806, 15));
   ((189068664149806, 15), (-981963869109555, 15));
   ((-189068664149806, 15), (981963869109555, 15));
   ((828045045257756, 15), (-560661576197336, 15));
   ((-828045045257756, 15), (560661576197336, 15));
   ((560661576197336, 15), (828045045257756, 15));
   ((-560661576197336, 15), (-828045045257756, 15));
   ((979569765685441, 15), (-201104634842092, 15));
   ((-979569765685441, 15), (201104634842092, 15));
   ((201104634842092, 15), (979569765685441, 15));
   ((-201104634842092, 15), (-979569765685441, 15));
   ((83486287498638, 14), (550457972936605, 15));
   ((-83486287498638, 14), (-550457972936605, 15));
   ((550457972936605, 15), (-83486287498638, 14));
   ((-550457972936605, 15), (83486287498638, 14));
   ((99576741446766, 14), (919089564971327, 16));
   ((-99576741446766, 14), (-919089564971327, 16));
   ((919089564971327, 16), (-99576741446766, 14));
   ((-919089564971327, 16), (99576741446766, 14));
   ((76910333764558, 14), (-639124444863776, 15));
   ((-76910333764558, 14), (639124444863776, 15));
   ((639124444863776, 15), (76910333764558, 14));
   ((-639124444863776, 15), (-76910333764558, 14));
   ((955141168305771, 15), (-296150888243624, 15));
   ((-955141168305771, 15), (296150888243624, 15));
   ((296150888243624, 15), (955141168305771, 15));
   ((-296150888243624, 15), (-955141168305771, 15));
   ((884797098430938, 15), (465976495767966, 15));
   ((-884797098430938, 15), (-465976495767966, 15));
   ((465976495767966, 15), (-884797098430938, 15));
   ((-465976495767966, 15), (884797098430938, 15));
   ((994564570734255, 15), (-104121633872055, 15));
   ((-994564570734255, 15), (104121633872055, 15));
   ((104121633872055, 15), (994564570734255, 15));
   ((-104121633872055, 15), (-994564570734255, 15));
   ((776888465673232, 15), (629638238914927, 15));
   ((-776888465673232, 15), (-629638238914927, 15));
   ((629638238914927, 15), (-776888465673233, 15));
   ((-629638238914927, 15), (776888465673233, 15));
   ((958703474895871, 15), (284407537211272, 15));
   ((-958703474895871, 15), (-284407537211272, 15));
   ((284407537211272, 15), (-958703474895871, 15));
   ((-284407537211272, 15), (958703474895871, 15));
   ((879012226428633, 15), (-476799230063322, 15));
   ((-879012226428633, 15), (476799230063322, 15));
   ((476799230063322, 15), (879012226428634, 15));
   ((-476799230063322, 15), (-879012226428634, 15));
   ((999077727752645, 15), (429382569349408, 16));
   ((-999077727752645, 15), (-429382569349408, 16));
   ((429382569349408, 16), (-999077727752645, 15));
   ((-429382569349408, 16), (999077727752645, 15));
   ((73681656887737, 14), (-676092703575316, 15));
   ((-73681656887737, 14), (676092703575316, 15));
   ((676092703575316, 15), (73681656887737, 14));
   ((-676092703575316, 15), (-73681656887737, 14));
   ((93945922360219, 14), (-342660717311994, 15));
   ((-93945922360219, 14), (342660717311994, 15));
   ((342660717311994, 15), (93945922360219, 14));
   ((-342660717311994, 15), (-93945922360219, 14));
   ((906595704514915, 15), (4220002707998, 13));
   ((-906595704514915, 15), (-4220002707998, 13));
   ((4220002707998, 13), (-906595704514915, 15));
   ((-4220002707998, 13), (906595704514915, 15));
   ((988257567730749, 15), (-152797185258443, 15));
   ((-988257567730749, 15), (152797185258443, 15));
   ((152797185258443, 15), (988257567730749, 15));
   ((-152797185258443, 15), (-988257567730749, 15));
   ((806847553543799, 15), (590759701858874, 15));
   ((-806847553543799, 15), (-590759701858874, 15));
   ((590759701858874, 15), (-806847553543799, 15));
   ((-590759701858874, 15), (806847553543799, 15));
   ((971503890986252, 15), (237023605994367, 15));
   ((-971503890986252, 15), (-237023605994367, 15));
   ((237023605994367, 15), (-971503890986252, 15));
   ((-237023605994367, 15), (971503890986252, 15));
   ((854557988365401, 15), (-51935599016559, 14));
   ((-854557988365401, 15), (51935599016559, 14));
   ((51935599016559, 14), (854557988365401, 15));
   ((-51935599016559, 14), (-854557988365401, 15));
   ((998475580573295, 15), (-551952443496899, 16));
   ((-998475580573295, 15), (551952443496899, 16));
   ((551952443496899, 16), (998475580573295, 15));
   ((-551952443496899, 16), (-998475580573295, 15));
   ((745057785441466, 15), (666999922303638, 15));
   ((-745057785441466, 15), (-666999922303638, 15));
   ((666999922303637, 15), (-745057785441466, 15));
   ((-666999922303637, 15), (745057785441466, 15));
   ((94359345816196, 14), (331106305759876, 15));
   ((-94359345816196, 14), (-331106305759876, 15));
   ((331106305759876, 15), (-94359345816196, 14));
   ((-331106305759876, 15), (94359345816196, 14));
   ((901348847046022, 15), (-433093818853152, 15));
   ((-901348847046022, 15), (433093818853152, 15));
   ((433093818853152, 15), (901348847046022, 15));
   ((-433093818853152, 15), (-901348847046022, 15));
   ((990058210262297, 15), (140658239332849, 15));
   ((-990058210262297, 15), (-140658239332849, 15));
   ((140658239332849, 15), (-990058210262297, 15));
   ((-140658239332849, 15), (990058210262297, 15));
   ((799537269107905, 15), (-600616479383869, 15));
   ((-799537269107905, 15), (600616479383869, 15));
   ((600616479383869, 15), (799537269107905, 15));
   ((-600616479383869, 15), (-799537269107905, 15));
   ((968522094274417, 15), (-24892760574572, 14));
   ((-968522094274417, 15), (24892760574572, 14));
   ((24892760574572, 14), (968522094274417, 15));
   ((-24892760574572, 14), (-968522094274417, 15));
   ((860866938637767, 15), (508830142543107, 15));
   ((-860866938637767, 15), (-508830142543107, 15));
   ((508830142543107, 15), (-860866938637767, 15));
   ((-508830142543107, 15), (860866938637767, 15));
   ((999830581795823, 15), (184067299058048, 16));
   ((-999830581795823, 15), (-184067299058048, 16));
   ((184067299058048, 16), (-999830581795823, 15));
   ((-184067299058048, 16), (999830581795823, 15));
   ((720002507961382, 15), (-693971460889654, 15));
   ((-720002507961382, 15), (693971460889654, 15));
   ((693971460889654, 15), (720002507961382, 15));
   ((-693971460889654, 15), (-720002507961382, 15));
   ((930766961078984, 15), (-365612997804774, 15));
   ((-930766961078984, 15), (365612997804774, 15));
   ((365612997804774, 15), (930766961078984, 15));
   ((-365612997804774, 15), (-930766961078984, 15));
   ((916679059921043, 15), (399624199845647, 15));
   ((-916679059921043, 15), (-399624199845647, 15));
   ((399624199845647, 15), (-916679059921043, 15));
   ((-399624199845647, 15), (916679059921043, 15));
   ((984210092386929, 15), (-177004220412149, 15));
   ((-984210092386929, 15), (177004220412149, 15));
   ((177004220412149, 15), (984210092386929, 15));
   ((-177004220412149, 15), (-984210092386929, 15));
   ((821102514991105, 15), (570780745886967, 15));
   ((-821102514991105, 15), (-570780745886967, 15));
   ((570780745886967, 15), (-821102514991105, 15));
   ((-570780745886967, 15), (821102514991105, 15));
   ((977028142657754, 15), (213110319916091, 15));
   ((-977028142657754, 15), (-213110319916091, 15));
   ((213110319916091, 15), (-977028142657754, 15));
   ((-213110319916091, 15), (977028142657754, 15));
   ((841554977436898, 15), (-540171472729893, 15));
   ((-841554977436898, 15), (540171472729893, 15));
   ((540171472729893, 15), (841554977436898, 15));
   ((-540171472729893, 15), (-841554977436898, 15));
   ((996820299291166, 15), (-796824379714301, 16));
   ((-996820299291166, 15), (796824379714301, 16));
   ((796824379714301, 16), (996820299291166, 15));
   ((-796824379714301, 16), (-996820299291166, 15));
   ((761202385484262, 15), (648514401022113, 15));
   ((-761202385484262, 15), (-648514401022113, 15));
   ((648514401022112, 15), (-761202385484262, 15));
   ((-648514401022112, 15), (761202385484262, 15));
   ((951435020969008, 15), (307849640041535, 15));
   ((-951435020969008, 15), (-307849640041535, 15));
   ((307849640041535, 15), (-951435020969008, 15));
   ((-307849640041535, 15), (951435020969008, 15));
   ((890448723244758, 15), (-455083587126344, 15));
   ((-890448723244758, 15), (455083587126344, 15));
   ((455083587126344, 15), (890448723244758, 15));
   ((-455083587126344, 15), (-890448723244758, 15));
   ((993211949234795, 15), (116318630911905, 15));
   ((-993211949234795, 15), (-116318630911905, 15));
   ((116318630911905, 15), (-993211949234795, 15));
   ((-116318630911905, 15), (993211949234795, 15));
   ((784556597155575, 15), (-620057211763289, 15));
   ((-784556597155575, 15), (620057211763289, 15));
   ((620057211763289, 15), (784556597155575, 15));
   ((-620057211763289, 15), (-784556597155575, 15));
   ((962121404269042, 15), (-272621355449949, 15));
   ((-962121404269042, 15), (272621355449949, 15));
   ((272621355449949, 15), (962121404269042, 15));
   ((-272621355449949, 15), (-962121404269042, 15));
   ((87309497841829, 14), (487550160148436, 15));
   ((-87309497841829, 14), (-487550160148436, 15));
   ((487550160148436, 15), (-87309497841829, 14));
   ((-487550160148436, 15), (87309497841829, 14));
   ((999529417501093, 15), (-306748031766366, 16));
   ((-999529417501093, 15), (306748031766366, 16));
   ((306748031766366, 16), (999529417501093, 15));
   ((-306748031766366, 16), (-999529417501093, 15));
   ((728464390448225, 15), (6850836677727, 13));
   ((-728464390448225, 15), (-6850836677727, 13));
   ((6850836677727, 13), (-728464390448225, 15));
   ((-6850836677727, 13), (728464390448225, 15));
   ((935183509938948, 15), (35416352542049, 14));
   ((-935183509938948, 15), (-35416352542049, 14));
   ((35416352542049, 14), (-935183509938948, 15));
   ((-35416352542049, 14), (935183509938948, 15));
   ((91170603200543, 14), (-410843171057904, 15));
   ((-91170603200543, 14), (410843171057904, 15));
   ((410843171057904, 15), (91170603200543, 14));
   ((-410843171057904, 15), (-91170603200543, 14));
   ((986308097244599, 15), (16491312048997, 14));
   ((-986308097244599, 15), (-16491312048997, 14));
   ((16491312048997, 14), (-986308097244599, 15));
   ((-16491312048997, 14), (986308097244599, 15));
   ((814036329705948, 15), (-580813958095765, 15));
   ((-814036329705948, 15), (580813958095765, 15));
   ((580813958095765, 15), (814036329705948, 15));
   ((-580813958095765, 15), (-814036329705948, 15));
   ((974339382785576, 15), (-225083911359793, 15));
   ((-974339382785576, 15), (225083911359793, 15));
   ((225083911359793, 15), (974339382785576, 15));
   ((-225083911359793, 15), (-974339382785576, 15));
   ((848120344803297, 15), (529803624686295, 15));
   ((-848120344803297, 15), (-529803624686295, 15));
   ((529803624686295, 15), (-848120344803297, 15));
   ((-529803624686295, 15), (848120344803297, 15));
   ((997723066644192, 15), (674439195636641, 16));
   ((-997723066644192, 15), (-674439195636641, 16));
   ((674439195636641, 16), (-997723066644192, 15));
   ((-674439195636641, 16), (997723066644192, 15));
   ((753186799043613, 15), (-657806693297079, 15));
   ((-753186799043613, 15), (657806693297079, 15));
   ((657806693297079, 15), (753186799043613, 15));
   ((-657806693297079, 15), (-753186799043613, 15));
   ((947585591017741, 15), (-319502030816016, 15));
   ((-947585591017741, 15), (319502030816016, 15));
   ((319502030816016, 15), (947585591017741, 15));
   ((-319502030816016, 15), (-947585591017741, 15));
   ((895966249756185, 15), (444122144570429, 15));
   ((-895966249756185, 15), (-444122144570429, 15));
   ((444122144570429, 15), (-895966249756185, 15));
   ((-444122144570429, 15), (895966249756185, 15));
   ((9917097536691, 13), (-128498110793793, 15));
   ((-9917097536691, 13), (128498110793793, 15));
   ((128498110793793, 15), (9917097536691, 13));
   ((-128498110793793, 15), (-9917097536691, 13));
   ((792106577300212, 15), (610382806276309, 15));
   ((-792106577300212, 15), (-610382806276309, 15));
   ((610382806276309, 15), (-792106577300212, 15));
   ((-610382806276309, 15), (792106577300212, 15));
   ((965394441697689, 15), (260794117915276, 15));
   ((-965394441697689, 15), (-260794117915276, 15));
   ((260794117915276, 15), (-965394441697689, 15));
   ((-260794117915276, 15), (965394441697689, 15));
   ((867046245515693, 15), (-498227666972782, 15));
   ((-867046245515693, 15), (498227666972782, 15));
   ((498227666972782, 15), (867046245515693, 15));
   ((-498227666972782, 15), (-867046245515693, 15))].
(** fft_constants.go:1084-2109 *)
Definition phi2048_roots : list ((Z * Z) * (Z * Z)) :=
  [((999995293809576, 15), (306795676296598, 17));
   ((-999995293809576, 15), (-306795676296598, 17));
   ((306795676296598, 17), (-999995293809576, 15));
   ((-306795676296598, 17), (999995293809576, 15));
   ((709272826438866, 15), (-704934080375905, 15));
   ((-709272826438866, 15), (704934080375905, 15));
   ((704934080375905, 15), (709272826438866, 15));
   ((-704934080375905, 15), (-709272826438866, 15));
   ((925049240782678, 15), (-379847208924051, 15));
   ((-925049240782678, 15), (379847208924051, 15));
   ((379847208924051, 15), (925049240782678, 15));
   ((-379847208924051, 15), (-925049240782678, 15));
   ((922701128333879, 15), (385516053843919, 15));
   ((-922701128333879, 15), (-385516053843919, 15));
   ((385516053843919, 15), (-922701128333879, 15));
   ((-385516053843919, 15), (922701128333879, 15));
   ((981379193313755, 15), (-192080397049892, 15));
   ((-981379193313755, 15), (192080397049892, 15));
   ((192080397049892, 15), (981379193313755, 15));
   ((-192080397049892, 15), (-981379193313755, 15));
   ((829761233794523, 15), (558118531220556, 15));
   ((-829761233794523, 15), (-558118531220556, 15));
   ((558118531220556, 15), (-829761233794523, 15));
   ((-558118531220556, 15), (829761233794523, 15));
   ((980182135968117, 15), (198098410717954, 15));
   ((-980182135968117, 15), (-198098410717954, 15));
   ((198098410717954, 15), (-980182135968117, 15));
   ((-198098410717954, 15), (980182135968117, 15));
   ((833170164701913, 15), (-553016705580028, 15));
   ((-833170164701913, 15), (553016705580028, 15));
   ((553016705580028, 15), (833170164701913, 15));
   ((-553016705580028, 15), (-833170164701913, 15));
   ((995480755491927, 15), (-94963495329639, 15));
   ((-995480755491927, 15), (94963495329639, 15));
   ((94963495329639, 15), (995480755491927, 15));
   ((-94963495329639, 15), (-995480755491927, 15));
   ((771060524261814, 15), (636761861236284, 15));
   ((-771060524261814, 15), (-636761861236284, 15));
   ((636761861236284, 15), (-771060524261814, 15));
   ((-636761861236284, 15), (771060524261814, 15));
   ((956045251349996, 15), (293219162694259, 15));
   ((-956045251349996, 15), (-293219162694259, 15));
   ((293219162694259, 15), (-956045251349996, 15));
   ((-293219162694259, 15), (956045251349996, 15));
   ((883363338665732, 15), (-468688822035828, 15));
   ((-883363338665732, 15), (468688822035828, 15));
   ((468688822035828, 15), (883363338665732, 15));
   ((-468688822035828, 15), (-883363338665732, 15));
   ((994879330794806, 15), (101069862754828, 15));
   ((-994879330794806, 15), (-101069862754828, 15));
   ((101069862754828, 15), (-994879330794806, 15));
   ((-101069862754828, 15), (994879330794806, 15));
   ((774953106594874, 15), (-632018735939809, 15));
   ((-774953106594874, 15), (632018735939809, 15));
   ((632018735939809, 15), (774953106594874, 15));
   ((-632018735939809, 15), (-774953106594874, 15));
   ((957826413027533, 15), (-28734745954473, 14));
   ((-957826413027533, 15), (28734745954473, 14));
   ((28734745954473, 14), (957826413027533, 15));
   ((-28734745954473, 14), (-957826413027533, 15));
   ((880470889052161, 15), (47410021465055, 14));
   ((-880470889052161, 15), (-47410021465055, 14));
   ((47410021465055, 14), (-880470889052161, 15));
   ((-47410021465055, 14), (880470889052161, 15));
   ((998941293186857, 15), (-460031821309146, 16));
   ((-998941293186857, 15), (460031821309146, 16));
   ((460031821309146, 16), (998941293186857, 15));
   ((-460031821309146, 16), (-998941293186857, 15));
   ((738887324460615, 15), (673829000378756, 15));
   ((-738887324460615, 15), (-673829000378756, 15));
   ((673829000378756, 15), (-738887324460615, 15));
   ((-673829000378756, 15), (738887324460615, 15));
   ((940506070593268, 15), (339776884406827, 15));
   ((-940506070593268, 15), (-339776884406827, 15));
   ((339776884406827, 15), (-940506070593268, 15));
   ((-339776884406827, 15), (940506070593268, 15));
   ((905296759318119, 15), (-424779681209109, 15));
   ((-905296759318119, 15), (424779681209109, 15));
   ((424779681209109, 15), (905296759318119, 15));
   ((-424779681209109, 15), (-905296759318119, 15));
   ((988721691960324, 15), (149764534677322, 15));
   ((-988721691960324, 15), (-149764534677322, 15));
   ((149764534677322, 15), (-988721691960324, 15));
   ((-149764534677322, 15), (988721691960324, 15));
   ((805031331142964, 15), (-5932322950398, 13));
   ((-805031331142964, 15), (5932322950398, 13));
   ((5932322950398, 13), (805031331142964, 15));
   ((-5932322950398, 13), (-805031331142964, 15));
   ((97077214072895, 14), (-240003022448741, 15));
   ((-97077214072895, 14), (240003022448741, 15));
   ((240003022448741, 15), (97077214072895, 14));
   ((-240003022448741, 15), (-97077214072895, 14));
   ((856147328375194, 15), (51673179901765, 14));
   ((-856147328375194, 15), (-51673179901765, 14));
   ((51673179901765, 14), (-856147328375194, 15));
   ((-51673179901765, 14), (856147328375194, 15));
   ((998640218180265, 15), (521317046802833, 16));
   ((-998640218180265, 15), (-521317046802833, 16));
   ((521317046802833, 16), (-998640218180265, 15));
   ((-521317046802833, 16), (998640218180265, 15));
   ((743007952135122, 15), (-669282588346636, 15));
   ((-743007952135122, 15), (669282588346636, 15));
   ((669282588346636, 15), (743007952135122, 15));
   ((-669282588346636, 15), (-743007952135122, 15));
   ((942573197601447, 15), (-333999651442009, 15));
   ((-942573197601447, 15), (333999651442009, 15));
   ((333999651442009, 15), (942573197601447, 15));
   ((-333999651442009, 15), (-942573197601447, 15));
   ((902673318237259, 15), (430326481340083, 15));
   ((-902673318237259, 15), (-430326481340083, 15));
   ((430326481340083, 15), (-902673318237259, 15));
   ((-430326481340083, 15), (902673318237259, 15));
   ((989622017463201, 15), (-143695033150294, 15));
   ((-989622017463201, 15), (143695033150294, 15));
   ((143695033150294, 15), (989622017463201, 15));
   ((-143695033150294, 15), (-989622017463201, 15));
   ((80137617172314, 14), (598160706996342, 15));
   ((-80137617172314, 14), (-598160706996342, 15));
   ((598160706996342, 15), (-80137617172314, 14));
   ((-598160706996342, 15), (80137617172314, 14));
   ((969281235356549, 15), (245955050335795, 15));
   ((-969281235356549, 15), (-245955050335795, 15));
   ((245955050335795, 15), (-969281235356549, 15));
   ((-245955050335795, 15), (969281235356549, 15));
   ((859301818357008, 15), (-51146885043797, 14));
   ((-859301818357008, 15), (51146885043797, 14));
   ((51146885043797, 14), (859301818357008, 15));
   ((-51146885043797, 14), (-859301818357008, 15));
   ((999769405351215, 15), (-214740802754695, 16));
   ((-999769405351215, 15), (214740802754695, 16));
   ((214740802754695, 16), (999769405351215, 15));
   ((-214740802754695, 16), (-999769405351215, 15));
   ((722128193929215, 15), (691759258364158, 15));
   ((-722128193929215, 15), (-691759258364158, 15));
   ((691759258364158, 15), (-722128193929215, 15));
   ((-691759258364158, 15), (722128193929215, 15));
   ((931884265581668, 15), (362755724367397, 15));
   ((-931884265581668, 15), (-362755724367397, 15));
   ((362755724367397, 15), (-931884265581668, 15));
   ((-362755724367397, 15), (931884265581668, 15));
   ((915448716088268, 15), (-402434650859418, 15));
   ((-915448716088268, 15), (402434650859418, 15));
   ((402434650859418, 15), (915448716088268, 15));
   ((-402434650859418, 15), (-915448716088268, 15));
   ((984748501801904, 15), (173983873387464, 15));
   ((-984748501801904, 15), (-173983873387464, 15));
   ((173983873387464, 15), (-984748501801904, 15));
   ((-173983873387464, 15), (984748501801904, 15));
   ((819347520076797, 15), (-573297166698042, 15));
   ((-819347520076797, 15), (573297166698042, 15));
   ((573297166698042, 15), (819347520076797, 15));
   ((-573297166698042, 15), (-819347520076797, 15));
   ((976369731330021, 15), (-21610679707622, 14));
   ((-976369731330021, 15), (21610679707622, 14));
   ((21610679707622, 14), (976369731330021, 15));
   ((-21610679707622, 14), (-976369731330021, 15));
   ((843208239641845, 15), (537587076295646, 15));
   ((-843208239641845, 15), (-537587076295646, 15));
   ((537587076295646, 15), (-843208239641845, 15));
   ((-537587076295646, 15), (843208239641845, 15));
   ((997060070339483, 15), (766238613920315, 16));
   ((-997060070339483, 15), (-766238613920315, 16));
   ((766238613920315, 16), (-997060070339483, 15));
   ((-766238613920315, 16), (997060070339483, 15));
   ((759209188978388, 15), (-650846684996381, 15));
   ((-759209188978388, 15), (650846684996381, 15));
   ((650846684996381, 15), (759209188978388, 15));
   ((-650846684996381, 15), (-759209188978388, 15));
   ((950486073949482, 15), (-310767152749612, 15));
   ((-950486073949482, 15), (310767152749612, 15));
   ((310767152749612, 15), (950486073949482, 15));
   ((-310767152749612, 15), (-950486073949482, 15));
   ((891840709392343, 15), (452349587233771, 15));
   ((-891840709392343, 15), (-452349587233771, 15));
   ((452349587233771, 15), (-891840709392343, 15));
   ((-452349587233771, 15), (891840709392343, 15));
   ((992850414459865, 15), (-119365214810991, 15));
   ((-992850414459865, 15), (119365214810991, 15));
   ((119365214810991, 15), (992850414459865, 15));
   ((-119365214810991, 15), (-992850414459865, 15));
   ((786455213599086, 15), (617647307937804, 15));
   ((-786455213599086, 15), (-617647307937804, 15));
   ((617647307937804, 15), (-786455213599086, 15));
   ((-617647307937804, 15), (786455213599086, 15));
   ((962953266873684, 15), (269668325572915, 15));
   ((-962953266873684, 15), (-269668325572915, 15));
   ((269668325572915, 15), (-962953266873684, 15));
   ((-269668325572915, 15), (962953266873684, 15));
   ((871595086655951, 15), (-490226483288291, 15));
   ((-871595086655951, 15), (490226483288291, 15));
   ((490226483288291, 15), (871595086655951, 15));
   ((-490226483288291, 15), (-871595086655951, 15));
   ((999618822495179, 15), (276081457789657, 16));
   ((-999618822495179, 15), (-276081457789657, 16));
   ((276081457789657, 16), (-999618822495179, 15));
   ((-276081457789657, 16), (999618822495179, 15));
   ((726359155084346, 15), (-687315340891759, 15));
   ((-726359155084346, 15), (687315340891759, 15));
   ((687315340891759, 15), (726359155084346, 15));
   ((-687315340891759, 15), (-726359155084346, 15));
   ((934092550404259, 15), (-35703096123343, 14));
   ((-934092550404259, 15), (35703096123343, 14));
   ((35703096123343, 14), (934092550404259, 15));
   ((-35703096123343, 14), (-934092550404259, 15));
   ((912962190428398, 15), (408044162864979, 15));
   ((-912962190428398, 15), (-408044162864979, 15));
   ((408044162864979, 15), (-912962190428398, 15));
   ((-408044162864979, 15), (912962190428398, 15));
   ((985797509167567, 15), (-167938294974731, 15));
   ((-985797509167567, 15), (167938294974731, 15));
   ((167938294974731, 15), (985797509167567, 15));
   ((-167938294974731, 15), (-985797509167567, 15));
   ((815814410806734, 15), (578313796411656, 15));
   ((-815814410806734, 15), (-578313796411656, 15));
   ((578313796411656, 15), (-815814410806734, 15));
   ((-578313796411656, 15), (815814410806734, 15));
   ((975025345066994, 15), (222093620973204, 15));
   ((-975025345066994, 15), (-222093620973204, 15));
   ((222093620973204, 15), (-975025345066994, 15));
   ((-222093620973204, 15), (975025345066994, 15));
   ((846490938774052, 15), (-532403127877198, 15));
   ((-846490938774052, 15), (532403127877198, 15));
   ((532403127877198, 15), (846490938774052, 15));
   ((-532403127877198, 15), (-846490938774052, 15));
   ((997511456140303, 15), (-705045733896139, 16));
   ((-997511456140303, 15), (705045733896139, 16));
   ((705045733896139, 16), (997511456140303, 15));
   ((-705045733896139, 16), (-997511456140303, 15));
   ((755201376896537, 15), (655492852999615, 15));
   ((-755201376896537, 15), (-655492852999615, 15));
   ((655492852999615, 15), (-755201376896537, 15));
   ((-655492852999615, 15), (755201376896537, 15));
   ((94856134991573, 14), (316593375556166, 15));
   ((-94856134991573, 14), (-316593375556166, 15));
   ((316593375556166, 15), (-94856134991573, 14));
   ((-316593375556166, 15), (94856134991573, 14));
   ((894599485631383, 15), (-446868840162374, 15));
   ((-894599485631383, 15), (446868840162374, 15));
   ((446868840162374, 15), (894599485631383, 15));
   ((-446868840162374, 15), (-894599485631383, 15));
   ((992099313142192, 15), (125454983411546, 15));
   ((-992099313142192, 15), (-125454983411546, 15));
   ((125454983411546, 15), (-992099313142192, 15));
   ((-125454983411546, 15), (992099313142192, 15));
   ((79023022143731, 14), (-61281008242941, 14));
   ((-79023022143731, 14), (61281008242941, 14));
   ((61281008242941, 14), (79023022143731, 14));
   ((-61281008242941, 14), (-79023022143731, 14));
   ((964589793289813, 15), (-263754678974831, 15));
   ((-964589793289813, 15), (263754678974831, 15));
   ((263754678974831, 15), (964589793289813, 15));
   ((-263754678974831, 15), (-964589793289813, 15));
   ((868570705971341, 15), (495565261825772, 15));
   ((-868570705971341, 15), (-495565261825772, 15));
   ((495565261825772, 15), (-868570705971341, 15));
   ((-495565261825772, 15), (868570705971341, 15));
   ((999957644551964, 15), (-920375478205982, 17));
   ((-999957644551964, 15), (920375478205982, 17));
   ((920375478205982, 17), (999957644551964, 15));
   ((-920375478205982, 17), (-999957644551964, 15));
   ((713584868780794, 15), (700568793943248, 15));
   ((-713584868780794, 15), (-700568793943248, 15));
   ((700568793943248, 15), (-713584868780794, 15));
   ((-700568793943248, 15), (713584868780794, 15));
   ((927362525650401, 15), (374164062971458, 15));
   ((-927362525650401, 15), (-374164062971458, 15));
   ((374164062971458, 15), (-927362525650401, 15));
   ((-374164062971458, 15), (927362525650401, 15));
   ((92031827670911, 14), (-391170384302254, 15));
   ((-92031827670911, 14), (391170384302254, 15));
   ((391170384302254, 15), (920318276709111, 15));
   ((-391170384302254, 15), (-920318276709111, 15));
   ((982539302287441, 15), (186055151663447, 15));
   ((-982539302287441, 15), (-186055151663447, 15));
   ((186055151663447, 15), (-982539302287441, 15));
   ((-186055151663447, 15), (982539302287441, 15));
   ((826321062845664, 15), (-563199344013834, 15));
   ((-826321062845664, 15), (563199344013834, 15));
   ((563199344013834, 15), (826321062845664, 15));
   ((-563199344013834, 15), (-826321062845664, 15));
   ((978948175319062, 15), (-204108966092817, 15));
   ((-978948175319062, 15), (204108966092817, 15));
   ((204108966092817, 15), (978948175319062, 15));
   ((-204108966092817, 15), (-978948175319062, 15));
   ((836547727223512, 15), (5478940591731, 13));
   ((-836547727223512, 15), (-5478940591731, 13));
   ((5478940591731, 13), (-836547727223512, 15));
   ((-5478940591731, 13), (836547727223512, 15));
   ((996044700901252, 15), (888535525825246, 16));
   ((-996044700901252, 15), (-888535525825246, 16));
   ((888535525825246, 16), (-996044700901252, 15));
   ((-888535525825246, 16), (996044700901252, 15));
   ((76713891193582, 14), (-641481012808583, 15));
   ((-76713891193582, 14), (641481012808583, 15));
   ((641481012808583, 15), (76713891193582, 14));
   ((-641481012808583, 15), (-76713891193582, 14));
   ((954228095109106, 15), (-29907982630804, 14));
   ((-954228095109106, 15), (29907982630804, 14));
   ((29907982630804, 14), (954228095109106, 15));
   ((-29907982630804, 14), (-954228095109106, 15));
   ((886222530148881, 15), (46325978355186, 14));
   ((-886222530148881, 15), (-46325978355186, 14));
   ((46325978355186, 14), (-886222530148881, 15));
   ((-46325978355186, 14), (886222530148881, 15));
   ((994240449453188, 15), (-107172424956809, 15));
   ((-994240449453188, 15), (107172424956809, 15));
   ((107172424956809, 15), (994240449453188, 15));
   ((-107172424956809, 15), (-994240449453188, 15));
   ((778816512381476, 15), (627251815495144, 15));
   ((-778816512381476, 15), (-627251815495144, 15));
   ((627251815495144, 15), (-778816512381476, 15));
   ((-627251815495144, 15), (778816512381476, 15));
   ((959571513081985, 15), (281464937925758, 15));
   ((-959571513081985, 15), (-281464937925758, 15));
   ((281464937925758, 15), (-959571513081985, 15));
   ((-281464937925758, 15), (959571513081985, 15));
   ((877545290207261, 15), (-479493757660153, 15));
   ((-877545290207261, 15), (479493757660153, 15));
   ((479493757660153, 15), (877545290207261, 15));
   ((-479493757660153, 15), (-877545290207261, 15));
   ((999204758618364, 15), (398729275877398, 16));
   ((-999204758618364, 15), (-398729275877398, 16));
   ((398729275877398, 16), (-999204758618364, 15));
   ((-398729275877398, 16), (999204758618364, 15));
   ((734738878095963, 15), (-678350043129862, 15));
   ((-734738878095963, 15), (678350043129862, 15));
   ((678350043129861, 15), (734738878095963, 15));
   ((-678350043129861, 15), (-734738878095963, 15));
   ((938403534063108, 15), (-345541324963989, 15));
   ((-938403534063108, 15), (345541324963989, 15));
   ((345541324963989, 15), (938403534063108, 15));
   ((-345541324963989, 15), (-938403534063108, 15));
   ((907886116487666, 15), (419216888363224, 15));
   ((-907886116487666, 15), (-419216888363224, 15));
   ((419216888363224, 15), (-907886116487666, 15));
   ((-419216888363224, 15), (907886116487666, 15));
   ((987784141644572, 15), (-155828397654265, 15));
   ((-987784141644572, 15), (155828397654265, 15));
   ((155828397654265, 15), (987784141644572, 15));
   ((-155828397654265, 15), (-987784141644572, 15));
   ((808656181588175, 15), (588281548222645, 15));
   ((-808656181588175, 15), (-588281548222645, 15));
   ((588281548222645, 15), (-808656181588175, 15));
   ((-588281548222645, 15), (808656181588175, 15));
   ((972226497078936, 15), (234041958583543, 15));
   ((-972226497078936, 15), (-234041958583543, 15));
   ((234041958583543, 15), (-972226497078936, 15));
   ((-234041958583543, 15), (972226497078936, 15));
   ((852960604930364, 15), (-521975292937154, 15));
   ((-852960604930364, 15), (521975292937154, 15));
   ((521975292937154, 15), (852960604930364, 15));
   ((-521975292937154, 15), (-852960604930364, 15));
   ((998301544933893, 15), (-582582645004358, 16));
   ((-998301544933893, 15), (582582645004358, 16));
   ((582582645004358, 16), (998301544933893, 15));
   ((-582582645004358, 16), (-998301544933893, 15));
   ((74710060598018, 14), (664710978203345, 15));
   ((-74710060598018, 14), (-664710978203345, 15));
   ((664710978203345, 15), (-74710060598018, 14));
   ((-664710978203345, 15), (74710060598018, 14));
   ((94460483726148, 14), (328209843579092, 15));
   ((-94460483726148, 14), (-328209843579092, 15));
   ((328209843579092, 15), (-94460483726148, 14));
   ((-328209843579092, 15), (94460483726148, 14));
   ((90001589201616, 14), (-435857079922255, 15));
   ((-90001589201616, 14), (435857079922255, 15));
   ((435857079922256, 15), (90001589201616, 14));
   ((-435857079922256, 15), (-90001589201616, 14));
   ((990485084256457, 15), (137620121586486, 15));
   ((-990485084256457, 15), (-137620121586486, 15));
   ((137620121586486, 15), (-990485084256457, 15));
   ((-137620121586486, 15), (990485084256457, 15));
   ((797690840943391, 15), (-603066598540348, 15));
   ((-797690840943391, 15), (603066598540348, 15));
   ((603066598540348, 15), (797690840943391, 15));
   ((-603066598540348, 15), (-797690840943391, 15));
   ((967753837093475, 15), (-251897818154217, 15));
   ((-967753837093475, 15), (251897818154217, 15));
   ((251897818154217, 15), (967753837093475, 15));
   ((-251897818154217, 15), (-967753837093475, 15));
   ((862423956111041, 15), (506186645345155, 15));
   ((-862423956111041, 15), (-506186645345155, 15));
   ((506186645345155, 15), (-862423956111041, 15));
   ((-506186645345155, 15), (862423956111041, 15));
   ((999882347454213, 15), (153392062849881, 16));
   ((-999882347454213, 15), (-153392062849881, 16));
   ((153392062849881, 16), (-999882347454213, 15));
   ((-153392062849881, 16), (999882347454213, 15));
   ((717870045055732, 15), (-696177131491463, 15));
   ((-717870045055732, 15), (696177131491463, 15));
   ((696177131491463, 15), (717870045055732, 15));
   ((-696177131491463, 15), (-717870045055732, 15));
   ((929640895843181, 15), (-368466829953372, 15));
   ((-929640895843181, 15), (368466829953372, 15));
   ((368466829953372, 15), (929640895843181, 15));
   ((-368466829953372, 15), (-929640895843181, 15));
   ((91790077562139, 14), (39680998741671, 14));
   ((-91790077562139, 14), (-39680998741671, 14));
   ((39680998741671, 14), (-91790077562139, 14));
   ((-39680998741671, 14), (91790077562139, 14));
   ((98366241921173, 14), (-1800229014057, 13));
   ((-98366241921173, 14), (1800229014057, 13));
   ((1800229014057, 13), (98366241921173, 14));
   ((-1800229014057, 13), (-98366241921173, 14));
   ((822849781375826, 15), (568258952670132, 15));
   ((-822849781375826, 15), (-568258952670132, 15));
   ((568258952670132, 15), (-822849781375826, 15));
   ((-568258952670132, 15), (822849781375826, 15));
   ((97767735782451, 14), (21011183688047, 14));
   ((-97767735782451, 14), (-21011183688047, 14));
   ((21011183688047, 14), (-97767735782451, 14));
   ((-21011183688047, 14), (97767735782451, 14));
   ((839893794196, 12), (-542750784864516, 15));
   ((-839893794196, 12), (542750784864516, 15));
   ((542750784864516, 15), (839893794196, 12));
   ((-542750784864516, 15), (-839893794196, 12));
   ((996571145790555, 15), (-827402645493757, 16));
   ((-996571145790555, 15), (827402645493757, 16));
   ((827402645493757, 16), (996571145790555, 15));
   ((-827402645493757, 16), (-996571145790555, 15));
   ((763188417263381, 15), (646176012983316, 15));
   ((-763188417263381, 15), (-646176012983316, 15));
   ((646176012983316, 15), (-763188417263381, 15));
   ((-646176012983316, 15), (763188417263381, 15));
   ((952375012719766, 15), (304929229735402, 15));
   ((-952375012719766, 15), (-304929229735402, 15));
   ((304929229735402, 15), (-952375012719766, 15));
   ((-304929229735402, 15), (952375012719766, 15));
   ((889048355854665, 15), (-457813303598877, 15));
   ((-889048355854665, 15), (457813303598877, 15));
   ((457813303598877, 15), (889048355854665, 15));
   ((-457813303598877, 15), (-889048355854665, 15));
   ((993564135520595, 15), (113270952177564, 15));
   ((-993564135520595, 15), (-113270952177564, 15));
   ((113270952177564, 15), (-993564135520595, 15));
   ((-113270952177564, 15), (993564135520595, 15));
   ((782650596166576, 15), (-62246127937415, 14));
   ((-782650596166576, 15), (62246127937415, 14));
   ((62246127937415, 14), (782650596166576, 15));
   ((-62246127937415, 14), (-782650596166576, 15));
   ((961280485811321, 15), (-275571819310958, 15));
   ((-961280485811321, 15), (275571819310958, 15));
   ((275571819310958, 15), (961280485811321, 15));
   ((-275571819310958, 15), (-961280485811321, 15));
   ((874586652278176, 15), (484869248000791, 15));
   ((-874586652278176, 15), (-484869248000791, 15));
   ((484869248000791, 15), (-874586652278176, 15));
   ((-484869248000791, 15), (874586652278176, 15));
   ((999430604555462, 15), (-337411718513776, 16));
   ((-999430604555462, 15), (337411718513776, 16));
   ((337411718513776, 16), (999430604555462, 15));
   ((-337411718513776, 16), (-999430604555462, 15));
   ((730562769227828, 15), (682845546385248, 15));
   ((-730562769227828, 15), (-682845546385248, 15));
   ((682845546385248, 15), (-730562769227828, 15));
   ((-682845546385248, 15), (730562769227828, 15));
   ((936265667170278, 15), (351292756085567, 15));
   ((-936265667170278, 15), (-351292756085567, 15));
   ((351292756085567, 15), (-936265667170278, 15));
   ((-351292756085567, 15), (936265667170278, 15));
   ((910441292258067, 15), (-413638312238435, 15));
   ((-910441292258067, 15), (413638312238435, 15));
   ((413638312238435, 15), (910441292258067, 15));
   ((-413638312238435, 15), (-910441292258067, 15));
   ((986809401814185, 15), (161886393780112, 15));
   ((-986809401814185, 15), (-161886393780112, 15));
   ((161886393780112, 15), (-986809401814185, 15));
   ((-161886393780112, 15), (986809401814185, 15));
   ((812250586585204, 15), (-583308652937698, 15));
   ((-812250586585204, 15), (583308652937698, 15));
   ((583308652937698, 15), (812250586585204, 15));
   ((-583308652937698, 15), (-812250586585204, 15));
   ((973644249650812, 15), (-228072083170886, 15));
   ((-973644249650812, 15), (228072083170886, 15));
   ((228072083170886, 15), (973644249650812, 15));
   ((-228072083170886, 15), (-973644249650812, 15));
   ((849741768000852, 15), (527199134781901, 15));
   ((-849741768000852, 15), (-527199134781901, 15));
   ((527199134781901, 15), (-849741768000853, 15));
   ((-527199134781901, 15), (849741768000853, 15));
   ((997925286198596, 15), (643826309298575, 16));
   ((-997925286198596, 15), (-643826309298575, 16));
   ((643826309298575, 16), (-997925286198596, 15));
   ((-643826309298575, 16), (997925286198596, 15));
   ((751165131909686, 15), (-66011434206742, 14));
   ((-751165131909686, 15), (66011434206742, 14));
   ((66011434206742, 14), (751165131909686, 15));
   ((-66011434206742, 14), (-751165131909686, 15));
   ((946600913083284, 15), (-32240767880107, 14));
   ((-946600913083284, 15), (32240767880107, 14));
   ((32240767880107, 14), (946600913083284, 15));
   ((-32240767880107, 14), (-946600913083284, 15));
   ((897324580705418, 15), (441371268731717, 15));
   ((-897324580705418, 15), (-441371268731717, 15));
   ((441371268731717, 15), (-897324580705418, 15));
   ((-441371268731717, 15), (897324580705418, 15));
   ((991310859846115, 15), (-131540028702883, 15));
   ((-991310859846115, 15), (131540028702883, 15));
   ((131540028702883, 15), (991310859846115, 15));
   ((-131540028702883, 15), (-991310859846115, 15));
   ((793975477554337, 15), (607949784967774, 15));
   ((-793975477554337, 15), (-607949784967774, 15));
   ((607949784967774, 15), (-793975477554337, 15));
   ((-607949784967774, 15), (793975477554337, 15));
   ((966190003445413, 15), (257831102162159, 15));
   ((-966190003445413, 15), (-257831102162159, 15));
   ((257831102162159, 15), (-966190003445413, 15));
   ((-257831102162159, 15), (966190003445413, 15));
   ((865513624090569, 15), (-500885382611241, 15));
   ((-865513624090569, 15), (500885382611241, 15));
   ((500885382611241, 15), (865513624090569, 15));
   ((-500885382611241, 15), (-865513624090569, 15));
   ((999995293809576, 15), (-306795676296598, 17));
   ((-999995293809576, 15), (306795676296598, 17));
   ((306795676296598, 17), (999995293809576, 15));
   ((-306795676296598, 17), (-999995293809576, 15));
   ((709272826438866, 15), (704934080375905, 15));
   ((-709272826438866, 15), (-704934080375905, 15));
   ((704934080375905, 15), (-709272826438866, 15));
   ((-704934080375905, 15), (709272826438866, 15));
   ((925049240782678, 15), (379847208924051, 15));
   ((-925049240782678, 15), (-379847208924051, 15));
   ((379847208924051, 15), (-925049240782678, 15));
   ((-379847208924051, 15), (925049240782678, 15));
   ((922701128333879, 15), (-385516053843919, 15));
   ((-922701128333879, 15), (385516053843919, 15));
   ((385516053843919, 15), (922701128333879, 15));
   ((-385516053843919, 15), (-922701128333879, 15));
   ((981379193313755, 15), (192080397049892, 15));
   ((-981379193313755, 15), (-192080397049892, 15));
   ((192080397049892, 15), (-981379193313755, 15));
   ((-192080397049892, 15), (981379193313755, 15));
   ((829761233794523, 15), (-558118531220556, 15));
   ((-829761233794523, 15), (558118531220556, 15));
   ((558118531220556, 15), (829761233794523, 15));
   ((-558118531220556, 15), (-829761233794523, 15));
   ((980182135968117, 15), (-198098410717954, 15));
   ((-980182135968117, 15), (198098410717954, 15));
   ((198098410717954, 15), (980182135968117, 15));
   ((-198098410717954, 15), (-980182135968117, 15));
   ((833170164701913, 15), (553016705580028, 15));
   ((-833170164701913, 15), (-553016705580028, 15));
   ((553016705580028, 15), (-833170164701913, 15));
   ((-553016705580028, 15), (833170164701913, 15));
   ((995480755491927, 15), (94963495329639, 15));
   ((-995480755491927, 15), (-94963495329639, 15));
   ((94963495329639, 15), (-995480755491927, 15));
   ((-94963495329639, 15), (995480755491927, 15));
   ((771060524261814, 15), (-636761861236284, 15));
   ((-771060524261814, 15), (636761861236284, 15));
   ((636761861236284, 15), (771060524261814, 15));
   ((-636761861236284, 15), (-771060524261814, 15));
   ((956045251349996, 15), (-293219162694259, 15));
   ((-956045251349996, 15), (293219162694259, 15));
   ((293219162694259, 15), (956045251349996, 15));
   ((-293219162694259, 15), (-956045251349996, 15));
   ((883363338665732, 15), (468688822035828, 15));
   ((-883363338665732, 15), (-468688822035828, 15));
   ((468688822035828, 15), (-883363338665732, 15));
   ((-468688822035828, 15), (883363338665732, 15));
   ((994879330794806, 15), (-101069862754828, 15));
   ((-994879330794806, 15), (101069862754828, 15));
   ((101069862754828, 15), (994879330794806, 15));
   ((-101069862754828, 15), (-994879330794806, 15));
   ((774953106594874, 15), (632018735939809, 15));
   ((-774953106594874, 15), (-632018735939809, 15));
   ((632018735939809, 15), (-774953106594874, 15));
   ((-632018735939809, 15), (774953106594874, 15));
   ((957826413027533, 15), (28734745954473, 14));
   ((-957826413027533, 15), (-28734745954473, 14));
   ((28734745954473, 14), (-957826413027533, 15));
   ((-28734745954473, 14), (957826413027533, 15));
   ((880470889052161, 15), (-47410021465055, 14));
   ((-880470889052161, 15), (47410021465055, 14));
   ((47410021465055, 14), (880470889052161, 15));
   ((-47410021465055, 14), (-880470889052161, 15));
   ((998941293186857, 15), (460031821309146, 16));
   ((-998941293186857, 15), (-460031821309146, 16));
   ((460031821309146, 16), (-998941293186857, 15));
   ((-460031821309146, 16), (998941293186857, 15));
   ((738887324460615, 15), (-673829000378756, 15));
   ((-738887324460615, 15), (673829000378756, 15));
   ((673829000378756, 15), (738887324460615, 15));
   ((-673829000378756, 15), (-738887324460615, 15));
   ((940506070593268, 15), (-339776884406827, 15));
   ((-940506070593268, 15), (339776884406827, 15));
   ((339776884406827, 15), (940506070593268, 15));
   ((-339776884406827, 15), (-940506070593268, 15));
   ((905296759318119, 15), (424779681209109, 15));
   ((-905296759318119, 15), (-424779681209109, 15));
   ((424779681209109, 15), (-905296759318119, 15));
   ((-424779681209109, 15), (905296759318119, 15));
   ((988721691960324, 15), (-149764534677322, 15));
   ((-988721691960324, 15), (149764534677322, 15));
   ((149764534677322, 15), (988721691960324, 15));
   ((-149764534677322, 15), (-988721691960324, 15));
   ((805031331142964, 15), (5932322950398, 13));
   ((-805031331142964, 15), (-5932322950398, 13));
   ((5932322950398, 13), (-805031331142964, 15));
   ((-5932322950398, 13), (805031331142964, 15));
   ((97077214072895, 14), (240003022448741, 15));
   ((-97077214072895, 14), (-240003022448741, 15));
   ((240003022448741, 15), (-97077214072895, 14));
   ((-240003022448741, 15), (97077214072895, 14));
   ((856147328375194, 15), (-51673179901765, 14));
   ((-856147328375194, 15), (51673179901765, 14));
   ((51673179901765, 14), (856147328375194, 15));
   ((-51673179901765, 14), (-856147328375194, 15));
   ((998640218180265, 15), (-521317046802833, 16));
   ((-998640218180265, 15), (521317046802833, 16));
   ((521317046802833, 16), (998640218180265, 15));
   ((-521317046802833, 16), (-998640218180265, 15));
   ((743007952135122, 15), (669282588346636, 15));
   ((-743007952135122, 15), (-669282588346636, 15));
   ((669282588346636, 15), (-743007952135122, 15));
   ((-669282588346636, 15), (743007952135122, 15));
   ((942573197601447, 15), (333999651442009, 15));
   ((-942573197601447, 15), (-333999651442009, 15));
   ((333999651442009, 15), (-942573197601447, 15));
   ((-333999651442009, 15), (942573197601447, 15));
   ((902673318237259, 15), (-430326481340083, 15));
   ((-902673318237259, 15), (430326481340083, 15));
   ((430326481340083, 15), (902673318237259, 15));
   ((-430326481340083, 15), (-902673318237259, 15));
   ((989622017463201, 15), (143695033150294, 15));
   ((-989622017463201, 15), (-143695033150294, 15));
   ((143695033150294, 15), (-989622017463201, 15));
   ((-143695033150294, 15), (989622017463201, 15));
   ((80137617172314, 14), (-598160706996342, 15));
   ((-80137617172314, 14), (598160706996342, 15));
   ((598160706996342, 15), (80137617172314, 14));
   ((-598160706996342, 15), (-80137617172314, 14));
   ((969281235356549, 15), (-245955050335795, 15));
   ((-969281235356549, 15), (245955050335795, 15));
   ((245955050335795, 15), (969281235356549, 15));
   ((-245955050335795, 15), (-969281235356549, 15));
   ((859301818357008, 15), (51146885043797, 14));
   ((-859301818357008, 15), (-51146885043797, 14));
   ((51146885043797, 14), (-859301818357008, 15));
   ((-51146885043797, 14), (859301818357008, 15));
   ((999769405351215, 15), (214740802754695, 16));
   ((-999769405351215, 15), (-214740802754695, 16));
   ((214740802754695, 16), (-999769405351215, 15));
   ((-214740802754695, 16), (999769405351215, 15));
   ((722128193929215, 15), (-691759258364158, 15));
   ((-722128193929215, 15), (691759258364158, 15));
   ((691759258364158, 15), (722128193929215, 15));
   ((-691759258364158, 15), (-722128193929215, 15));
   ((931884265581668, 15), (-362755724367397, 15));
   ((-931884265581668, 15), (362755724367397, 15));
   ((362755724367397, 15), (931884265581668, 15));
   ((-362755724367397, 15), (-931884265581668, 15));
   ((915448716088268, 15), (402434650859418, 15));
   ((-915448716088268, 15), (-402434650859418, 15));
   ((402434650859418, 15), (-915448716088268, 15));
   ((-402434650859418, 15), (915448716088268, 15));
   ((984748501801904, 15), (-173983873387464, 15));
   ((-984748501801904, 15), (173983873387464, 15));
   ((173983873387464, 15), (984748501801904, 15));
   ((-173983873387464, 15), (-984748501801904, 15));
   ((819347520076797, 15), (573297166698042, 15));
   ((-819347520076797, 15), (-573297166698042, 15));
   ((573297166698042, 15), (-819347520076797, 15));
   ((-573297166698042, 15), (819347520076797, 15));
   ((976369731330021, 15), (21610679707622, 14));
   ((-976369731330021, 15), (-21610679707622, 14));
   ((21610679707622, 14), (-976369731330021, 15));
   ((-21610679707622, 14), (976369731330021, 15));
   ((843208239641845, 15), (-537587076295646, 15));
   ((-843208239641845, 15), (537587076295646, 15));
   ((537587076295646, 15), (843208239641845, 15));
   ((-537587076295646, 15), (-843208239641845, 15));
   ((997060070339483, 15), (-766238613920315, 16));
   ((-997060070339483, 15), (766238613920315, 16));
   ((766238613920315, 16), (997060070339483, 15));
   ((-766238613920315, 16), (-997060070339483, 15));
   ((759209188978388, 15), (650846684996381, 15));
   ((-759209188978388, 15), (-650846684996381, 15));
   ((650846684996381, 15), (-759209188978388, 15));
   ((-650846684996381, 15), (759209188978388, 15));
   ((950486073949482, 15), (310767152749612, 15));
   ((-950486073949482, 15), (-310767152749612, 15));
   ((310767152749612, 15), (-950486073949482, 15));
   ((-310767152749612, 15), (950486073949482, 15));
   ((891840709392343, 15), (-452349587233771, 15));
   ((-891840709392343, 15), (452349587233771, 15));
   ((452349587233771, 15), (891840709392343, 15));
   ((-452349587233771, 15), (-891840709392343, 15));
   ((992850414459865, 15), (119365214810991, 15));
   ((-992850414459865, 15), (-119365214810991, 15));
   ((119365214810991, 15), (-992850414459865, 15));
   ((-119365214810991, 15), (992850414459865, 15));
   ((786455213599086, 15), (-617647307937804, 15));
   ((-786455213599086, 15), (617647307937804, 15));
   ((617647307937804, 15), (786455213599086, 15));
   ((-617647307937804, 15), (-786455213599086, 15));
   ((962953266873684, 15), (-269668325572915, 15));
   ((-962953266873684, 15), (269668325572915, 15));
   ((269668325572915, 15), (962953266873684, 15));
   ((-269668325572915, 15), (-962953266873684, 15));
   ((871595086655951, 15), (490226483288291, 15));
   ((-871595086655951, 15), (-490226483288291, 15));
   ((490226483288291, 15), (-871595086655951, 15));
   ((-490226483288291, 15), (871595086655951, 15));
   ((999618822495179, 15), (-276081457789657, 16));
   ((-999618822495179, 15), (276081457789657, 16));
   ((276081457789657, 16), (999618822495179, 15));
   ((-276081457789657, 16), (-999618822495179, 15));
   ((726359155084346, 15), (687315340891759, 15));
   ((-726359155084346, 15), (-687315340891759, 15));
   ((687315340891759, 15), (-726359155084346, 15));
   ((-687315340891759, 15), (726359155084346, 15));
   ((934092550404259, 15), (35703096123343, 14));
   ((-934092550404259, 15), (-35703096123343, 14));
   ((35703096123343, 14), (-934092550404259, 15));
   ((-35703096123343, 14), (934092550404259, 15));
   ((912962190428398, 15), (-408044162864979, 15));
   ((-912962190428398, 15), (408044162864979, 15));
   ((408044162864979, 15), (912962190428398, 15));
   ((-408044162864979, 15), (-912962190428398, 15));
   ((985797509167567, 15), (167938294974731, 15));
   ((-985797509167567, 15), (-167938294974731, 15));
   ((167938294974731, 15), (-985797509167567, 15));
   ((-167938294974731, 15), (985797509167567, 15));
   ((815814410806734, 15), (-578313796411656, 15));
   ((-815814410806734, 15), (578313796411656, 15));
   ((578313796411656, 15), (815814410806734, 15));
   ((-578313796411656, 15), (-815814410806734, 15));
   ((975025345066994, 15), (-222093620973204, 15));
   ((-975025345066994, 15), (222093620973204, 15));
   ((222093620973204, 15), (975025345066994, 15));
   ((-222093620973204, 15), (-975025345066994, 15));
   ((846490938774052, 15), (532403127877198, 15));
   ((-846490938774052, 15), (-532403127877198, 15));
   ((532403127877198, 15), (-846490938774052, 15));
   ((-532403127877198, 15), (846490938774052, 15));
   ((997511456140303, 15), (705045733896139, 16));
   ((-997511456140303, 15), (-705045733896139, 16));
   ((705045733896139, 16), (-997511456140303, 15));
   ((-705045733896139, 16), (997511456140303, 15));
   ((755201376896537, 15), (-655492852999615, 15));
   ((-755201376896537, 15), (655492852999615, 15));
   ((655492852999615, 15), (755201376896537, 15));
   ((-655492852999615, 15), (-755201376896537, 15));
   ((94856134991573, 14), (-316593375556166, 15));
   ((-94856134991573, 14), (316593375556166, 15));
   ((316593375556166, 15), (94856134991573, 14));
   ((-316593375556166, 15), (-94856134991573, 14));
   ((894599485631383, 15), (446868840162374, 15));
   ((-894599485631383, 15), (-446868840162374, 15));
   ((446868840162374, 15), (-894599485631383, 15));
   ((-446868840162374, 15), (894599485631383, 15));
   ((992099313142192, 15), (-125454983411546, 15));
   ((-992099313142192, 15), (125454983411546, 15));
   ((125454983411546, 15), (992099313142192, 15));
   ((-125454983411546, 15), (-992099313142192, 15));
   ((79023022143731, 14), (61281008242941, 14));
   ((-79023022143731, 14), (-61281008242941, 14));
   ((61281008242941, 14), (-79023022143731, 14));
   ((-61281008242941, 14), (79023022143731, 14));
   ((964589793289813, 15), (263754678974831, 15));
   ((-964589793289813, 15), (-263754678974831, 15));
   ((263754678974831, 15), (-964589793289813, 15));
   ((-263754678974831, 15), (964589793289813, 15));
   ((868570705971341, 15), (-495565261825772, 15));
   ((-868570705971341, 15), (495565261825772, 15));
   ((495565261825772, 15), (868570705971341, 15));
   ((-495565261825772, 15), (-868570705971341, 15));
   ((999957644551964, 15), (920375478205982, 17));
   ((-999957644551964, 15), (-920375478205982, 17));
   ((920375478205982, 17), (-999957644551964, 15));
   ((-920375478205982, 17), (999957644551964, 15));
   ((713584868780794, 15), (-700568793943248, 15));
   ((-713584868780794, 15), (700568793943248, 15));
   ((700568793943248, 15), (713584868780794, 15));
   ((-700568793943248, 15), (-713584868780794, 15));
   ((927362525650401, 15), (-374164062971458, 15));
   ((-927362525650401, 15), (374164062971458, 15));
   ((374164062971458, 15), (927362525650401, 15));
   ((-374164062971458, 15), (-927362525650401, 15));
   ((92031827670911, 14), (391170384302254, 15));
   ((-92031827670911, 14), (-391170384302254, 15));
   ((391170384302254, 15), (-920318276709111, 15));
   ((-391170384302254, 15), (920318276709111, 15));
   ((982539302287441, 15), (-186055151663447, 15));
   ((-982539302287441, 15), (186055151663447, 15));
   ((186055151663447, 15), (982539302287441, 15));
   ((-186055151663447, 15), (-982539302287441, 15));
   ((826321062845664, 15), (563199344013834, 15));
   ((-826321062845664, 15), (-563199344013834, 15));
   ((563199344013834, 15), (-826321062845664, 15));
   ((-563199344013834, 15), (826321062845664, 15));
   ((978948175319062, 15), (204108966092817, 15));
   ((-978948175319062, 15), (-204108966092817, 15));
   ((204108966092817, 15), (-978948175319062, 15));
   ((-204108966092817, 15), (978948175319062, 15));
   ((836547727223512, 15), (-5478940591731, 13));
   ((-836547727223512, 15), (5478940591731, 13));
   ((5478940591731, 13), (836547727223512, 15));
   ((-5478940591731, 13), (-836547727223512, 15));
   ((996044700901252, 15), (-888535525825246, 16));
   ((-996044700901252, 15), (888535525825246, 16));
   ((888535525825246, 16), (996044700901252, 15));
   ((-888535525825246, 16), (-996044700901252, 15));
   ((76713891193582, 14), (641481012808583, 15));
   ((-76713891193582, 14), (-641481012808583, 15));
   ((641481012808583, 15), (-76713891193582, 14));
   ((-641481012808583, 15), (76713891193582, 14));
   ((954228095109106, 15), (29907982630804, 14));
   ((-954228095109106, 15), (-29907982630804, 14));
   ((29907982630804, 14), (-954228095109106, 15));
   ((-29907982630804, 14), (954228095109106, 15));
   ((886222530148881, 15), (-46325978355186, 14));
   ((-886222530148881, 15), (46325978355186, 14));
   ((46325978355186, 14), (886222530148881, 15));
   ((-46325978355186, 14), (-886222530148881, 15));
   ((994240449453188, 15), (107172424956809, 15));
   ((-994240449453188, 15), (-107172424956809, 15));
   ((107172424956809, 15), (-994240449453188, 15));
   ((-107172424956809, 15), (994240449453188, 15));
   ((778816512381476, 15), (-627251815495144, 15));
   ((-778816512381476, 15), (627251815495144, 15));
   ((627251815495144, 15), (778816512381476, 15));
   ((-627251815495144, 15), (-778816512381476, 15));
   ((959571513081985, 15), (-281464937925758, 15));
   ((-959571513081985, 15), (281464937925758, 15));
   ((281464937925758, 15), (959571513081985, 15));
   ((-281464937925758, 15), (-959571513081985, 15));
   ((877545290207261, 15), (479493757660153, 15));
   ((-877545290207261, 15), (-479493757660153, 15));
   ((479493757660153, 15), (-877545290207261, 15));
   ((-479493757660153, 15), (877545290207261, 15));
   ((999204758618364, 15), (-398729275877398, 16));
   ((-999204758618364, 15), (398729275877398, 16));
   ((398729275877398, 16), (999204758618364, 15));
   ((-398729275877398, 16), (-999204758618364, 15));
   ((734738878095963, 15), (678350043129862, 15));
   ((-734738878095963, 15), (-678350043129862, 15));
   ((678350043129861, 15), (-734738878095963, 15));
   ((-678350043129861, 15), (734738878095963, 15));
   ((938403534063108, 15), (345541324963989, 15));
   ((-938403534063108, 15), (-345541324963989, 15));
   ((345541324963989, 15), (-938403534063108, 15));
   ((-345541324963989, 15), (938403534063108, 15));
   ((907886116487666, 15), (-419216888363224, 15));
   ((-907886116487666, 15), (419216888363224, 15));
   ((419216888363224, 15), (907886116487666, 15));
   ((-419216888363224, 15), (-907886116487666, 15));
   ((987784141644572, 15), (155828397654265, 15));
   ((-987784141644572, 15), (-155828397654265, 15));
   ((155828397654265, 15), (-987784141644572, 15));
   ((-155828397654265, 15), (987784141644572, 15));
   ((808656181588175, 15), (-588281548222645, 15));
   ((-808656181588175, 15), (588281548222645, 15));
   ((588281548222645, 15), (808656181588175, 15));
   ((-588281548222645, 15), (-808656181588175, 15));
   ((972226497078936, 15), (-234041958583543, 15));
   ((-972226497078936, 15), (234041958583543, 15));
   ((234041958583543, 15), (972226497078936, 15));
   ((-234041958583543, 15), (-972226497078936, 15));
   ((852960604930364, 15), (521975292937154, 15));
   ((-852960604930364, 15), (-521975292937154, 15));
   ((521975292937154, 15), (-852960604930364, 15));
   ((-521975292937154, 15), (852960604930364, 15));
   ((998301544933893, 15), (582582645004358, 16));
   ((-998301544933893, 15), (-582582645004358, 16));
   ((582582645004358, 16), (-998301544933893, 15));
   ((-582582645004358, 16), (998301544933893, 15));
   ((74710060598018, 14), (-664710978203345, 15));
   ((-74710060598018, 14), (664710978203345, 15));
   ((664710978203345, 15), (74710060598018, 14));
   ((-664710978203345, 15), (-74710060598018, 14));
   ((94460483726148, 14), (-328209843579092, 15));
   ((-94460483726148, 14), (328209843579092, 15));
   ((328209843579092, 15), (94460483726148, 14));
   ((-328209843579092, 15), (-94460483726148, 14));
   ((90001589201616, 14), (435857079922255, 15));
   ((-90001589201616, 14), (-435857079922255, 15));
   ((435857079922256, 15), (-90001589201616, 14));
   ((-435857079922256, 15), (90001589201616, 14));
   ((990485084256457, 15), (-137620121586486, 15));
   ((-990485084256457, 15), (137620121586486, 15));
   ((137620121586486, 15), (990485084256457, 15));
   ((-137620121586486, 15), (-990485084256457, 15));
   ((797690840943391, 15), (603066598540348, 15));
   ((-797690840943391, 15), (-603066598540348, 15));
   ((603066598540348, 15), (-797690840943391, 15));
   ((-603066598540348, 15), (797690840943391, 15));
   ((967753837093475, 15), (251897818154217, 15));
   ((-967753837093475, 15), (-251897818154217, 15));
   ((251897818154217, 15), (-967753837093475, 15));
   ((-251897818154217, 15), (967753837093475, 15));
   ((862423956111041, 15), (-506186645345155, 15));
   ((-862423956111041, 15), (506186645345155, 15));
   ((506186645345155, 15), (862423956111041, 15));
   ((-506186645345155, 15), (-862423956111041, 15));
   ((999882347454213, 15), (-153392062849881, 16));
   ((-999882347454213, 15), (153392062849881, 16));
   ((153392062849881, 16), (999882347454213, 15));
   ((-153392062849881, 16), (-999882347454213, 15));
   ((717870045055732, 15), (696177131491463, 15));
   ((-717870045055732, 15), (-696177131491463, 15));
   ((696177131491463, 15), (-717870045055732, 15));
   ((-696177131491463, 15), (717870045055732, 15));
   ((929640895843181, 15), (368466829953372, 15));
   ((-929640895843181, 15), (-368466829953372, 15));
   ((368466829953372, 15), (-929640895843181, 15));
   ((-368466829953372, 15), (929640895843181, 15));
   ((91790077562139, 14), (-39680998741671, 14));
   ((-91790077562139, 14), (39680998741671, 14));
   ((39680998741671, 14), (91790077562139, 14));
   ((-39680998741671, 14), (-91790077562139, 14));
   ((98366241921173, 14), (1800229014057, 13));
   ((-98366241921173, 14), (-1800229014057, 13));
   ((1800229014057, 13), (-98366241921173, 14));
   ((-1800229014057, 13), (98366241921173, 14));
   ((822849781375826, 15), (-568258952670132, 15));
   ((-822849781375826, 15), (568258952670132, 15));
   ((568258952670132, 15), (822849781375826, 15));
   ((-568258952670132, 15), (-822849781375826, 15));
   ((97767735782451, 14), (-21011183688047, 14));
   ((-97767735782451, 14), (21011183688047, 14));
   ((21011183688047, 14), (97767735782451, 14));
   ((-21011183688047, 14), (-97767735782451, 14));
   ((839893794196, 12), (542750784864516, 15));
   ((-839893794196, 12), (-542750784864516, 15));
   ((542750784864516, 15), (-839893794196, 12));
   ((-542750784864516, 15), (839893794196, 12));
   ((996571145790555, 15), (827402645493757, 16));
   ((-996571145790555, 15), (-827402645493757, 16));
   ((827402645493757, 16), (-996571145790555, 15));
   ((-827402645493757, 16), (996571145790555, 15));
   ((763188417263381, 15), (-646176012983316, 15));
   ((-763188417263381, 15), (646176012983316, 15));
   ((646176012983316, 15), (763188417263381, 15));
   ((-646176012983316, 15), (-763188417263381, 15));
   ((952375012719766, 15), (-304929229735402, 15));
   ((-952375012719766, 15), (304929229735402, 15));
   ((304929229735402, 15), (952375012719766, 15));
   ((-304929229735402, 15), (-952375012719766, 15));
   ((889048355854665, 15), (457813303598877, 15));
   ((-889048355854665, 15), (-457813303598877, 15));
   ((457813303598877, 15), (-889048355854665, 15));
   ((-457813303598877, 15), (889048355854665, 15));
   ((993564135520595, 15), (-113270952177564, 15));
   ((-993564135520595, 15), (113270952177564, 15));
   ((113270952177564, 15), (993564135520595, 15));
   ((-113270952177564, 15), (-993564135520595, 15));
   ((782650596166576, 15), (62246127937415, 14));
   ((-782650596166576, 15), (-62246127937415, 14));
   ((62246127937415, 14), (-782650596166576, 15));
   ((-62246127937415, 14), (782650596166576, 15));
   ((961280485811321, 15), (275571819310958, 15));
   ((-961280485811321, 15), (-275571819310958, 15));
   ((275571819310958, 15), (-961280485811321, 15));
   ((-275571819310958, 15), (961280485811321, 15));
   ((874586652278176, 15), (-484869248000791, 15));
   ((-874586652278176, 15), (484869248000791, 15));
   ((484869248000791, 15), (874586652278176, 15));
   ((-484869248000791, 15), (-874586652278176, 15));
   ((999430604555462, 15), (337411718513776, 16));
   ((-999430604555462, 15), (-337411718513776, 16));
   ((337411718513776, 16), (-999430604555462, 15));
   ((-337411718513776, 16), (999430604555462, 15));
   ((730562769227828, 15), (-682845546385248, 15));
   ((-730562769227828, 15), (682845546385248, 15));
   ((682845546385248, 15), (730562769227828, 15));
   ((-682845546385248, 15), (-730562769227828, 15));
   ((936265667170278, 15), (-351292756085567, 15));
   ((-936265667170278, 15), (351292756085567, 15));
   ((351292756085567, 15), (936265667170278, 15));
   ((-351292756085567, 15), (-936265667170278, 15));
   ((910441292258067, 15), (413638312238435, 15));
   ((-910441292258067, 15), (-413638312238435, 15));
   ((413638312238435, 15), (-910441292258067, 15));
   ((-413638312238435, 15), (910441292258067, 15));
   ((986809401814185, 15), (-161886393780112, 15));
   ((-986809401814185, 15), (161886393780112, 15));
   ((161886393780112, 15), (986809401814185, 15));
   ((-161886393780112, 15), (-986809401814185, 15));
   ((812250586585204, 15), (583308652937698, 15));
   ((-812250586585204, 15), (-583308652937698, 15));
   ((583308652937698, 15), (-812250586585204, 15));
   ((-583308652937698, 15), (812250586585204, 15));
   ((973644249650812, 15), (228072083170886, 15));
   ((-973644249650812, 15), (-228072083170886, 15));
   ((228072083170886, 15), (-973644249650812, 15));
   ((-228072083170886, 15), (973644249650812, 15));
   ((849741768000852, 15), (-527199134781901, 15));
   ((-849741768000852, 15), (527199134781901, 15));
   ((527199134781901, 15), (849741768000853, 15));
   ((-527199134781901, 15), (-849741768000853, 15));
   ((997925286198596, 15), (-643826309298575, 16));
   ((-997925286198596, 15), (643826309298575, 16));
   ((643826309298575, 16), (997925286198596, 15));
   ((-643826309298575, 16), (-997925286198596, 15));
   ((751165131909686, 15), (66011434206742, 14));
   ((-751165131909686, 15), (-66011434206742, 14));
   ((66011434206742, 14), (-751165131909686, 15));
   ((-66011434206742, 14), (751165131909686, 15));
   ((946600913083284, 15), (32240767880107, 14));
   ((-946600913083284, 15), (-32240767880107, 14));
   ((32240767880107, 14), (-946600913083284, 15));
   ((-32240767880107, 14), (946600913083284, 15));
   ((897324580705418, 15), (-441371268731717, 15));
   ((-897324580705418, 15), (441371268731717, 15));
   ((441371268731717, 15), (897324580705418, 15));
   ((-441371268731717, 15), (-897324580705418, 15));
   ((991310859846115, 15), (131540028702883, 15));
   ((-991310859846115, 15), (-131540028702883, 15));
   ((131540028702883, 15), (-991310859846115, 15));
   ((-131540028702883, 15), (991310859846115, 15));
   ((793975477554337, 15), (-607949784967774, 15));
   ((-793975477554337, 15), (607949784967774, 15));
   ((607949784967774, 15), (793975477554337, 15));
   ((-607949784967774, 15), (-793975477554337, 15));
   ((966190003445413, 15), (-257831102162159, 15));
   ((-966190003445413, 15), (257831102162159, 15));
   ((257831102162159, 15), (966190003445413, 15));
   ((-257831102162159, 15), (-966190003445413, 15));
   ((865513624090569, 15), (500885382611241, 15));
   ((-865513624090569, 15), (-500885382611241, 15));
   ((500885382611241, 15), (-865513624090569, 15));
   ((-500885382611241, 15), (865513624090569, 15))].
