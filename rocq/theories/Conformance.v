(** The project's own tests (in t/) run on the model: same data, same expectations.  These are checks of the
    model, not proofs of properties.  Left out: t/320 (no expectations) and the tests of the test library. *)
From Verif Require Import Base Blob Oracle Arithm StampDict DictWords StampText Galley Stamps Json OwnedPtr TestStamps.
Local Open Scope Z_scope.

(** char sample[] = "..."; Blob(sample, strlen(sample)). *)
Definition chars (s : bytes) : blob := newBlob (s ++ [x00]) (Some 0) (zlen s).
(** Blob(sample, sizeof(sample)). *)
Definition raw (s : bytes) : blob := newBlob s (Some 0) (zlen s).
Definition octets (l : list Z) : bytes := map byte_of_Z l.

(** ** t/001-blob-generic.cpp *)
Definition my_data : bytes := lit "1234567890ABCDEFGHIGKLMNOPQRSTUVWXYZabcdefghigklmnopqrstuvwxyzАБВГДитд.___".

(** t/001-blob-generic.cpp:45-52. *)
Example t001_dup : DataDup (chars my_data) = Ok (my_data, zlen my_data).
Proof. vm_compute. reflexivity. Qed.
(** t/001-blob-generic.cpp:53-70. *)
Example t001_chop : let x := blobChop 3 (chars (lit "123456")) in
  DataDup (snd x) = Ok (lit "456", 3) /\ (c <-- fst x ;; DataDup c) = Ok (lit "123", 3).
Proof. split; vm_compute; reflexivity. Qed.
(** t/001-blob-generic.cpp:71-88. *)
Example t001_too_many : fst (blobChop 99999 (chars my_data)) = OutOfData.
Proof. vm_compute. reflexivity. Qed.

(** ** t/050-sized_ptr_and_vlato_ptr.cpp *)

(** t/050-sized_ptr_and_vlato_ptr.cpp:51-64. *)
Example t050_sized : prun pinit [NewSized 40; Use 0; Destroy 0] = Ok (mkP [mkBlock 40 true] [ODead]).
Proof. reflexivity. Qed.
(** t/050-sized_ptr_and_vlato_ptr.cpp:65-80; offsetof(VariableLengthObject, arr) is 18. *)
Example t050_vlato : prun pinit [NewVlato 18 5 2; Use 0; Convert 0; Use 1]
  = Ok (mkP [mkBlock 28 false] [OVlato None 5 18 2; OSized (Some 0%nat) 28]).
Proof. reflexivity. Qed.
Example t050_vlato_end : exists s, prun pinit [NewVlato 18 5 2; Use 0; Convert 0; Use 1; Destroy 1; Destroy 0] = Ok s
  /\ blocks s = [mkBlock 28 true].
Proof. eexists. split; reflexivity. Qed.

(** ** t/060-oracle.cpp:34-39 *)
Example t060 : map (fun o => OracleProportion o 0 255) [0; 255; 256; 65535; 65535 - 255; 65535 - 256]
  = map Ok [0; 0; 1; 255; 255; 254].
Proof. vm_compute. reflexivity. Qed.

(** ** t/100-stamp-base.cpp *)

(** t/100-stamp-base.cpp:52-65. *)
Example t100_two : let x := TwoCharsExtractStr (chars (lit "1234567")) in
  fst x = Ok (lit "12") /\ DataDup (snd x) = Ok (lit "34567", 5).
Proof. split; vm_compute; reflexivity. Qed.
(** t/100-stamp-base.cpp:68-75. *)
Example t100_all : fst (TwoCharsExtractStr (chars (lit "12"))) = Ok (lit "12").
Proof. vm_compute. reflexivity. Qed.
(** t/100-stamp-base.cpp:79-91. *)
Example t100_several : fst ((a <- SeveralCharsExtractStr ;; b <- SeveralCharsExtractStr ;; ret (a, b)) (chars (lit "1234567890")))
  = Ok (lit "12345678", lit "90").
Proof. vm_compute. reflexivity. Qed.
(** t/100-stamp-base.cpp:93-115. *)
Example t100_not_enough : let x := SeveralCharsExtractStr (chars (lit "123456789")) in
  fst x = Ok (lit "12345678") /\ fst (SeveralCharsExtractStr (snd x)) = OutOfData.
Proof. split; vm_compute; reflexivity. Qed.
(** t/100-stamp-base.cpp:117-151. *)
Example t100_one : fst (TwoCharsExtractStr (chars (lit "1"))) = OutOfData /\ fst (TwoCharsListExtractStr (chars (lit "1"))) = OutOfData.
Proof. split; vm_compute; reflexivity. Qed.

(** ** t/110-stamp-arithm.cpp *)

(** t/110-stamp-arithm.cpp:54-72. *)
Example t110_char :
  fst ((v <- ArithExtractBin Char ;; s <- ArithExtractStr Char ;; c <- ExtractValue Char ;; p <- ArithExtractPValue Char ;; ret (v, s, c, p))
       (chars (lit "Some string")))
  = Ok (lit "S", lit "111", 109, (lit "e", 1)).
Proof. vm_compute. reflexivity. Qed.
(** t/110-stamp-arithm.cpp:76-104, 107-138 and 141-172: the same tests for three sizes. *)
Definition t110_ints (s u : arith) (b : blob) : res (Z * bytes * bytes * Z * Z * Z * Z) :=
  fst ((v <- ArithExtractBin s ;; s1 <- ArithExtractStr u ;; s2 <- ArithExtractStr s ;; ui <- ExtractValue u ;; si <- ExtractValue s ;;
        up <- ArithExtractPValue u ;; sp <- ArithExtractPValue s ;;
        ret (decode s v, s1, s2, ui, si, decode u (fst up), decode s (fst sp))) b).
Example t110_16 : t110_ints Short UShort (raw (concat (map (encode Short) [1; -2; -3; 4; 555; 66; 777; 8])))
  = Ok (1, lit "65534", lit "-3", 4, 555, 66, 777).
Proof. vm_compute. reflexivity. Qed.
Example t110_32 : t110_ints Int UInt (raw (concat (map (encode Int) [10; -20; -30; 40; 500; 6; 77; 888])))
  = Ok (10, lit "4294967276", lit "-30", 40, 500, 6, 77).
Proof. vm_compute. reflexivity. Qed.
Example t110_64 : t110_ints LLong ULLong (raw (concat (map (encode LLong) [100; -200; -300; 400; 5; 6; 7000; 808])))
  = Ok (100, lit "18446744073709551416", lit "-300", 400, 5, 6, 7000).
Proof. vm_compute. reflexivity. Qed.
(** t/110-stamp-arithm.cpp:175-192; doubles by their bits: 1.4142, 2, 3.1415, 42, 5, 6, 7. *)
Definition doubles : list Z := [4609047809765674267; 4611686018427387904; 4614256447914709615; 4631107791820423168; 4617315517961601024; 4618441417868443648; 4619567317775286272].
Example t110_double :
  fst ((v <- ArithExtractBin Double ;; s <- ArithExtractStr Double ;; d <- ExtractValue Double ;; p <- ArithExtractPValue Double ;;
        ret (decode Double v, s, d, decode Double (fst p))) (raw (concat (map (encode Double) doubles))))
  = Ok (4609047809765674267, lit "2", 4614256447914709615, 4631107791820423168).
Proof. vm_compute. reflexivity. Qed.

(** ** t/120-stamp_dict.cpp:50-67 *)
Example t120 : let d := map lit ["one"%string; "two"%string; "three"%string; "four"%string] in
  fst ((a <- DictExtractStr d ;; b <- DictExtractStr d ;; c <- DictExtractStr d ;; e <- DictExtractStr d ;; ret [a; b; c; e])
       (raw (octets [0; 63; 64; 255])))
  = Ok (map lit ["one"%string; "one"%string; "two"%string; "four"%string]).
Proof. vm_compute. reflexivity. Qed.

(** ** t/130-stamp_enumerator.cpp:39-48 *)
Definition arith_stamp (t : arith) : sx blob := XLeaf (sizeof t) (sizeof t) (ArithExtractStr t).
Example t130 : fst (ExtractStr (mkHeap [] []) (XVec (enum_text (lit "; ") (lit "<") (lit ">")) (arith_stamp UChar)) (raw (octets [1; 63; 64; 255])))
  = Ok (lit "<1; 63; 64; 255>").
Proof. vm_compute. reflexivity. Qed.

(** ** t/140-stamp_lottery.cpp *)
Definition lottery_of (four_recursion : bool) (l : list arith) : heap blob :=
  mkHeap [] [mkLottery (map arith_stamp l) (lot_new (map (fun t => (sizeof t, sizeof t)) l)) four_recursion].

(** t/140-stamp_lottery.cpp:43-63. *)
Example t140_append : let h := lottery_of false [UShort] in
  minSize h (XLot 0) = Ok 3 /\ maxSize h (XLot 0) = Ok 3
  /\ exists h', (h1 <-- append_lottery h 0 (arith_stamp UChar) ;; append_lottery h1 0 (arith_stamp UInt)) = Ok h'
     /\ maxSize h' (XLot 0) = Ok 5 /\ minSize h' (XLot 0) = Ok 2
     /\ fst (ExtractStr h' (XLot 0) (raw (octets [1; 63; 64; 255; 1]))) = Ok (lit "16447").
Proof.
  split; [reflexivity|]. split; [reflexivity|]. eexists. split; [reflexivity|]. split; [reflexivity|]. split; [reflexivity|].
  vm_compute. reflexivity.
Qed.
(** t/140-stamp_lottery.cpp:65-76. *)
Example t140_last : fst (ExtractStr (lottery_of false [UShort; UChar; UInt]) (XLot 0) (raw (octets [255; 63; 64; 255; 1]))) = Ok (lit "33505343").
Proof. vm_compute. reflexivity. Qed.
(** t/140-stamp_lottery.cpp:78-89. *)
Example t140_middle : fst (ExtractStr (lottery_of false [UShort; UChar; UInt]) (XLot 0) (raw (octets [128; 63; 64; 255; 1]))) = Ok (lit "63").
Proof. vm_compute. reflexivity. Qed.
(** t/140-stamp_lottery.cpp:91-102. *)
Example t140_fits : fst (ExtractStr (lottery_of false [UShort; ULong; UChar]) (XLot 0) (newBlob (octets [1; 63; 64; 255; 1]) (Some 0) 2)) = Ok (lit "63").
Proof. vm_compute. reflexivity. Qed.
(** t/140-stamp_lottery.cpp:107-118. *)
Example t140_recursion : fst (ExtractStr (lottery_of true [UShort; UChar; ULong]) (XLot 0) (raw (octets [1; 63; 64; 255; 1; 63; 64; 255; 1])))
  = Ok (lit "143904352459767871").
Proof. vm_compute. reflexivity. Qed.
(** t/140-stamp_lottery.cpp:120-131. *)
Example t140_none_left : fst (ExtractStr (lottery_of true [UShort; UChar; ULong]) (XLot 0)
    (newBlob (octets [255; 63; 64; 255; 1; 63; 64; 255; 1]) (Some 0) 8)) = Ok (lit "63").
Proof. vm_compute. reflexivity. Qed.

(** ** t/150-stamp_text.cpp *)
Definition family : bytes := lit "папа" ++ [x00] ++ lit "мама" ++ [x00] ++ lit "бабушка" ++ [x00] ++ lit "дедушка" ++ [x00] ++ lit "братик" ++ [x00] ++ lit "сестричка".
(** t/150-stamp_text.cpp:35-41. *)
Example t150_latin1 : fst (Latin1ExtractStr (chars family)) = Ok (lit "папа мама бабушка дедушка братик сестричка").
Proof. vm_compute. reflexivity. Qed.
(** t/150-stamp_text.cpp:43-51. *)
Example t150_ascii : fst (ASCIIExtractStr (chars family))
  = Ok (lit "P?P0P?P0 P<P0P<P0 P1P0P1Q" ++ [x03] ++ lit "Q" ++ [x08] ++ lit "P:P0 P4P5P4Q" ++ [x03] ++ lit "Q" ++ [x08] ++ lit "P:P0 P1Q P0Q" ++ [x02] ++ lit "P8P: Q" ++ [x01] ++ lit "P5Q" ++ [x01] ++ lit "Q" ++ [x02] ++ lit "Q P8Q" ++ [x07] ++ lit "P:P0").
Proof. vm_compute. reflexivity. Qed.
Definition text_of (mn mx : Z) (ex : M blob bytes) (b : blob) : res bytes := fst (ExtractStr (mkHeap [] []) (XVec text_text (XLeaf mn mx ex)) b).
(** t/150-stamp_text.cpp:53-59. *)
Example t150_words_latin1 : text_of TextMinSize TextMaxSize Latin1ExtractStr
    (chars (lit "dad" ++ [x00] ++ lit "mam" ++ [x00] ++ lit "granddad" ++ [x00] ++ lit "grandmam" ++ [x00] ++ lit "brother" ++ [x00] ++ lit "sister"))
  = Ok (lit "d dad gra n dmam broth er siste").
Proof. vm_compute. reflexivity. Qed.
(** t/150-stamp_text.cpp:61-67. *)
Example t150_words_dict : text_of (DictMinSize DictLCAlphaSmall) (DictMaxSize DictLCAlphaSmall) (DictExtractStr DictLCAlphaSmall)
    (chars (lit "abcdefabcdefABCDEF012345"))
  = Ok (lit "gleam godfather graffiti greened grouping gunshots gleam godfather graffiti greened grouping gunshots dismally dissented divested doorstep dread drunks convertors corpulent counterparts cranking crippled crusades").
Proof. vm_compute. reflexivity. Qed.
(** t/150-stamp_text.cpp:69-75. *)
Example t150_words_ascii : text_of TextMinSize TextMaxSize ASCIIExtractStr
    (chars (lit "Некоторый текст написанный русскими буквами в кодировке utf-8"))
  = Ok (lit "P9  Q  Q" ++ [x03] ++ lit "Q " ++ [x01] ++ lit "Q " ++ [x01] ++ lit "P: P8 P<P 8 P 1Q" ++ [x03] ++ lit " P:P 2P0 P<P 8 P 2  P: P>P 4P8 Q  P>P 2P :P5  ut f-8").
Proof. vm_compute. reflexivity. Qed.

(** ** t/200-dict.cpp:49-53 *)
Example t200 : let d := map lit ["one"%string; "two"%string; "three"%string] in dict_size d = 3 /\ dict_get d 1 = Ok (lit "two").
Proof. split; reflexivity. Qed.

(** ** t/300-galley.cpp *)
Definition longer_sample : bytes := lit "z1234567*89abcde&fghijklmnopqrstuvwxyzAB%CDEFGHIJKLMNOPQRSTUVWXYZ!".
Definition sample : bytes := lit "z1234567*89abcde&fghijklm".
Definition strings (l : list string) : list bytes := map lit l.

(** t/300-galley.cpp:43-56. *)
Example t300_vector_fixed : fst (ExtractVector TwoCharsSize TwoCharsSize TwoCharsExtractStr (chars (lit "1234567")))
  = Ok (strings ["12"%string; "34"%string; "56"%string]).
Proof. vm_compute. reflexivity. Qed.
(** t/300-galley.cpp:59-80. *)
Example t300_vector_unbounded : fst (ExtractVector TwoCharsListMinSize TwoCharsListMaxSize TwoCharsListExtractStr (chars longer_sample))
  = Ok (strings ["(9a, bc, de, &f, gh, ij)"%string; "(lm, no, pq, rs, tu, vw, xy)"%string;
                 "(zA, B%, CD, EF, GH, IJ, KL)"%string; "(MN, OP, QR, ST, UV, WX, YZ)"%string]).
Proof. vm_compute. reflexivity. Qed.
(** t/300-galley.cpp:82-109. *)
Example t300_vector_bin : (r <-- fst (ExtractVector (sizeof UShort) (sizeof UShort) (ArithExtractBin UShort) (chars (lit "1234567"))) ;; Ok (map (decode UShort) r))
  = Ok [50 * 256 + 49; 52 * 256 + 51; 54 * 256 + 53].
Proof. vm_compute. reflexivity. Qed.
(** t/300-galley.cpp:111-119. *)
Example t300_vector_values : fst (ExtractVector (sizeof Int) (sizeof Int) (ExtractValue Int) (raw (concat (map (encode Int) [1; -2; -30; 40; -55; 6]))))
  = Ok [1; -2; -30; 40; -55; 6].
Proof. vm_compute. reflexivity. Qed.
(** t/300-galley.cpp:122-152. *)
Example t300_vector_variated : fst (ExtractVector SeveralCharsMinSize SeveralCharsMaxSize SeveralCharsExtractStr (chars sample))
  = Ok (strings ["234"%string; "7*8"%string; "bcde"%string; "ghij"%string]).
Proof. vm_compute. reflexivity. Qed.

Definition f_stamp : Z * Z * M blob bytes := (TwoCharsSize, TwoCharsSize, TwoCharsExtractStr).
Definition v_stamp : Z * Z * M blob bytes := (SeveralCharsMinSize, SeveralCharsMaxSize, SeveralCharsExtractStr).
Definition u_stamp : Z * Z * M blob bytes := (TwoCharsListMinSize, TwoCharsListMaxSize, TwoCharsListExtractStr).
(** What the tests of sets look at: the texts, the size of the blob afterwards, minSize() and maxSize(). *)
Definition set_test (l : list (Z * Z * M blob bytes)) (b : blob) : res (list bytes) * Z * res Z * res Z :=
  let x := ExtractSet l b in (fst x, blobSize (snd x), SetMinSize (map fst l), SetMaxSize (map fst l)).

(** t/300-galley.cpp:155-186. *)
Example t300_set_fixed : set_test [f_stamp; f_stamp] (chars sample) = (Ok (strings ["z1"%string; "23"%string]), 25 - 2 - 2, Ok 4, Ok 4).
Proof. vm_compute. reflexivity. Qed.
(** t/300-galley.cpp:189-220. *)
Example t300_set_variated : set_test [v_stamp; v_stamp] (chars sample) = (Ok (strings ["456"%string; "7*8"%string]), 25 - 3 - 3 - 2 * 2, Ok 8, Ok 20).
Proof. vm_compute. reflexivity. Qed.
(** t/300-galley.cpp:223-253. *)
Example t300_set_unbounded : set_test [u_stamp; u_stamp] (chars sample)
  = (Ok (strings ["(45, 67, *8, 9a, bc)"%string; "(de, &f, gh, ij, kl)"%string]), 0, Ok 8, Ok (-1)).
Proof. vm_compute. reflexivity. Qed.
Definition mixed : list (Z * Z * M blob bytes) := [u_stamp; v_stamp; v_stamp; f_stamp; u_stamp; f_stamp].
(** t/300-galley.cpp:256-311. *)
Example t300_set_mixed : set_test mixed (chars longer_sample)
  = (Ok (strings ["(9a, bc, de, &f, gh, ij, kl, mn, op, qr, st)"%string; "uvw"%string; "xyzA"%string; "B%"%string;
                  "(CD, EF, GH, IJ, KL, MN, OP, QR, ST, UV, WX)"%string; "Z!"%string]), 0, Ok 22, Ok (-1)).
Proof. vm_compute. reflexivity. Qed.
(** t/300-galley.cpp:314-353. *)
Example t300_set_single : set_test [f_stamp; u_stamp; f_stamp] (chars longer_sample)
  = (Ok (strings ["z1"%string;
      "(23, 45, 67, *8, 9a, bc, de, &f, gh, ij, kl, mn, op, qr, st, uv, wx, yz, AB, %C, DE, FG, HI, JK, LM, NO, PQ, RS, TU, VW, XY)"%string;
      "Z!"%string]), 0, Ok 6, Ok (-1)).
Proof. vm_compute. reflexivity. Qed.
(** t/300-galley.cpp:356-410. *)
Example t300_set_minimal : set_test mixed (chars (lit "ooooooooooz123456789ab"))
  = (Ok (strings ["(z1)"%string; "23"%string; "45"%string; "67"%string; "(89)"%string; "ab"%string]), 0, Ok 22, Ok (-1)).
Proof. vm_compute. reflexivity. Qed.
(** t/300-galley.cpp:413-448. *)
Example t300_set_short : set_test mixed (chars (lit "ooooooooooz123456789a")) = (OutOfData, 21, Ok 22, Ok (-1)).
Proof. vm_compute. reflexivity. Qed.

(** ** t/321-galley-recursion-experiments_2.cpp *)
Definition bin_sample : bytes := octets [
   49; 22; 152; 226; 89; 119; 247; 115; 43; 42; 243; 71; 234; 231; 91; 35; 78; 108; 115; 39; 181; 248; 211;
   52; 47; 94; 60; 237; 18; 39; 148; 62; 205; 214; 156; 184; 18; 201; 84; 183; 74; 134; 94; 72; 14; 116;
   145; 109; 1; 230; 17; 95; 154; 100; 60; 15; 12; 102; 20; 115; 35; 183; 47; 176; 78; 176; 189; 113; 131;
   93; 206; 62; 158; 166; 131; 95; 232; 217; 32; 171; 87; 31; 172; 160; 66; 160; 222; 134; 253; 1; 7; 191;
   91; 125; 81; 148; 41; 46; 38; 171; 83; 215; 79; 34; 23; 215; 183; 118; 236; 191; 59; 160; 135; 58; 32;
   199; 170; 183; 213; 53; 162; 138; 178; 118; 23; 202; 133; 8; 192; 183; 195; 199; 250; 29; 230; 34; 159;
   10; 145; 74; 121; 85; 168; 204; 192; 25; 232; 88; 85; 76; 61; 168; 247; 128; 141; 176; 112; 113; 100;
   201; 82; 183; 219; 236; 226; 171; 85; 97; 160; 1; 50; 250; 161; 51; 61; 220; 167; 227; 195; 17; 164;
   211; 189; 130; 52; 167; 169; 42; 17; 29; 95; 15; 178; 165; 110; 87; 149; 214; 55; 12; 236; 138; 2; 245;
   158; 84; 140; 24; 225; 169; 115; 16; 130; 253; 237; 182; 95; 109; 4; 28; 249; 4; 254; 166; 62; 107; 228;
   113; 130; 127; 70; 79; 140; 41; 84; 218; 134; 146; 88; 65; 24; 174; 252; 253; 226; 214; 22; 92; 248; 14;
   29; 60; 180; 94; 30; 186; 0].
(** t/321-galley-recursion-experiments_2.cpp:59-66. *)
Example t321_shortest : fst (JSONExtractStr (newBlob bin_sample (Some 0) 10)) = Ok (lit "3038649880288027288").
Proof. vm_compute. reflexivity. Qed.
(** t/321-galley-recursion-experiments_2.cpp:68-112. *)
Example t321_short : map (fun n => fst (JSONExtractStr (newBlob bin_sample (Some 0) n))) [1; 2; 3] = [OutOfData; OutOfData; OutOfData].
Proof. vm_compute. reflexivity. Qed.
(** t/321-galley-recursion-experiments_2.cpp:50-57. *)
Example t321_json : fst (JSONExtractStr (newBlob bin_sample (Some 0) (zlen bin_sample - 1)))
  = Ok (lit "[6850509402014839822, 3438255817691106319, ""resulted"", -2.684757453484730872673776686700739040682020879678934003695336094670709694419006239953740106372555463816175000634871124431422513570790242370232656601974908085084433064181237341375458199532539671263821862377193715039215799333468172751725903574125176464661297323397544866180407166347114750393787405005704461598334438005517341732432719884411807209593715412099886215291366653445948031730949878692626953125e-151, ""lushes"", -5199661808640109653, ""denomination"", -3.06532686549173138956803086330182850360870361328125, ""sedating"", ""robots"", -3.3696970613711244822470283884492113423278459359891097388748050077510095184860700081976239055565263066452656899596451722800338757224380970001220703125e-42, ""preface"", 9.55422367779008699072920786882312943145717681740324270561686674939552239415695463827122863940711666092367434557202401330797838517640477979352142678948212051182053983211517333984375e-56, 6300155112918555921, ""dams"", 2.411323842459936645124797826433320804619144161893916130561265623523643502350374626190490408739886564139366504029821786107467040377895714047017891228899122281601579488797245463600235576598531485903332393648607370715931713232242018751523644727805408352870771308312443806176048554264200149458533769648133943422986030732712523236966445578809656378067940216124429747414289524093606877704785435824362397944294729373146388523502884316004124548536154374326842524560415029933595880452289294570895862703927051929788804023836835074268010108198185051300394774230223405817676130206688777308144339841912135245325959771275736867526109676372404347501558868228887456576678950716422841427035057837446885287135955877602100372314453125e-287, 9188031415654983422, -5901895462997796268, ""blazer""]").
Proof. vm_compute. reflexivity. Qed.
