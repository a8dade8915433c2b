(** Replay of the repository's own unit tests on the model: a check of the transcription by computation (tests, not proofs).
    Each [Example] names the test.  Floating point literals are given as m * 2^e.  The LDPC and Zernike tests need third-party code
    or transcendental functions and are not replayed. *)
From Flocq Require Import BinarySingleNaN.
From Verif Require Import Outcome Floats Bits IndexArith Quantization Codecs Encoding Matrix Haar Stego Embedding Random Zernike Toy.
Open Scope Z_scope.

(** `assert_approx_eq!(expected, actual, 1e-4)`, lib/sia/rust/utils/src/lib.rs:13-17 *)
Definition close (a b : b64) : bool :=
  f_ge Bops (b_dyadic (7378697629483821) (-66)) (f_sub Bops a b) && f_ge Bops (b_dyadic (7378697629483821) (-66)) (f_sub Bops b a).
Definition close_1d (a b : list b64) : bool := Nat.eqb (length a) (length b) && forallb (fun p => close (fst p) (snd p)) (combine a b).
Definition close_2d (a b : array2 b64) : bool := close_1d (into_raw_vec a) (into_raw_vec b).
Definition same_zs (a b : list Z) : bool := if list_eq_dec Z.eq_dec a b then true else false.
Definition same_bits (a b : list bool) : bool := if list_eq_dec Bool.bool_dec a b then true else false.
Definition ok {A} (f : A -> bool) (x : outcome A) : bool := match x with Ok a => f a | _ => false end.

(** three-bit-quantization/src/lib.rs:185-221 quantization_short_test *)
Definition noised (step : b64) (features : list b64) (seed : Z) : outcome (list b64 * Z) :=
  '(noise, seed') <- run Bops b_rem usize_max true (map (fun _ => Generate (f_neg Bops step) step) features) seed ;;
  Ok (map (fun p => f_add Bops (fst p) (snd p)) (combine features noise), seed').
Definition short_features := [(b_dyadic (1261007895663739) (-50)); (b_dyadic (8399213305045975) (-51)); (b_dyadic (-228909524809941) (-43)); (b_dyadic (-4575375746431713) (-47))].
Example quantization_short_test :
  ok (fun r => same_zs (fst r) [1; 3; -27; -33] && same_bits (snd r) [false; false; false; true; false; true; false; false; true; true; false; false]
        && ok (fun n => ok (fun q => same_zs q (fst r)) (three_bit_dequantization Bops true (fst n) (snd r) (b_of_Z 1))) (noised (b_of_Z 1) short_features 0))
     (three_bit_quantization Bops true short_features (b_of_Z 1)) = true.
Proof. vm_compute. reflexivity. Qed.

(** three-bit-quantization/src/lib.rs:224-273 quantization_long_test: the first of its 14 steps, 1023 features
    (all 14 were replayed once, successfully; left out of the build for its time) *)
Definition long_round (step : b64) (seed : Z) : outcome Z :=
  '(features, seed1) <- run Bops b_rem usize_max true (repeat (Generate (b_of_Z (-10)) (b_of_Z 10)) 1023) seed ;;
  r <- three_bit_quantization Bops true features step ;;
  '(noised_features, seed2) <- noised step features seed1 ;;
  q <- three_bit_dequantization Bops true noised_features (snd r) step ;;
  if same_zs q (fst r) then Ok seed2 else Panic LenMismatch.
Example quantization_long_test :
  ok (fun seed => seed =? 2046) (foldM (fun seed step => long_round step seed)
    [(b_dyadic (1080863910568919) (-55))] 0) = true.
Proof. vm_compute. reflexivity. Qed.

(** three-bit-quantization/src/lib.rs:276-314 *)
Example integer_from_two_bits_test : map (fun p => integer_from_two_bits (fst p) (snd p)) [(0, 0); (0, 1); (1, 0); (1, 1)] = [0; 1; 2; 3].
Proof. reflexivity. Qed.
Example two_bits_from_integer_test : map two_bits_from_integer [0; 1; 2; 3] = [(false, false); (false, true); (true, false); (true, true)].
Proof. reflexivity. Qed.
Example mod_four_test : map mod_four [-8; -7; -6; -5; -4; -3; -2; -1; 0; 1; 2; 3; 4; 5; 6; 7; 8] = [0; 1; 2; 3; 0; 1; 2; 3; 0; 1; 2; 3; 0; 1; 2; 3; 0].
Proof. reflexivity. Qed.
(** three-bit-quantization/src/lib.rs:317-342 bytes_format_test_1, _2 *)
Definition bits12 := [false; false; false; true; false; true; false; false; true; true; false; false].
Definition bits15 := bits12 ++ [false; false; true].
Example bytes_format_test : ok (fun b => same_bits (perturbation_vector_from_bytes b 12) bits12) (perturbation_vector_as_bytes zero_pad bits12)
  && ok (fun b => same_bits (perturbation_vector_from_bytes b 15) bits15) (perturbation_vector_as_bytes zero_pad bits15) = true.
Proof. vm_compute. reflexivity. Qed.

(** utils/src/bytes.rs:44-70, utils/src/format.rs:23-31 *)
Example integers_i64_to_bytes_test : vec_i64_from_bytes (vec_i64_to_bytes [-324324; 45436346; -2132145325; 2; 0; -90]) = Ok [-324324; 45436346; -2132145325; 2; 0; -90].
Proof. vm_compute. reflexivity. Qed.
Example integers_u16_to_bytes_test : vec_u16_from_bytes (vec_u16_to_bytes [65535; 6555; 5535; 0]) = Ok [65535; 6555; 5535; 0].
Proof. vm_compute. reflexivity. Qed.
Example hex_encode_decode_test : decode_hex (encode_hex [12; 34; 56; 78; 90]) = Ok (Some [12; 34; 56; 78; 90]).
Proof. vm_compute. reflexivity. Qed.
(** utils/src/math.rs:19-28, the integral arguments *)
Example factorial_test : forallb (fun p => match factorial_fuel Bops (fun x => x) 10 (b_of_Z (fst p)) with Some v => Beqb v (b_of_Z (snd p)) | None => false end)
  [(0, 1); (1, 1); (2, 2); (3, 6); (4, 24)] = true.
Proof. vm_compute. reflexivity. Qed.
(** utils/src/pseudo_random.rs:32-42 *)
Example pseudo_random_test : ok (fun r => forallb (fun x => f_ge Bops x (b_of_Z 0) && f_ge Bops (b_of_Z 1) x) (firstn 99 (fst r))
    && forallb (fun x => f_ge Bops x (b_of_Z (-2)) && f_ge Bops (b_of_Z 5) x) (skipn 99 (fst r)) && (snd r =? 198))
  (run Bops b_rem usize_max true (repeat GenerateUnit 99 ++ repeat (Generate (b_of_Z (-2)) (b_of_Z 5)) 99) 0) = true.
Proof. vm_compute. reflexivity. Qed.

(** embedding/src/haar/mod.rs:82-171 dwt_2d_test_level_1, _2, dwt_1d_test_level_1, _2 *)
Definition source4 : array2 b64 := (mkArray2 4 4 [[(b_dyadic (1) (0)); (b_dyadic (1) (1)); (b_dyadic (3) (0)); (b_dyadic (1) (2))]; [(b_dyadic (5) (0)); (b_dyadic (3) (1)); (b_dyadic (7) (0)); (b_dyadic (1) (3))]; [(b_dyadic (1) (0)); (b_dyadic (1) (1)); (b_dyadic (3) (0)); (b_dyadic (1) (2))]; [(b_dyadic (5) (0)); (b_dyadic (3) (1)); (b_dyadic (7) (0)); (b_dyadic (1) (3))]]).
Example dwt_2d_test_level_1 : ok (fun f => close_2d f (mkArray2 4 4 [[(b_dyadic (7) (0)); (b_dyadic (11) (0)); (b_dyadic (-1) (0)); (b_dyadic (-1) (0))]; [(b_dyadic (7) (0)); (b_dyadic (11) (0)); (b_dyadic (-1) (0)); (b_dyadic (-1) (0))]; [(b_dyadic (-1) (2)); (b_dyadic (-1) (2)); (b_dyadic 0 0); (b_dyadic 0 0)]; [(b_dyadic (-1) (2)); (b_dyadic (-1) (2)); (b_dyadic 0 0); (b_dyadic 0 0)]]) && ok (fun b => close_2d b source4) (dwt_2d Bops f 1 true)) (dwt_2d Bops source4 1 false) = true.
Proof. vm_compute. reflexivity. Qed.
Example dwt_2d_test_level_2 : ok (fun f => close_2d f (mkArray2 4 4 [[(b_dyadic (9) (1)); (b_dyadic (-1) (2)); (b_dyadic (-1) (0)); (b_dyadic (-1) (0))]; [(b_dyadic 0 0); (b_dyadic 0 0); (b_dyadic (-1) (0)); (b_dyadic (-1) (0))]; [(b_dyadic (-1) (2)); (b_dyadic (-1) (2)); (b_dyadic 0 0); (b_dyadic 0 0)]; [(b_dyadic (-1) (2)); (b_dyadic (-1) (2)); (b_dyadic 0 0); (b_dyadic 0 0)]]) && ok (fun b => close_2d b source4) (dwt_2d Bops f 2 true)) (dwt_2d Bops source4 2 false) = true.
Proof. vm_compute. reflexivity. Qed.
Definition source8 : list b64 := map b_of_Z [1; 2; 3; 4; 5; 6; 7; 8].
Example dwt_1d_test_level_1 : ok (fun f => close_1d f [(b_dyadic (2388393990383395) (-50)); (b_dyadic (2786461531947139) (-49)); (b_dyadic (8757440878406093) (-50)); (b_dyadic (746373121994811) (-46)); (b_dyadic (-6369051672525773) (-53)); (b_dyadic (-6369051672525773) (-53)); (b_dyadic (-6369051672525773) (-53)); (b_dyadic (-6369051672525773) (-53))] && ok (fun b => close_1d b source8) (dwt_1d Bops f 1 true)) (dwt_1d Bops source8 1 false) = true.
Proof. vm_compute. reflexivity. Qed.
Example dwt_1d_test_level_2 : ok (fun f => close_1d f [(b_dyadic (5) (0)); (b_dyadic (13) (0)); (b_dyadic (-1) (1)); (b_dyadic (-1) (1)); (b_dyadic (-6369051672525773) (-53)); (b_dyadic (-6369051672525773) (-53)); (b_dyadic (-6369051672525773) (-53)); (b_dyadic (-6369051672525773) (-53))] && ok (fun b => close_1d b source8) (dwt_1d Bops f 2 true)) (dwt_1d Bops source8 2 false) = true.
Proof. vm_compute. reflexivity. Qed.

(** embedding/src/io/steganography.rs:155-159 *)
Example get_capacity_test : get_capacity 16 16 = 32%nat /\ get_capacity 24 24 = 72%nat /\ Z.of_nat (get_capacity 64 64) = 512.
Proof. vm_compute. repeat split. Qed.
(** embedding/src/io/mod.rs:33-66 *)
Example io_write_and_read_test_with_1_byte_capacity :
  ok (fun m => ok (fun r => same_zs r [17; 19]) (read Bops m 4 4 (b_of_Z 10))) (write Bops (mkArray2 4 4 [[(b_dyadic (1747) (-1)); (b_dyadic (1813) (-1)); (b_dyadic (8839) (-3)); (b_dyadic (7557) (-3))]; [(b_dyadic (3907) (-2)); (b_dyadic (1851) (-1)); (b_dyadic (8257) (-3)); (b_dyadic (4313) (-2))]; [(b_dyadic (8225) (-3)); (b_dyadic (1057) (0)); (b_dyadic (8415) (-3)); (b_dyadic (7989) (-3))]; [(b_dyadic (7881) (-3)); (b_dyadic (7829) (-3)); (b_dyadic (7929) (-3)); (b_dyadic (4095) (-2))]]) 4 4 [17; 19] (b_of_Z 10)) = true.
Proof. vm_compute. reflexivity. Qed.
Definition test_matrix : array2 Z := (mkArray2 32 32 [[232; 31; 6; 112; 62; 181; 33; 54; 27; 91; 60; 154; 118; 54; 157; 58; 126; 224; 130; 23; 255; 9; 254; 12; 32; 10; 20; 176; 25; 95; 41; 194]; [29; 100; 176; 77; 2; 119; 208; 115; 119; 30; 153; 221; 161; 155; 99; 249; 81; 80; 114; 13; 16; 178; 240; 124; 128; 8; 254; 222; 4; 53; 143; 224]; [181; 136; 69; 77; 121; 97; 42; 211; 136; 35; 231; 84; 25; 146; 3; 52; 81; 23; 242; 64; 251; 182; 236; 132; 201; 81; 16; 202; 169; 71; 199; 135]; [152; 0; 128; 163; 148; 0; 75; 247; 186; 31; 57; 113; 198; 41; 175; 11; 134; 215; 121; 24; 166; 78; 93; 217; 86; 100; 99; 148; 144; 37; 39; 218]; [76; 202; 171; 224; 22; 133; 159; 40; 67; 233; 93; 134; 142; 36; 74; 71; 201; 247; 252; 60; 252; 28; 56; 99; 125; 188; 219; 110; 161; 141; 98; 70]; [3; 106; 58; 239; 131; 139; 150; 86; 194; 214; 83; 227; 251; 225; 248; 4; 88; 197; 115; 30; 91; 133; 105; 141; 91; 57; 155; 83; 121; 5; 152; 13]; [160; 212; 98; 33; 107; 37; 141; 187; 8; 63; 177; 92; 61; 204; 120; 84; 179; 247; 98; 174; 246; 120; 152; 140; 58; 61; 198; 103; 225; 250; 182; 252]; [95; 134; 163; 75; 63; 11; 135; 14; 64; 114; 9; 181; 90; 8; 247; 4; 48; 77; 220; 173; 173; 98; 236; 225; 24; 57; 249; 4; 83; 141; 162; 145]; [87; 28; 231; 95; 38; 8; 45; 56; 143; 156; 176; 131; 90; 77; 126; 112; 71; 53; 50; 107; 182; 121; 89; 165; 44; 17; 123; 146; 9; 193; 145; 169]; [180; 110; 70; 251; 238; 140; 224; 127; 55; 198; 82; 96; 27; 184; 33; 57; 233; 166; 46; 163; 162; 232; 37; 119; 10; 249; 57; 125; 211; 10; 108; 89]; [189; 18; 102; 249; 94; 94; 11; 178; 42; 216; 168; 59; 234; 237; 148; 76; 203; 181; 11; 198; 149; 126; 207; 6; 242; 247; 184; 148; 144; 132; 186; 147]; [96; 172; 152; 73; 51; 182; 19; 16; 236; 150; 4; 41; 29; 66; 21; 117; 248; 20; 90; 173; 6; 99; 168; 190; 18; 191; 171; 120; 119; 53; 236; 38]; [75; 174; 201; 96; 117; 204; 103; 59; 158; 68; 127; 7; 172; 165; 200; 185; 125; 223; 159; 118; 9; 18; 95; 150; 38; 204; 89; 170; 164; 103; 14; 152]; [128; 150; 182; 41; 174; 232; 21; 133; 19; 86; 35; 233; 187; 146; 220; 68; 235; 155; 19; 143; 232; 36; 126; 68; 172; 8; 160; 178; 91; 211; 254; 194]; [156; 191; 234; 230; 80; 103; 225; 54; 77; 140; 230; 11; 123; 249; 154; 18; 206; 170; 4; 235; 82; 157; 215; 77; 79; 244; 156; 31; 254; 177; 165; 178]; [150; 88; 4; 139; 15; 147; 247; 37; 68; 133; 108; 14; 168; 106; 37; 105; 18; 216; 190; 156; 158; 255; 107; 29; 207; 42; 246; 18; 115; 33; 230; 168]; [119; 22; 176; 107; 12; 198; 18; 218; 102; 139; 253; 176; 21; 151; 113; 159; 40; 147; 84; 228; 188; 244; 184; 155; 3; 158; 31; 227; 117; 31; 83; 1]; [21; 254; 137; 156; 111; 3; 240; 135; 37; 255; 244; 11; 22; 172; 254; 72; 219; 8; 176; 241; 173; 156; 198; 31; 26; 44; 157; 168; 169; 181; 219; 211]; [180; 57; 68; 88; 2; 154; 102; 74; 71; 128; 153; 175; 129; 245; 51; 15; 80; 40; 194; 138; 95; 228; 178; 166; 198; 217; 141; 232; 245; 232; 251; 156]; [3; 46; 59; 182; 78; 204; 59; 139; 93; 136; 110; 187; 59; 121; 77; 69; 173; 127; 113; 20; 3; 150; 144; 252; 20; 93; 53; 191; 89; 46; 200; 127]; [177; 182; 99; 224; 164; 2; 96; 127; 169; 56; 122; 123; 36; 53; 166; 220; 168; 51; 131; 250; 74; 122; 92; 41; 146; 14; 199; 93; 21; 41; 150; 41]; [31; 189; 220; 159; 104; 14; 154; 27; 152; 198; 185; 121; 134; 140; 199; 123; 253; 64; 120; 79; 89; 154; 203; 36; 250; 29; 79; 154; 197; 105; 187; 21]; [241; 164; 90; 90; 249; 207; 237; 74; 181; 199; 227; 226; 36; 66; 3; 209; 111; 56; 227; 149; 94; 75; 75; 102; 100; 214; 35; 204; 8; 204; 2; 134]; [218; 239; 69; 211; 252; 144; 153; 196; 92; 43; 162; 216; 213; 125; 245; 16; 238; 8; 49; 246; 229; 54; 53; 149; 54; 190; 155; 159; 51; 253; 47; 135]; [252; 54; 1; 231; 50; 195; 237; 129; 177; 14; 97; 179; 81; 104; 88; 93; 199; 64; 143; 12; 189; 183; 241; 8; 28; 131; 237; 189; 95; 75; 206; 219]; [129; 96; 69; 150; 232; 123; 199; 126; 142; 83; 116; 205; 219; 205; 101; 237; 141; 109; 179; 112; 46; 133; 70; 56; 236; 111; 130; 239; 204; 87; 208; 160]; [210; 247; 71; 153; 138; 155; 129; 185; 232; 192; 55; 18; 14; 76; 243; 71; 237; 84; 84; 237; 97; 187; 8; 117; 23; 1; 118; 149; 102; 44; 183; 211]; [29; 182; 31; 16; 87; 165; 46; 115; 191; 73; 145; 231; 81; 223; 184; 98; 29; 137; 136; 135; 170; 240; 165; 191; 133; 239; 182; 190; 49; 145; 29; 145]; [49; 32; 19; 5; 138; 146; 109; 91; 179; 131; 7; 47; 10; 30; 142; 124; 8; 29; 240; 249; 113; 134; 55; 222; 82; 254; 12; 73; 54; 139; 219; 101]; [254; 29; 104; 47; 127; 20; 197; 79; 113; 232; 207; 57; 58; 173; 159; 196; 100; 92; 90; 225; 7; 177; 230; 202; 68; 231; 72; 185; 163; 103; 78; 49]; [122; 201; 119; 177; 250; 201; 138; 176; 210; 131; 124; 9; 40; 167; 49; 168; 252; 109; 195; 127; 12; 30; 138; 104; 241; 26; 75; 192; 110; 1; 59; 226]; [167; 31; 75; 130; 27; 112; 160; 117; 11; 139; 153; 54; 73; 83; 106; 179; 201; 12; 53; 40; 39; 43; 202; 60; 26; 61; 202; 113; 189; 23; 160; 105]]).
Definition all_bytes : list Z := map Z.of_nat (seq 0 128).
Example io_write_and_read_test_with_many_bytes_capacity :
  ok (fun m => ok (fun r => same_zs r all_bytes) (read Bops m 32 32 (b_of_Z 10))) (write Bops (mapv b_of_Z test_matrix) 32 32 all_bytes (b_of_Z 10)) = true.
Proof. vm_compute. reflexivity. Qed.
(** embedding/src/lib.rs:93-111 embed_test, with the repetition code of Toy.v in place of LDPC *)
Example embed_test :
  ok (fun f => ok (fun b => close_2d b (mapv b_of_Z test_matrix)) (dwt_2d Bops f 1 true)) (dwt_2d Bops (mapv b_of_Z test_matrix) 1 false)
  && ok (fun e => ok (fun r => same_zs r [113; 117]) (extract Bops toy_ldpc e (b_of_Z 100) 1)) (embed Bops toy_ldpc test_matrix [113; 117] (b_of_Z 100) 1) = true.
Proof. vm_compute. reflexivity. Qed.

(** encoding/src/lib.rs:152-156, 234-271 *)
Example pad_bits_test : pad_bits [false; true; true] 5 = [false; true; true; false; false].
Proof. reflexivity. Qed.
Example get_code_test : map get_code_for_encode [1; 9; 64; 65; 128; 129; 256; 257; 1024; 1025; 4096]%nat =
  [None; Some TC128; Some TC128; Some TC256; Some TC256; Some TC512; Some TC512; Some TM2048; Some TM2048; Some TM8192; Some TM8192].
Proof. vm_compute. reflexivity. Qed.
Example bytes_to_u16_conversion_test : u16_to_bytes 65535 = (255, 255) /\ bytes_to_u16 255 255 = 65535 /\ u16_to_bytes 31411 = (122, 179) /\ bytes_to_u16 122 179 = 31411.
Proof. repeat split. Qed.
(** watermarking/src/watermark.rs:90-106 *)
Example get_watermark_data_test :
  ok (fun b => ok (fun w => same_bits (perturbation_vector w) bits12 && same_zs (signature w) [123; 42; 56; 54] && same_zs (text w) [72; 101; 108; 108; 111; 32; 87; 111; 114; 108; 100; 33]) (watermark_deserialize b))
     (watermark_serialize zero_pad (mkWatermark bits12 [123; 42; 56; 54] [72; 101; 108; 108; 111; 32; 87; 111; 114; 108; 100; 33])) = true.
Proof. vm_compute. reflexivity. Qed.
