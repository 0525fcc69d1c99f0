(** Test vectors of /repo/test run against the model.  These are tests of the
    transcription, not proofs of properties. *)
From Verif Require Import Base Utils Encrypt Discr Chunker.
Local Open Scope N_scope.

(** test/encrypt_test.c:13-35 *)
Example hchacha20_draft_vector :
  hchacha20 [0; 1; 2; 3; 4; 5; 6; 7; 8; 9; 10; 11; 12; 13; 14; 15; 16; 17; 18; 19; 20; 21; 22; 23; 24; 25; 26; 27; 28; 29; 30; 31]
    [0; 0; 0; 9; 0; 0; 0; 74; 0; 0; 0; 0; 49; 65; 89; 39]
  = [130; 65; 59; 66; 39; 178; 123; 254; 211; 14; 66; 80; 138; 135; 125; 115; 160; 249; 228; 213; 138; 116; 168; 83; 193; 46; 196; 19; 38; 211; 236; 220].
Proof. vm_compute. reflexivity. Qed.

(** test/encrypt_test.c:38-91 *)
Example xchacha20_draft_vector :
  fst (encrypt_do (encrypt_restart [128; 129; 130; 131; 132; 133; 134; 135; 136; 137; 138; 139; 140; 141; 142; 143; 144; 145; 146; 147; 148; 149; 150; 151; 152; 153; 154; 155; 156; 157; 158; 159]
    [64; 65; 66; 67; 68; 69; 70; 71; 72; 73; 74; 75; 76; 77; 78; 79; 80; 81; 82; 83; 84; 85; 86; 88])
    [84; 104; 101; 32; 100; 104; 111; 108; 101; 32; 40; 112; 114; 111; 110; 111; 117; 110; 99; 101; 100; 32; 34; 100; 111; 108; 101; 34; 41; 32; 105; 115; 32; 97; 108; 115; 111; 32; 107; 110; 111; 119; 110; 32; 97; 115; 32; 116; 104; 101; 32; 65; 115; 105; 97; 116; 105; 99; 32; 119; 105; 108; 100; 32; 100; 111; 103; 44; 32; 114; 101; 100; 32; 100; 111; 103; 44; 32; 97; 110; 100; 32; 119; 104; 105; 115; 116; 108; 105; 110; 103; 32; 100; 111; 103; 46; 32; 73; 116; 32; 105; 115; 32; 97; 98; 111; 117; 116; 32; 116; 104; 101; 32; 115; 105; 122; 101; 32; 111; 102; 32; 97; 32; 71; 101; 114; 109; 97; 110; 32; 115; 104; 101; 112; 104; 101; 114; 100; 32; 98; 117; 116; 32; 108; 111; 111; 107; 115; 32; 109; 111; 114; 101; 32; 108; 105; 107; 101; 32; 97; 32; 108; 111; 110; 103; 45; 108; 101; 103; 103; 101; 100; 32; 102; 111; 120; 46; 32; 84; 104; 105; 115; 32; 104; 105; 103; 104; 108; 121; 32; 101; 108; 117; 115; 105; 118; 101; 32; 97; 110; 100; 32; 115; 107; 105; 108; 108; 101; 100; 32; 106; 117; 109; 112; 101; 114; 32; 105; 115; 32; 99; 108; 97; 115; 115; 105; 102; 105; 101; 100; 32; 119; 105; 116; 104; 32; 119; 111; 108; 118; 101; 115; 44; 32; 99; 111; 121; 111; 116; 101; 115; 44; 32; 106; 97; 99; 107; 97; 108; 115; 44; 32; 97; 110; 100; 32; 102; 111; 120; 101; 115; 32; 105; 110; 32; 116; 104; 101; 32; 116; 97; 120; 111; 110; 111; 109; 105; 99; 32; 102; 97; 109; 105; 108; 121; 32; 67; 97; 110; 105; 100; 97; 101; 46])
  = [69; 89; 171; 186; 78; 72; 193; 97; 2; 232; 187; 44; 5; 230; 148; 127; 80; 167; 134; 222; 22; 47; 155; 11; 126; 89; 42; 155; 83; 208; 212; 233; 141; 141; 100; 16; 213; 64; 161; 166; 55; 91; 38; 216; 13; 172; 228; 250; 181; 35; 132; 199; 49; 172; 191; 22; 165; 146; 60; 12; 72; 211; 87; 93; 77; 13; 44; 103; 59; 102; 111; 170; 115; 16; 97; 39; 119; 1; 9; 58; 107; 247; 161; 88; 168; 134; 66; 146; 164; 28; 72; 227; 169; 180; 192; 218; 236; 224; 248; 217; 141; 13; 126; 5; 179; 122; 48; 123; 187; 102; 51; 49; 100; 236; 158; 27; 36; 234; 13; 108; 63; 253; 220; 236; 79; 104; 231; 68; 48; 86; 25; 58; 3; 200; 16; 225; 19; 68; 202; 6; 216; 237; 138; 43; 251; 30; 141; 72; 207; 166; 188; 14; 180; 226; 70; 75; 116; 129; 66; 64; 124; 159; 67; 26; 238; 118; 153; 96; 225; 91; 168; 185; 104; 144; 70; 110; 242; 69; 117; 153; 133; 35; 133; 198; 97; 247; 82; 206; 32; 249; 218; 12; 9; 171; 107; 25; 223; 116; 231; 106; 149; 150; 116; 70; 248; 208; 253; 65; 94; 123; 238; 42; 18; 161; 20; 194; 14; 181; 41; 42; 231; 163; 73; 174; 87; 120; 32; 213; 82; 10; 31; 63; 182; 42; 23; 206; 106; 126; 104; 250; 124; 121; 17; 29; 136; 96; 146; 11; 192; 72; 239; 67; 254; 132; 72; 108; 203; 135; 194; 95; 10; 224; 69; 240; 204; 225; 231; 152; 154; 154; 162; 32; 162; 139; 221; 72; 39; 231; 81; 162; 74; 109; 92; 98; 215; 144; 166; 99; 147; 185; 49; 17; 193; 165; 93; 215; 66; 26; 16; 24; 73; 116; 199; 197].
Proof. vm_compute. reflexivity. Qed.

(** test/encrypt_test.c:118-182 *)
Definition doc_key : bytes := [0; 1; 2; 3; 4; 5; 6; 7; 8; 9; 10; 11; 12; 13; 14; 15; 16; 17; 18; 19; 20; 21; 22; 23; 24; 25; 26; 27; 28; 29; 30; 31].
Definition doc_id : bytes := [138; 57; 210; 171; 211; 153; 154; 183; 60; 52; 219; 36; 118; 132; 156; 221; 243; 3; 206; 56; 155; 53; 130; 104; 80; 249; 167; 0; 88; 155; 74; 144].
Example design_doc_vector :
  fst (encrypt_do (encrypt_restart doc_key doc_id)
    [40;181;47;253;0;88;84;0;0;16;0;0;1;0;251;255;57;192;2;2;0;16;0;1;0;0])
  = [232; 218; 96; 10; 149; 97; 147; 195; 79; 212; 154; 119; 191; 72; 218; 132; 143; 95; 255; 193; 120; 102; 97; 203; 122; 228].
Proof. vm_compute. reflexivity. Qed.
Example design_doc_keystream :
  fst (encrypt_do (encrypt_restart doc_key doc_id) (repeat 0 128))
  = [192; 111; 79; 247; 149; 57; 199; 195; 79; 196; 154; 119; 190; 72; 33; 123; 182; 159; 253; 195; 120; 118; 97; 202; 122; 228; 136; 18; 201; 224; 40; 62; 243; 157; 155; 61; 81; 244; 247; 253; 207; 169; 158; 234; 215; 163; 128; 18; 154; 203; 51; 31; 91; 109; 57; 232; 75; 9; 11; 87; 57; 1; 8; 41; 129; 124; 86; 51; 1; 91; 68; 65; 226; 41; 128; 147; 36; 205; 234; 87; 57; 223; 248; 165; 93; 204; 215; 51; 162; 231; 65; 54; 185; 38; 190; 54; 240; 74; 244; 34; 88; 119; 158; 1; 193; 32; 93; 139; 0; 165; 203; 155; 32; 45; 243; 19; 235; 196; 115; 247; 165; 252; 40; 239; 195; 198; 182; 145].
Proof. vm_compute. reflexivity. Qed.

(** test/xorshift32.c *)
Definition xs32 (a : N) : N :=
  let x := a in
  let x := N.lxor x (N.shiftl x 13 mod M32) in
  let x := N.lxor x (N.shiftr x 17) in
  N.lxor x (N.shiftl x 5 mod M32).
Fixpoint xs_fill (n : nat) (a : N) (acc : bytes) : bytes :=
  match n with
  | O => rev_append acc []
  | S n' => let a := xs32 a in xs_fill n' a (rev_append (p32le a) acc)
  end.
Definition default_params : params := mkParams 16384 65536 262144.

(** chunker.c:118 and test/chunker_test.c "discriminator" *)
Example default_discriminator : discriminator_from_avg 65536 = Some 49535.
Proof. vm_compute. reflexivity. Qed.

(** test/chunker_test.c "partial_window_feed" *)
Example partial_window_feed_hash :
  match chunker_init default_params with
  | Ok c => match chunker_scan c (xs_fill 32 2952712207 []) with
            | Ok (None, c') => c_h c' =? 3967674064
            | _ => false
            end
  | _ => false
  end = true.
Proof. vm_compute. reflexivity. Qed.

(** test/chunker_test.c "random_chunking": the first two boundaries *)
Definition random_data : bytes := xs_fill (N.to_nat 70000) 2952712207 [].
Definition random_chunking_first_boundaries : bool :=
  match chunker_init default_params with
  | Ok c =>
      match chunker_scan c random_data with
      | Ok (Some n, c') =>
          match chunker_scan (chunker_reset c') (skipn n random_data) with
          | Ok (Some m, _) => (N.of_nat n =? 243768) && (N.of_nat (n + m) =? 265304)
          | _ => false
          end
      | _ => false
      end
  | _ => false
  end.
(** Evaluated while the file is compiled; no proof term is kept because checking it again without the
    virtual machine takes very long. *)
Definition random_chunking_checked : unit :=
  ltac:(let r := eval vm_compute in random_chunking_first_boundaries in
        lazymatch r with true => exact tt end).
