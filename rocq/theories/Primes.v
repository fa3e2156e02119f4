(** * Primality of the SM2 field prime and group order (Pocklington certificates).
    Generated by tools/cert.py (trial division below 10^5, one or two factors of N-1 above). *)
From Coq Require Import Znumtheory.
From Verif Require Import Base ECModel NumTheory FastMod.
Open Scope Z_scope.
Lemma prime_4547 : prime 4547.
Proof. apply trial_ok_spec. vm_cast_no_check (eq_refl true). Qed.
Lemma prime_363761 : prime 363761.
Proof. apply (pock1_prime (barrett 363761 755655 18 20) 363761 2 4547 80 (fun x => barrett_spec 363761 755655 18 20 x eq_refl) prime_4547 eq_refl). vm_cast_no_check (eq_refl true). Qed.
Lemma prime_34511 : prime 34511.
Proof. apply trial_ok_spec. vm_cast_no_check (eq_refl true). Qed.
Lemma prime_4773264379806847 : prime 4773264379806847.
Proof. apply (pock2_prime (barrett 4773264379806847 16996678155482693 52 54) 4773264379806847 2 34511 363761 380226 (fun x => barrett_spec 4773264379806847 16996678155482693 52 54 x eq_refl) prime_34511 prime_363761 eq_refl). vm_cast_no_check (eq_refl true). Qed.
Lemma prime_54983 : prime 54983.
Proof. apply trial_ok_spec. vm_cast_no_check (eq_refl true). Qed.
Lemma prime_3079049 : prime 3079049.
Proof. apply (pock1_prime (barrett 3079049 5713512 21 23) 3079049 2 54983 56 (fun x => barrett_spec 3079049 5713512 21 23 x eq_refl) prime_54983 eq_refl). vm_cast_no_check (eq_refl true). Qed.
Lemma prime_6158099 : prime 6158099.
Proof. apply (pock1_prime (barrett 6158099 11427023 22 24) 6158099 2 3079049 2 (fun x => barrett_spec 6158099 11427023 22 24 x eq_refl) prime_3079049 eq_refl). vm_cast_no_check (eq_refl true). Qed.
Lemma prime_66013261729388519804782124120027 : prime 66013261729388519804782124120027.
Proof. apply (pock2_prime (barrett 66013261729388519804782124120027 99707514169907588640661779159341 105 107) 66013261729388519804782124120027 2 6158099 4773264379806847 2245789442 (fun x => barrett_spec 66013261729388519804782124120027 99707514169907588640661779159341 105 107 x eq_refl) prime_6158099 prime_4773264379806847 eq_refl). vm_cast_no_check (eq_refl true). Qed.
Lemma prime_97 : prime 97.
Proof. apply trial_ok_spec. vm_cast_no_check (eq_refl true). Qed.
Lemma prime_79 : prime 79.
Proof. apply trial_ok_spec. vm_cast_no_check (eq_refl true). Qed.
Lemma prime_8214737 : prime 8214737.
Proof. apply (pock2_prime (barrett 8214737 8566159 22 24) 8214737 2 79 97 1072 (fun x => barrett_spec 8214737 8566159 22 24 x eq_refl) prime_79 prime_97 eq_refl). vm_cast_no_check (eq_refl true). Qed.
Lemma prime_2473 : prime 2473.
Proof. apply trial_ok_spec. vm_cast_no_check (eq_refl true). Qed.
Lemma prime_417514796639753 : prime 417514796639753.
Proof. apply (pock2_prime (barrett 417514796639753 759045314340083 48 50) 417514796639753 2 2473 8214737 20552 (fun x => barrett_spec 417514796639753 759045314340083 48 50 x eq_refl) prime_2473 prime_8214737 eq_refl). vm_cast_no_check (eq_refl true). Qed.
Lemma prime_115792089210356248756420345214020892766250353991924191454421193933289684991999 : prime 115792089210356248756420345214020892766250353991924191454421193933289684991999.
Proof. apply (pock2_prime redp 115792089210356248756420345214020892766250353991924191454421193933289684991999 2 417514796639753 66013261729388519804782124120027 4201223891972229134959264174858 redp_spec prime_417514796639753 prime_66013261729388519804782124120027 eq_refl). vm_cast_no_check (eq_refl true). Qed.
Lemma prime_5801 : prime 5801.
Proof. apply trial_ok_spec. vm_cast_no_check (eq_refl true). Qed.
Lemma prime_9061163 : prime 9061163.
Proof. apply (pock1_prime (barrett 9061163 31063890 23 25) 9061163 2 5801 1562 (fun x => barrett_spec 9061163 31063890 23 25 x eq_refl) prime_5801 eq_refl). vm_cast_no_check (eq_refl true). Qed.
Lemma prime_5636460199499 : prime 5636460199499.
Proof. apply (pock1_prime (barrett 5636460199499 13726922521729 42 44) 5636460199499 2 9061163 622046 (fun x => barrett_spec 5636460199499 13726922521729 42 44 x eq_refl) prime_9061163 eq_refl). vm_cast_no_check (eq_refl true). Qed.
Lemma prime_101456283590983 : prime 101456283590983.
Proof. apply (pock1_prime (barrett 101456283590983 195227342531265 46 48) 101456283590983 2 5636460199499 18 (fun x => barrett_spec 101456283590983 195227342531265 46 48 x eq_refl) prime_5636460199499 eq_refl). vm_cast_no_check (eq_refl true). Qed.
Lemma prime_84163 : prime 84163.
Proof. apply trial_ok_spec. vm_cast_no_check (eq_refl true). Qed.
Lemma prime_2566129871 : prime 2566129871.
Proof. apply (pock1_prime (barrett 2566129871 7188546566 31 33) 2566129871 2 84163 30490 (fun x => barrett_spec 2566129871 7188546566 31 33 x eq_refl) prime_84163 eq_refl). vm_cast_no_check (eq_refl true). Qed.
Lemma prime_18120927127286907576013935251791662753637 : prime 18120927127286907576013935251791662753637.
Proof. apply (pock2_prime (barrett 18120927127286907576013935251791662753637 26173296442534599428298059503660247673409 133 135) 18120927127286907576013935251791662753637 2 2566129871 101456283590983 69602178346893252 (fun x => barrett_spec 18120927127286907576013935251791662753637 26173296442534599428298059503660247673409 133 135 x eq_refl) prime_2566129871 prime_101456283590983 eq_refl). vm_cast_no_check (eq_refl true). Qed.
Lemma prime_125197554539772723432468576818475380947471091418362477724521 : prime 125197554539772723432468576818475380947471091418362477724521.
Proof. apply (pock1_prime (barrett 125197554539772723432468576818475380947471091418362477724521 322271904538601154418755349059004821968592784415868787731380 196 198) 125197554539772723432468576818475380947471091418362477724521 2 18120927127286907576013935251791662753637 6909003808709509960 (fun x => barrett_spec 125197554539772723432468576818475380947471091418362477724521 322271904538601154418755349059004821968592784415868787731380 196 198 x eq_refl) prime_18120927127286907576013935251791662753637 eq_refl). vm_cast_no_check (eq_refl true). Qed.
Lemma prime_115792089210356248756420345214020892766061623724957744567843809356293439045923 : prime 115792089210356248756420345214020892766061623724957744567843809356293439045923.
Proof. apply (pock1_prime (barrett 115792089210356248756420345214020892766061623724957744567843809356293439045923 115792089264276142096998726540203105341985320314822785765023198521039942404512 255 257) 115792089210356248756420345214020892766061623724957744567843809356293439045923 2 125197554539772723432468576818475380947471091418362477724521 924875007631011282 (fun x => barrett_spec 115792089210356248756420345214020892766061623724957744567843809356293439045923 115792089264276142096998726540203105341985320314822785765023198521039942404512 255 257 x eq_refl) prime_125197554539772723432468576818475380947471091418362477724521 eq_refl). vm_cast_no_check (eq_refl true). Qed.
Theorem sm2_P_prime : prime sm2_P.
Proof. exact prime_115792089210356248756420345214020892766250353991924191454421193933289684991999. Qed.
Theorem sm2_N_prime : prime sm2_N.
Proof. exact prime_115792089210356248756420345214020892766061623724957744567843809356293439045923. Qed.
