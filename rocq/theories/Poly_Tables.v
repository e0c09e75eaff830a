(** The four tables of /repo/src/math/poly.c, written by tools/polytab.py. A missing initialiser is 0. *)
From Verif Require Import Base.
Local Open Scope Z_scope.

(** src/math/poly.h:16-21; the fields are unsigned int *)
Record polynomial := P { p_m : Z; p_e1 : Z; p_e2 : Z; p_e3 : Z }.

(** src/math/poly.c:17-855, 4190 entries *)
Definition hp_trinomials : list polynomial := [
  P 2 1 0 0; P 3 1 0 0; P 4 1 0 0; P 5 2 0 0; P 6 1 0 0; P 7 1 0 0; P 9 1 0 0; P 10 3 0 0; P 11 2 0 0;
  P 12 3 0 0; P 14 5 0 0; P 15 1 0 0; P 17 3 0 0; P 18 3 0 0; P 20 3 0 0; P 21 2 0 0; P 22 1 0 0; P 23 5 0 0;
  P 25 3 0 0; P 28 1 0 0; P 29 2 0 0; P 30 1 0 0; P 31 3 0 0; P 33 10 0 0; P 34 7 0 0; P 35 2 0 0;
  P 36 9 0 0; P 39 4 0 0; P 41 3 0 0; P 42 7 0 0; P 44 5 0 0; P 46 1 0 0; P 47 5 0 0; P 49 9 0 0; P 52 3 0 0;
  P 54 9 0 0; P 55 7 0 0; P 57 4 0 0; P 58 19 0 0; P 60 1 0 0; P 62 29 0 0; P 63 1 0 0; P 65 18 0 0;
  P 66 3 0 0; P 68 9 0 0; P 71 6 0 0; P 73 25 0 0; P 74 35 0 0; P 76 21 0 0; P 79 9 0 0; P 81 4 0 0;
  P 84 5 0 0; P 86 21 0 0; P 87 13 0 0; P 89 38 0 0; P 90 27 0 0; P 92 21 0 0; P 93 2 0 0; P 94 21 0 0;
  P 95 11 0 0; P 97 6 0 0; P 98 11 0 0; P 100 15 0 0; P 102 29 0 0; P 103 9 0 0; P 105 4 0 0; P 106 15 0 0;
  P 108 17 0 0; P 110 33 0 0; P 111 10 0 0; P 113 9 0 0; P 118 33 0 0; P 119 8 0 0; P 121 18 0 0;
  P 123 2 0 0; P 124 19 0 0; P 126 21 0 0; P 127 1 0 0; P 129 5 0 0; P 130 3 0 0; P 132 17 0 0; P 134 57 0 0;
  P 135 11 0 0; P 137 21 0 0; P 140 15 0 0; P 142 21 0 0; P 145 52 0 0; P 146 71 0 0; P 147 14 0 0;
  P 148 27 0 0; P 150 53 0 0; P 151 3 0 0; P 153 1 0 0; P 154 15 0 0; P 155 62 0 0; P 156 9 0 0;
  P 159 31 0 0; P 2001 169 0 0; P 2004 441 0 0; P 2006 917 0 0; P 2007 205 0 0; P 2009 54 0 0;
  P 2010 459 0 0; P 2015 42 0 0; P 2017 330 0 0; P 2020 81 0 0; P 2022 349 0 0; P 2023 165 0 0;
  P 2025 274 0 0; P 2026 475 0 0; P 2028 93 0 0; P 2031 386 0 0; P 2033 881 0 0; P 2034 143 0 0;
  P 2036 71 0 0; P 2039 155 0 0; P 2041 735 0 0; P 2044 45 0 0; P 2047 3 0 0; P 2049 124 0 0; P 2052 323 0 0;
  P 2054 201 0 0; P 2055 11 0 0; P 2057 245 0 0; P 2058 343 0 0; P 2060 387 0 0; P 2063 48 0 0;
  P 2065 97 0 0; P 2066 71 0 0; P 2070 237 0 0; P 2073 253 0 0; P 2074 231 0 0; P 2076 851 0 0;
  P 2079 35 0 0; P 2081 467 0 0; P 2082 523 0 0; P 2086 261 0 0; P 2087 141 0 0; P 2089 150 0 0;
  P 2094 645 0 0; P 2095 256 0 0; P 2097 119 0 0; P 2098 19 0 0; P 2100 35 0 0; P 2102 33 0 0; P 2103 98 0 0;
  P 2105 153 0 0; P 2106 111 0 0; P 2111 249 0 0; P 2113 385 0 0; P 2114 155 0 0; P 2116 25 0 0;
  P 2118 385 0 0; P 2119 84 0 0; P 2121 304 0 0; P 2122 91 0 0; P 2124 45 0 0; P 2126 881 0 0;
  P 2127 539 0 0; P 2129 21 0 0; P 2130 239 0 0; P 2132 213 0 0; P 2135 47 0 0; P 2137 331 0 0;
  P 2140 283 0 0; P 2142 69 0 0; P 2143 345 0 0; P 2145 19 0 0; P 2146 595 0 0; P 2148 549 0 0;
  P 2150 569 0 0; P 2151 224 0 0; P 2153 582 0 0; P 2156 405 0 0; P 2158 93 0 0; P 2159 6 0 0;
  P 2161 766 0 0; P 2162 47 0 0; P 2164 561 0 0; P 2166 693 0 0; P 2167 840 0 0; P 2169 55 0 0;
  P 2170 411 0 0; P 2174 225 0 0; P 2175 128 0 0; P 2177 554 0 0; P 2178 15 0 0; P 2180 111 0 0;
  P 2182 93 0 0; P 2183 162 0 0; P 2185 51 0 0; P 2186 51 0 0; P 2188 99 0 0; P 2190 441 0 0; P 2191 111 0 0;
  P 2193 71 0 0; P 2196 539 0 0; P 2198 893 0 0; P 2199 49 0 0; P 2201 143 0 0; P 2206 793 0 0;
  P 2207 438 0 0; P 2209 142 0 0; P 2210 539 0 0; P 2212 423 0 0; P 2214 1041 0 0; P 2215 39 0 0;
  P 2217 455 0 0; P 2218 603 0 0; P 2220 7 0 0; P 2222 333 0 0; P 2225 47 0 0; P 2228 425 0 0;
  P 2230 637 0 0; P 2231 654 0 0; P 2233 249 0 0; P 2236 63 0 0; P 2238 1053 0 0; P 2239 120 0 0;
  P 2241 20 0 0; P 2242 7 0 0; P 2244 399 0 0; P 2247 217 0 0; P 2249 126 0 0; P 2250 927 0 0; P 2252 75 0 0;
  P 2255 729 0 0; P 2257 829 0 0; P 2258 983 0 0; P 2262 57 0 0; P 2263 273 0 0; P 2265 151 0 0;
  P 2266 343 0 0; P 2268 115 0 0; P 2270 369 0 0; P 2271 560 0 0; P 2273 630 0 0; P 2274 239 0 0;
  P 2276 21 0 0; P 2279 276 0 0; P 2281 715 0 0; P 2282 975 0 0; P 2284 889 0 0; P 2286 249 0 0;
  P 2287 651 0 0; P 2289 136 0 0; P 2292 89 0 0; P 2295 259 0 0; P 2297 405 0 0; P 2300 95 0 0;
  P 2303 80 0 0; P 2305 424 0 0; P 2306 551 0 0; P 2308 31 0 0; P 2310 233 0 0; P 2311 148 0 0;
  P 2313 221 0 0; P 2314 879 0 0; P 2316 21 0 0; P 2318 245 0 0; P 2319 161 0 0; P 2321 543 0 0;
  P 2322 83 0 0; P 2324 717 0 0; P 2327 32 0 0; P 2329 105 0 0; P 2331 14 0 0; P 2332 349 0 0;
  P 2334 1125 0 0; P 2335 553 0 0; P 2337 523 0 0; P 2338 211 0 0; P 2340 39 0 0; P 2342 65 0 0;
  P 2343 415 0 0; P 2345 29 0 0; P 2346 987 0 0; P 2348 731 0 0; P 2351 950 0 0; P 2353 328 0 0;
  P 2356 183 0 0; P 2358 161 0 0; P 2359 172 0 0; P 2361 646 0 0; P 2364 643 0 0; P 2367 610 0 0;
  P 2369 77 0 0; P 2372 1139 0 0; P 2375 198 0 0; P 2377 381 0 0; P 2378 243 0 0; P 2380 1 0 0;
  P 2382 429 0 0; P 2383 49 0 0; P 2385 607 0 0; P 2388 11 0 0; P 2390 629 0 0; P 2391 956 0 0;
  P 2393 59 0 0; P 2394 423 0 0; P 2396 173 0 0; P 2399 107 0 0; P 2401 61 0 0; P 2402 251 0 0;
  P 2404 67 0 0; P 2407 91 0 0; P 2409 1198 0 0; P 2410 807 0 0; P 2412 25 0 0; P 2414 29 0 0;
  P 2415 154 0 0; P 2417 225 0 0; P 2418 311 0 0; P 2420 77 0 0; P 2422 1117 0 0; P 2423 102 0 0;
  P 2425 678 0 0; P 2428 301 0 0; P 2430 477 0 0; P 2431 303 0 0; P 2433 305 0 0; P 2434 507 0 0;
  P 2436 145 0 0; P 2438 929 0 0; P 2439 404 0 0; P 2441 339 0 0; P 2442 127 0 0; P 2444 1115 0 0;
  P 2447 786 0 0; P 2449 621 0 0; P 2450 191 0 0; P 2452 331 0 0; P 2454 357 0 0; P 2455 313 0 0;
  P 2457 238 0 0; P 2460 35 0 0; P 2463 1172 0 0; P 2465 531 0 0; P 2466 599 0 0; P 2468 99 0 0;
  P 2470 217 0 0; P 2473 225 0 0; P 2474 899 0 0; P 2478 765 0 0; P 2479 72 0 0; P 2481 710 0 0;
  P 2484 523 0 0; P 2485 142 0 0; P 2487 155 0 0; P 2489 315 0 0; P 2492 141 0 0; P 2495 497 0 0;
  P 2497 1171 0 0; P 2500 135 0 0; P 2502 45 0 0; P 2503 316 0 0; P 2505 131 0 0; P 2508 25 0 0;
  P 2510 1113 0 0; P 2511 110 0 0; P 2513 99 0 0; P 2514 183 0 0; P 2516 563 0 0; P 2519 579 0 0;
  P 2521 426 0 0; P 2526 141 0 0; P 2527 640 0 0; P 2529 49 0 0; P 2534 185 0 0; P 2537 77 0 0;
  P 2538 315 0 0; P 2540 209 0 0; P 2542 97 0 0; P 2543 240 0 0; P 2545 982 0 0; P 2546 891 0 0;
  P 2548 373 0 0; P 2550 333 0 0; P 2551 103 0 0; P 2553 28 0 0; P 2554 1123 0 0; P 2556 349 0 0;
  P 2559 23 0 0; P 2561 201 0 0; P 2562 203 0 0; P 2564 561 0 0; P 2566 37 0 0; P 2567 122 0 0;
  P 2569 69 0 0; P 2572 535 0 0; P 2574 5 0 0; P 2575 867 0 0; P 2577 674 0 0; P 2580 105 0 0; P 2583 31 0 0;
  P 2585 263 0 0; P 2586 1047 0 0; P 2590 1017 0 0; P 2591 219 0 0; P 2593 297 0 0; P 2594 863 0 0;
  P 2596 145 0 0; P 2598 225 0 0; P 2599 289 0 0; P 2601 406 0 0; P 2604 435 0 0; P 2606 1181 0 0;
  P 2607 34 0 0; P 2609 425 0 0; P 2610 427 0 0; P 2614 553 0 0; P 2615 518 0 0; P 2617 462 0 0;
  P 2618 71 0 0; P 2620 835 0 0; P 2623 409 0 0; P 2625 112 0 0; P 2626 43 0 0; P 2628 47 0 0;
  P 2630 177 0 0; P 2631 139 0 0; P 2633 1241 0 0; P 2639 144 0 0; P 2641 736 0 0; P 2642 551 0 0;
  P 2644 597 0 0; P 2646 297 0 0; P 2647 513 0 0; P 2649 689 0 0; P 2652 519 0 0; P 2655 53 0 0;
  P 2657 242 0 0; P 2660 5 0 0; P 2663 458 0 0; P 2665 772 0 0; P 2666 663 0 0; P 2667 254 0 0;
  P 2668 819 0 0; P 2670 229 0 0; P 2671 46 0 0; P 2673 530 0 0; P 2674 967 0 0; P 2676 93 0 0;
  P 2679 286 0 0; P 2681 635 0 0; P 2682 463 0 0; P 2686 789 0 0; P 2687 225 0 0; P 2689 36 0 0;
  P 2692 577 0 0; P 2694 621 0 0; P 2695 123 0 0; P 2697 170 0 0; P 2698 963 0 0; P 2700 3 0 0;
  P 2702 257 0 0; P 2703 67 0 0; P 2706 515 0 0; P 2708 423 0 0; P 2711 690 0 0; P 2713 840 0 0;
  P 2716 255 0 0; P 2718 369 0 0; P 2719 102 0 0; P 2721 826 0 0; P 2722 127 0 0; P 2724 121 0 0;
  P 2727 430 0 0; P 2729 96 0 0; P 2730 343 0 0; P 2732 845 0 0; P 2735 933 0 0; P 2737 226 0 0;
  P 2738 923 0 0; P 2740 109 0 0; P 2742 149 0 0; P 2743 447 0 0; P 2745 484 0 0; P 2748 25 0 0;
  P 2750 629 0 0; P 2751 49 0 0; P 2753 716 0 0; P 2754 231 0 0; P 2756 159 0 0; P 2759 842 0 0;
  P 2761 108 0 0; P 2762 1319 0 0; P 2764 687 0 0; P 2766 1285 0 0; P 2767 102 0 0; P 2769 269 0 0;
  P 2770 567 0 0; P 2772 135 0 0; P 2775 802 0 0; P 2778 1095 0 0; P 2780 51 0 0; P 2783 168 0 0;
  P 2785 349 0 0; P 2786 339 0 0; P 2790 837 0 0; P 2791 490 0 0; P 2793 343 0 0; P 2796 769 0 0;
  P 2799 880 0 0; P 2801 279 0 0; P 2804 609 0 0; P 2806 729 0 0; P 2807 270 0 0; P 2809 1342 0 0;
  P 2812 453 0 0; P 2814 621 0 0; P 2815 84 0 0; P 2817 109 0 0; P 2820 815 0 0; P 2823 592 0 0;
  P 2825 288 0 0; P 2826 135 0 0; P 2828 1103 0 0; P 2831 186 0 0; P 2833 409 0 0; P 2836 1113 0 0;
  P 2839 1033 0 0; P 2841 370 0 0; P 2842 1231 0 0; P 2844 25 0 0; P 2847 329 0 0; P 2849 114 0 0;
  P 2850 1411 0 0; P 2852 1145 0 0; P 2854 313 0 0; P 2855 41 0 0; P 2857 756 0 0; P 2860 603 0 0;
  P 2862 405 0 0; P 2863 139 0 0; P 2865 212 0 0; P 2868 915 0 0; P 2871 272 0 0; P 2873 75 0 0;
  P 2876 605 0 0; P 2878 781 0 0; P 2879 149 0 0; P 2881 1201 0 0; P 2882 1431 0 0; P 2884 529 0 0;
  P 2887 469 0 0; P 2889 76 0 0; P 2890 31 0 0; P 2892 309 0 0; P 2895 358 0 0; P 2897 15 0 0; P 2898 91 0 0;
  P 2900 303 0 0; P 2903 279 0 0; P 2905 321 0 0; P 2906 1155 0 0; P 2910 1301 0 0; P 2911 685 0 0;
  P 2913 238 0 0; P 2914 351 0 0; P 2916 21 0 0; P 2918 237 0 0; P 2919 149 0 0; P 2921 480 0 0;
  P 2922 559 0 0; P 2927 974 0 0; P 2929 651 0 0; P 2934 713 0 0; P 2937 172 0 0; P 2938 499 0 0;
  P 2940 49 0 0; P 2942 1425 0 0; P 2943 320 0 0; P 2945 146 0 0; P 2946 551 0 0; P 2950 397 0 0;
  P 2951 872 0 0; P 2953 33 0 0; P 2956 823 0 0; P 2959 69 0 0; P 2961 86 0 0; P 2962 319 0 0; P 2964 83 0 0;
  P 2966 861 0 0; P 2967 1028 0 0; P 2969 561 0 0; P 2970 583 0 0; P 2972 693 0 0; P 2975 192 0 0;
  P 2977 126 0 0; P 2978 375 0 0; P 2980 381 0 0; P 2982 669 0 0; P 2983 330 0 0; P 2985 166 0 0;
  P 2986 343 0 0; P 2988 313 0 0; P 2991 292 0 0; P 2993 569 0 0; P 2994 303 0 0; P 2996 345 0 0;
  P 2998 669 0 0; P 2999 1011 0 0; P 3001 975 0 0; P 3004 351 0 0; P 3007 963 0 0; P 3009 1349 0 0;
  P 3012 1327 0 0; P 3015 308 0 0; P 3017 108 0 0; P 3018 203 0 0; P 3020 413 0 0; P 3023 734 0 0;
  P 3025 757 0 0; P 3028 135 0 0; P 3031 55 0 0; P 3033 238 0 0; P 3034 399 0 0; P 3036 391 0 0;
  P 3038 633 0 0; P 3039 436 0 0; P 3041 776 0 0; P 3042 415 0 0; P 3044 69 0 0; P 3046 1021 0 0;
  P 3049 765 0 0; P 3050 651 0 0; P 3052 363 0 0; P 3057 110 0 0; P 3058 811 0 0; P 3060 405 0 0;
  P 3062 1053 0 0; P 3063 32 0 0; P 3065 432 0 0; P 3066 455 0 0; P 3068 215 0 0; P 3071 65 0 0;
  P 3073 184 0 0; P 3076 475 0 0; P 3078 105 0 0; P 3079 174 0 0; P 3081 64 0 0; P 3084 109 0 0;
  P 3086 1281 0 0; P 3087 49 0 0; P 3089 261 0 0; P 3090 279 0 0; P 3092 45 0 0; P 3094 769 0 0;
  P 3095 419 0 0; P 3097 1162 0 0; P 3100 45 0 0; P 3102 225 0 0; P 3103 124 0 0; P 3105 833 0 0;
  P 3108 61 0 0; P 3110 1421 0 0; P 3111 199 0 0; P 3113 191 0 0; P 3116 461 0 0; P 3118 525 0 0;
  P 3119 315 0 0; P 3121 493 0 0; P 3124 861 0 0; P 3126 449 0 0; P 3127 139 0 0; P 3129 23 0 0;
  P 3130 867 0 0; P 3132 123 0 0; P 3134 89 0 0; P 3135 356 0 0; P 3137 587 0 0; P 3140 1115 0 0;
  P 3142 981 0 0; P 3143 8 0 0; P 3145 112 0 0; P 3148 1171 0 0; P 3150 253 0 0; P 3151 1254 0 0;
  P 3153 98 0 0; P 3156 565 0 0; P 3159 103 0 0; P 3161 858 0 0; P 3162 315 0 0; P 3164 113 0 0;
  P 3167 672 0 0; P 3169 1123 0 0; P 3170 783 0 0; P 3172 301 0 0; P 3174 81 0 0; P 3175 646 0 0;
  P 3177 484 0 0; P 3178 915 0 0; P 3180 1085 0 0; P 3182 1205 0 0; P 3183 1225 0 0; P 3185 204 0 0;
  P 3186 891 0 0; P 3188 129 0 0; P 3191 495 0 0; P 3193 211 0 0; P 3194 1059 0 0; P 3196 175 0 0;
  P 3198 841 0 0; P 3199 54 0 0; P 3201 674 0 0; P 3204 31 0 0; P 3207 704 0 0; P 3209 81 0 0;
  P 3210 1303 0 0; P 3212 1559 0 0; P 3214 1197 0 0; P 3215 614 0 0; P 3217 67 0 0; P 3220 19 0 0;
  P 3222 145 0 0; P 3223 784 0 0; P 3225 101 0 0; P 3228 1225 0 0; P 3230 501 0 0; P 3233 575 0 0;
  P 3234 511 0 0; P 3236 887 0 0; P 3238 409 0 0; P 3239 98 0 0; P 3241 127 0 0; P 3244 1249 0 0;
  P 3246 1221 0 0; P 3247 426 0 0; P 3249 149 0 0; P 3252 567 0 0; P 3254 1485 0 0; P 3255 124 0 0;
  P 3257 806 0 0; P 3258 203 0 0; P 3260 237 0 0; P 3263 939 0 0; P 3268 73 0 0; P 3270 237 0 0;
  P 3271 333 0 0; P 3273 1408 0 0; P 3274 775 0 0; P 3276 69 0 0; P 3279 446 0 0; P 3281 47 0 0;
  P 3282 783 0 0; P 3286 397 0 0; P 3287 717 0 0; P 3289 43 0 0; P 3292 61 0 0; P 3294 249 0 0;
  P 3295 594 0 0; P 3297 7 0 0; P 3298 639 0 0; P 3300 55 0 0; P 3302 605 0 0; P 3303 1336 0 0;
  P 3305 806 0 0; P 3306 127 0 0; P 3308 717 0 0; P 3310 1 0 0; P 3311 618 0 0; P 3313 436 0 0;
  P 3314 1019 0 0; P 3316 1641 0 0; P 3318 585 0 0; P 3319 58 0 0; P 3321 20 0 0; P 3322 567 0 0;
  P 3324 173 0 0; P 3326 1145 0 0; P 3327 875 0 0; P 3329 525 0 0; P 3330 191 0 0; P 3332 587 0 0;
  P 3335 636 0 0; P 3337 370 0 0; P 3338 1155 0 0; P 3343 73 0 0; P 3345 796 0 0; P 3348 177 0 0;
  P 3350 1401 0 0; P 3351 731 0 0; P 3353 389 0 0; P 3356 339 0 0; P 3359 99 0 0; P 3364 85 0 0;
  P 3366 257 0 0; P 3367 136 0 0; P 3369 1541 0 0; P 3372 47 0 0; P 3374 417 0 0; P 3375 49 0 0;
  P 3377 236 0 0; P 3378 623 0 0; P 3380 659 0 0; P 3382 217 0 0; P 3383 956 0 0; P 3385 603 0 0;
  P 3388 169 0 0; P 3390 1381 0 0; P 3391 465 0 0; P 3393 1615 0 0; P 3398 245 0 0; P 3399 416 0 0;
  P 3401 531 0 0; P 3402 387 0 0; P 3404 173 0 0; P 3407 507 0 0; P 3409 244 0 0; P 3410 1023 0 0;
  P 3412 325 0 0; P 3414 93 0 0; P 3415 1272 0 0; P 3417 32 0 0; P 3418 15 0 0; P 3420 423 0 0;
  P 3422 1121 0 0; P 3423 11 0 0; P 3425 189 0 0; P 3426 1071 0 0; P 3430 153 0 0; P 3431 153 0 0;
  P 3436 159 0 0; P 3438 393 0 0; P 3439 147 0 0; P 3441 394 0 0; P 3444 69 0 0; P 3447 404 0 0;
  P 3449 917 0 0; P 3452 1145 0 0; P 3455 21 0 0; P 3457 120 0 0; P 3458 519 0 0; P 3460 1495 0 0;
  P 3462 225 0 0; P 3463 289 0 0; P 3465 304 0 0; P 3466 43 0 0; P 3468 921 0 0; P 3470 917 0 0;
  P 3471 314 0 0; P 3473 720 0 0; P 3474 735 0 0; P 3476 525 0 0; P 3478 465 0 0; P 3479 155 0 0;
  P 3481 546 0 0; P 3484 1329 0 0; P 3486 1085 0 0; P 3487 120 0 0; P 3489 518 0 0; P 3492 57 0 0;
  P 3495 254 0 0; P 3497 1025 0 0; P 3498 567 0 0; P 3500 375 0 0; P 3503 993 0 0; P 3505 103 0 0;
  P 3510 81 0 0; P 3511 1141 0 0; P 3513 41 0 0; P 3516 667 0 0; P 3519 569 0 0; P 3521 129 0 0;
  P 3522 399 0 0; P 3524 1439 0 0; P 3527 476 0 0; P 3529 270 0 0; P 3532 1561 0 0; P 3534 973 0 0;
  P 3535 162 0 0; P 3537 218 0 0; P 3540 75 0 0; P 3542 345 0 0; P 3543 377 0 0; P 3545 998 0 0;
  P 3546 151 0 0; P 3548 255 0 0; P 3550 1269 0 0; P 3551 183 0 0; P 3556 127 0 0; P 3558 397 0 0;
  P 3559 69 0 0; P 3561 257 0 0; P 3562 927 0 0; P 3564 225 0 0; P 3569 1028 0 0; P 3570 699 0 0;
  P 3572 1143 0 0; P 3574 889 0 0; P 3575 339 0 0; P 3577 348 0 0; P 3580 915 0 0; P 3582 713 0 0;
  P 3583 747 0 0; P 3585 7 0 0; P 3588 843 0 0; P 3590 1713 0 0; P 3591 509 0 0; P 3593 72 0 0;
  P 3594 59 0 0; P 3596 383 0 0; P 3599 114 0 0; P 3601 669 0 0; P 3604 637 0 0; P 3606 861 0 0;
  P 3607 142 0 0; P 3609 1016 0 0; P 3612 215 0 0; P 3614 29 0 0; P 3615 47 0 0; P 3617 377 0 0;
  P 3618 1539 0 0; P 3620 231 0 0; P 3622 481 0 0; P 3625 279 0 0; P 3628 957 0 0; P 3630 729 0 0;
  P 3631 90 0 0; P 3633 553 0 0; P 3634 651 0 0; P 3636 391 0 0; P 3639 76 0 0; P 3641 1626 0 0;
  P 3642 771 0 0; P 3644 1365 0 0; P 3647 45 0 0; P 3649 394 0 0; P 3650 1691 0 0; P 3652 721 0 0;
  P 3654 273 0 0; P 3655 112 0 0; P 3657 928 0 0; P 3658 1471 0 0; P 3660 61 0 0; P 3662 1365 0 0;
  P 3663 130 0 0; P 3665 189 0 0; P 3668 269 0 0; P 3671 101 0 0; P 3673 544 0 0; P 3676 609 0 0;
  P 3678 501 0 0; P 3679 21 0 0; P 3681 115 0 0; P 3682 471 0 0; P 3684 81 0 0; P 3686 81 0 0;
  P 3687 889 0 0; P 3689 759 0 0; P 3690 839 0 0; P 3694 1129 0 0; P 3695 62 0 0; P 3697 91 0 0;
  P 3698 1719 0 0; P 3700 675 0 0; P 3702 1281 0 0; P 3703 429 0 0; P 3705 148 0 0; P 3706 1195 0 0;
  P 3708 147 0 0; P 3710 797 0 0; P 3711 1735 0 0; P 3713 413 0 0; P 3714 459 0 0; P 3719 488 0 0;
  P 3721 31 0 0; P 3726 609 0 0; P 3727 42 0 0; P 3729 184 0 0; P 3730 1191 0 0; P 3732 1327 0 0;
  P 3734 1305 0 0; P 3735 46 0 0; P 3737 287 0 0; P 3738 75 0 0; P 3740 95 0 0; P 3743 279 0 0;
  P 3745 684 0 0; P 3750 1013 0 0; P 3751 435 0 0; P 3753 407 0 0; P 3754 1611 0 0; P 3756 291 0 0;
  P 3759 208 0 0; P 3761 30 0 0; P 3762 383 0 0; P 3764 1307 0 0; P 3767 672 0 0; P 3769 300 0 0;
  P 3770 107 0 0; P 3772 61 0 0; P 3775 1416 0 0; P 3777 1414 0 0; P 3780 63 0 0; P 3782 1785 0 0;
  P 3783 272 0 0; P 3785 87 0 0; P 3786 1027 0 0; P 3788 1173 0 0; P 3791 45 0 0; P 3793 481 0 0;
  P 3796 127 0 0; P 3798 1337 0 0; P 3799 202 0 0; P 3801 112 0 0; P 3804 349 0 0; P 3807 68 0 0;
  P 3809 938 0 0; P 3810 323 0 0; P 3812 1799 0 0; P 3815 143 0 0; P 3817 252 0 0; P 3822 29 0 0;
  P 3823 609 0 0; P 3825 437 0 0; P 3828 1217 0 0; P 3830 713 0 0; P 3831 310 0 0; P 3833 35 0 0;
  P 3834 567 0 0; P 3836 681 0 0; P 3838 273 0 0; P 3839 503 0 0; P 3841 840 0 0; P 3842 1331 0 0;
  P 3844 1063 0 0; P 3846 693 0 0; P 3847 108 0 0; P 3849 71 0 0; P 3850 583 0 0; P 3852 169 0 0;
  P 3854 765 0 0; P 3855 1399 0 0; P 3857 50 0 0; P 3858 459 0 0; P 3860 35 0 0; P 3863 834 0 0;
  P 3865 289 0 0; P 3866 315 0 0; P 3870 913 0 0; P 3871 264 0 0; P 3873 32 0 0; P 3876 157 0 0;
  P 3879 121 0 0; P 3881 810 0 0; P 3882 1775 0 0; P 3884 45 0 0; P 3886 273 0 0; P 3887 915 0 0;
  P 3889 340 0 0; P 3892 289 0 0; P 3894 1197 0 0; P 3895 777 0 0; P 3897 310 0 0; P 3900 65 0 0;
  P 3902 1845 0 0; P 3903 350 0 0; P 3905 26 0 0; P 3906 251 0 0; P 3908 855 0 0; P 3911 1673 0 0;
  P 3913 393 0 0; P 3914 531 0 0; P 3916 445 0 0; P 3918 117 0 0; P 3919 285 0 0; P 3921 785 0 0;
  P 3924 245 0 0; P 3927 367 0 0; P 3929 1440 0 0; P 3930 199 0 0; P 3932 1563 0 0; P 3937 252 0 0;
  P 3938 1835 0 0; P 3942 57 0 0; P 3943 1125 0 0; P 3945 427 0 0; P 3946 1155 0 0; P 3948 293 0 0;
  P 3950 873 0 0; P 3951 752 0 0; P 3953 698 0 0; P 3954 503 0 0; P 3956 429 0 0; P 3959 891 0 0;
  P 3961 756 0 0; P 3962 255 0 0; P 3964 735 0 0; P 3966 337 0 0; P 3967 357 0 0; P 3969 196 0 0;
  P 3970 163 0 0; P 3972 595 0 0; P 3974 861 0 0; P 3975 322 0 0; P 3977 221 0 0; P 3983 11 0 0;
  P 3985 1038 0 0; P 3988 1017 0 0; P 3990 469 0 0; P 3991 168 0 0; P 3993 1468 0 0; P 3996 19 0 0;
  P 3998 153 0 0; P 3999 1250 0 0; P 4001 137 0 0; P 4004 1479 0 0; P 4007 705 0 0; P 4009 124 0 0;
  P 4014 125 0 0; P 4015 249 0 0; P 4017 22 0 0; P 4018 1467 0 0; P 4020 375 0 0; P 4023 985 0 0;
  P 4025 599 0 0; P 4030 93 0 0; P 4031 1805 0 0; P 4033 223 0 0; P 4034 1163 0 0; P 4036 157 0 0;
  P 4038 953 0 0; P 4039 1408 0 0; P 4041 410 0 0; P 4044 1659 0 0; P 4046 981 0 0; P 4047 158 0 0;
  P 4049 215 0 0; P 4050 71 0 0; P 4052 17 0 0; P 4054 981 0 0; P 4055 854 0 0; P 4057 871 0 0;
  P 4058 419 0 0; P 4060 435 0 0; P 4062 765 0 0; P 4063 118 0 0; P 4065 356 0 0; P 4066 847 0 0;
  P 4068 825 0 0; P 4070 1529 0 0; P 4071 661 0 0; P 4073 575 0 0; P 4074 595 0 0; P 4079 224 0 0;
  P 4081 78 0 0; P 4084 1435 0 0; P 4086 1445 0 0; P 4087 769 0 0; P 4089 463 0 0; P 4090 79 0 0;
  P 4092 1491 0 0; P 4094 321 0 0; P 4095 616 0 0; P 4097 1232 0 0; P 4098 3 0 0; P 4100 615 0 0;
  P 4102 57 0 0; P 4103 1278 0 0; P 4105 252 0 0; P 4106 123 0 0; P 4108 1615 0 0; P 4111 201 0 0;
  P 4113 913 0 0; P 4114 219 0 0; P 4116 245 0 0; P 4119 1015 0 0; P 4122 595 0 0; P 4124 345 0 0;
  P 4125 2 0 0; P 4126 133 0 0; P 4127 276 0 0; P 4129 1315 0 0; P 4132 873 0 0; P 4134 1045 0 0;
  P 4135 1554 0 0; P 4137 862 0 0; P 4138 1899 0 0; P 4140 549 0 0; P 4142 525 0 0; P 4143 421 0 0;
  P 4145 51 0 0; P 4146 131 0 0; P 4148 1857 0 0; P 4150 573 0 0; P 4151 186 0 0; P 4154 231 0 0;
  P 4156 1165 0 0; P 4158 133 0 0; P 4159 81 0 0; P 4161 1361 0 0; P 4162 2047 0 0; P 4164 2045 0 0;
  P 4166 645 0 0; P 4167 698 0 0; P 4169 105 0 0; P 4170 387 0 0; P 4174 1297 0 0; P 4175 1698 0 0;
  P 4177 805 0 0; P 4180 273 0 0; P 4182 1985 0 0; P 4183 1984 0 0; P 4185 341 0 0; P 4186 1411 0 0;
  P 4188 947 0 0; P 4191 454 0 0; P 4193 200 0 0; P 4196 1565 0 0; P 4199 225 0 0; P 4201 76 0 0;
  P 4202 1031 0 0; P 4204 1327 0 0; P 4206 381 0 0; P 4207 1846 0 0; P 4209 826 0 0; P 4210 1491 0 0;
  P 4212 243 0 0; P 4214 473 0 0; P 4215 34 0 0; P 4217 347 0 0; P 4218 287 0 0; P 4220 525 0 0;
  P 4223 144 0 0; P 4225 9 0 0; P 4228 145 0 0; P 4230 533 0 0; P 4231 756 0 0; P 4233 5 0 0; P 4234 799 0 0;
  P 4236 459 0 0; P 4238 389 0 0; P 4239 904 0 0; P 4241 273 0 0; P 4242 503 0 0; P 4244 387 0 0;
  P 4246 273 0 0; P 4247 783 0 0; P 4249 387 0 0; P 4255 754 0 0; P 4257 578 0 0; P 4260 99 0 0;
  P 4262 1301 0 0; P 4263 217 0 0; P 4265 362 0 0; P 4266 727 0 0; P 4268 147 0 0; P 4271 1775 0 0;
  P 4273 385 0 0; P 4274 1859 0 0; P 4276 1471 0 0; P 4278 309 0 0; P 4279 945 0 0; P 4281 226 0 0;
  P 4282 1671 0 0; P 4284 81 0 0; P 4287 679 0 0; P 4289 689 0 0; P 4290 99 0 0; P 4295 302 0 0;
  P 4300 175 0 0; P 4302 569 0 0; P 4303 84 0 0; P 4305 116 0 0; P 4308 901 0 0; P 4311 455 0 0;
  P 4313 1016 0 0; P 4314 1071 0 0; P 4316 431 0 0; P 4318 973 0 0; P 4319 1850 0 0; P 4321 390 0 0;
  P 4322 111 0 0; P 4324 987 0 0; P 4326 485 0 0; P 4327 540 0 0; P 4329 833 0 0; P 4330 1351 0 0;
  P 4332 593 0 0; P 4335 826 0 0; P 4337 1991 0 0; P 4338 287 0 0; P 4340 725 0 0; P 4342 1477 0 0;
  P 4343 678 0 0; P 4345 271 0 0; P 4346 1911 0 0; P 4348 429 0 0; P 4350 301 0 0; P 4351 900 0 0;
  P 4353 1042 0 0; P 4356 667 0 0; P 4358 645 0 0; P 4359 595 0 0; P 4361 272 0 0; P 4362 539 0 0;
  P 4364 1523 0 0; P 4366 1773 0 0; P 4367 197 0 0; P 4369 154 0 0; P 4372 151 0 0; P 4374 729 0 0;
  P 4375 253 0 0; P 4377 155 0 0; P 4378 1939 0 0; P 4380 745 0 0; P 4382 1541 0 0; P 4383 886 0 0;
  P 4386 175 0 0; P 4390 1029 0 0; P 4391 84 0 0; P 4394 1535 0 0; P 4396 925 0 0; P 4398 933 0 0;
  P 4399 585 0 0; P 4401 394 0 0; P 4402 351 0 0; P 4404 543 0 0; P 4406 137 0 0; P 4409 218 0 0;
  P 4410 211 0 0; P 4412 1769 0 0; P 4415 1269 0 0; P 4417 442 0 0; P 4420 865 0 0; P 4422 1069 0 0;
  P 4423 271 0 0; P 4425 533 0 0; P 4428 63 0 0; P 4431 47 0 0; P 4433 350 0 0; P 4434 207 0 0;
  P 4436 273 0 0; P 4439 869 0 0; P 4441 909 0 0; P 4442 1187 0 0; P 4444 1839 0 0; P 4445 254 0 0;
  P 4446 589 0 0; P 4447 21 0 0; P 4449 644 0 0; P 4450 1603 0 0; P 4452 905 0 0; P 4454 621 0 0;
  P 4455 1189 0 0; P 4457 329 0 0; P 4458 255 0 0; P 4460 155 0 0; P 4463 582 0 0; P 4465 351 0 0;
  P 4466 639 0 0; P 4468 1621 0 0; P 4470 2117 0 0; P 4471 471 0 0; P 4473 112 0 0; P 4474 799 0 0;
  P 4476 595 0 0; P 4479 1165 0 0; P 4481 273 0 0; P 4482 919 0 0; P 4484 975 0 0; P 4486 1749 0 0;
  P 4487 843 0 0; P 4489 193 0 0; P 4490 1907 0 0; P 4492 895 0 0; P 4494 401 0 0; P 4495 1 0 0;
  P 4497 299 0 0; P 4500 5 0 0; P 4502 657 0 0; P 4505 794 0 0; P 4508 285 0 0; P 4511 173 0 0;
  P 4513 196 0 0; P 4514 323 0 0; P 4516 715 0 0; P 4518 577 0 0; P 4519 1191 0 0; P 4521 650 0 0;
  P 4522 1327 0 0; P 4524 1339 0 0; P 4526 849 0 0; P 4527 674 0 0; P 4529 345 0 0; P 4530 151 0 0;
  P 4534 381 0 0; P 4535 993 0 0; P 4537 21 0 0; P 4538 2223 0 0; P 4540 715 0 0; P 4542 897 0 0;
  P 4543 358 0 0; P 4545 523 0 0; P 4548 831 0 0; P 4550 297 0 0; P 4551 730 0 0; P 4553 704 0 0;
  P 4554 207 0 0; P 4557 98 0 0; P 4558 1869 0 0; P 4559 1356 0 0; P 4561 835 0 0; P 4562 87 0 0;
  P 4564 165 0 0; P 4566 905 0 0; P 4567 126 0 0; P 4569 2110 0 0; P 4570 2079 0 0; P 4572 81 0 0;
  P 4574 69 0 0; P 4575 638 0 0; P 4578 1419 0 0; P 4583 1358 0 0; P 4585 223 0 0; P 4586 483 0 0;
  P 4588 265 0 0; P 4590 497 0 0; P 4591 1254 0 0; P 4596 371 0 0; P 4599 25 0 0; P 4601 68 0 0;
  P 4602 675 0 0; P 4604 1907 0 0; P 4606 2013 0 0; P 4607 1026 0 0; P 4609 780 0 0; P 4610 239 0 0;
  P 4612 1557 0 0; P 4614 965 0 0; P 4615 232 0 0; P 4617 287 0 0; P 4618 975 0 0; P 4620 77 0 0;
  P 4623 136 0 0; P 4625 42 0 0; P 4626 367 0 0; P 4628 1779 0 0; P 4633 1035 0 0; P 4634 1535 0 0;
  P 4636 901 0 0; P 4639 448 0 0; P 4641 149 0 0; P 4642 1311 0 0; P 4644 189 0 0; P 4647 959 0 0;
  P 4649 207 0 0; P 4650 567 0 0; P 4652 95 0 0; P 4655 474 0 0; P 4657 417 0 0; P 4658 1943 0 0;
  P 4660 885 0 0; P 4662 297 0 0; P 4663 841 0 0; P 4665 1663 0 0; P 4668 917 0 0; P 4671 392 0 0;
  P 4673 147 0 0; P 4676 603 0 0; P 4678 2245 0 0; P 4679 1146 0 0; P 4681 216 0 0; P 4682 119 0 0;
  P 4684 819 0 0; P 4686 285 0 0; P 4687 1330 0 0; P 4689 421 0 0; P 4690 283 0 0; P 4692 21 0 0;
  P 4694 1725 0 0; P 4695 1522 0 0; P 4697 386 0 0; P 4698 351 0 0; P 4700 873 0 0; P 4703 248 0 0;
  P 4705 1033 0 0; P 4706 2151 0 0; P 4708 1543 0 0; P 4710 2257 0 0; P 4711 426 0 0; P 4713 67 0 0;
  P 4716 97 0 0; P 4719 466 0 0; P 4724 617 0 0; P 4726 1693 0 0; P 4727 408 0 0; P 4729 73 0 0;
  P 4732 157 0 0; P 4734 2193 0 0; P 4735 412 0 0; P 4737 248 0 0; P 4740 1941 0 0; P 4742 2201 0 0;
  P 4743 857 0 0; P 4745 281 0 0; P 4746 363 0 0; P 4748 1257 0 0; P 4750 541 0 0; P 4751 1946 0 0;
  P 4753 2368 0 0; P 4754 923 0 0; P 4756 279 0 0; P 4758 401 0 0; P 4759 883 0 0; P 4761 170 0 0;
  P 4764 477 0 0; P 4767 178 0 0; P 4769 119 0 0; P 4770 507 0 0; P 4772 213 0 0; P 4775 2381 0 0;
  P 4777 348 0 0; P 4780 321 0 0; P 4782 1397 0 0; P 4783 369 0 0; P 4785 382 0 0; P 4788 9 0 0;
  P 4790 1233 0 0; P 4791 707 0 0; P 4793 413 0 0; P 4798 117 0 0; P 4799 158 0 0; P 4801 1146 0 0;
  P 4802 291 0 0; P 4805 1922 0 0; P 4806 2349 0 0; P 4807 12 0 0; P 4809 91 0 0; P 4810 1171 0 0;
  P 4815 638 0 0; P 4817 491 0 0; P 4818 459 0 0; P 4820 515 0 0; P 4823 1094 0 0; P 4825 558 0 0;
  P 4828 913 0 0; P 4830 1493 0 0; P 4831 337 0 0; P 4833 458 0 0; P 4836 301 0 0; P 4839 238 0 0;
  P 4846 1477 0 0; P 4847 1085 0 0; P 4849 184 0 0; P 4850 243 0 0; P 4852 561 0 0; P 4854 633 0 0;
  P 4855 172 0 0; P 4857 34 0 0; P 4858 355 0 0; P 4860 81 0 0; P 4863 166 0 0; P 4865 1551 0 0;
  P 4868 593 0 0; P 4870 213 0 0; P 4871 1251 0 0; P 4873 1798 0 0; P 4874 555 0 0; P 4876 585 0 0;
  P 4878 1457 0 0; P 4879 1342 0 0; P 4881 1276 0 0; P 4884 91 0 0; P 4886 1989 0 0; P 4887 139 0 0;
  P 4889 45 0 0; P 4890 1967 0 0; P 4892 2381 0 0; P 4894 469 0 0; P 4895 623 0 0; P 4897 210 0 0;
  P 4900 697 0 0; P 4902 1253 0 0; P 4903 774 0 0; P 4905 296 0 0; P 4908 111 0 0; P 4910 377 0 0;
  P 4911 1955 0 0; P 4913 693 0 0; P 4914 259 0 0; P 4916 1793 0 0; P 4918 889 0 0; P 4919 380 0 0;
  P 4921 277 0 0; P 4922 2387 0 0; P 4924 1545 0 0; P 4926 693 0 0; P 4927 21 0 0; P 4929 49 0 0;
  P 4930 2143 0 0; P 4932 1039 0 0; P 4934 413 0 0; P 4935 133 0 0; P 4937 63 0 0; P 4940 383 0 0;
  P 4943 494 0 0; P 4945 1011 0 0; P 4948 601 0 0; P 4950 517 0 0; P 4951 217 0 0; P 4953 938 0 0;
  P 4956 559 0 0; P 4958 1709 0 0; P 4959 920 0 0; P 4961 843 0 0; P 4966 2205 0 0; P 4967 1292 0 0;
  P 4969 1084 0 0; P 4970 1131 0 0; P 4972 709 0 0; P 4974 1229 0 0; P 4975 2301 0 0; P 4977 644 0 0;
  P 4978 315 0 0; P 4980 111 0 0; P 4982 1701 0 0; P 4983 1070 0 0; P 4985 384 0 0; P 4986 239 0 0;
  P 4988 375 0 0; P 4991 201 0 0; P 4993 39 0 0; P 4994 1791 0 0; P 4998 161 0 0; P 5001 637 0 0;
  P 5004 671 0 0; P 5007 464 0 0; P 5009 38 0 0; P 5012 33 0 0; P 5014 1197 0 0; P 5015 206 0 0;
  P 5017 385 0 0; P 5018 731 0 0; P 5020 97 0 0; P 5022 329 0 0; P 5023 777 0 0; P 5025 1379 0 0;
  P 5028 1089 0 0; P 5030 2373 0 0; P 5031 496 0 0; P 5033 1122 0 0; P 5034 387 0 0; P 5036 1295 0 0;
  P 5038 45 0 0; P 5039 489 0 0; P 5041 646 0 0; P 5042 1607 0 0; P 5044 1165 0 0; P 5047 415 0 0;
  P 5049 133 0 0; P 5050 2467 0 0; P 5052 833 0 0; P 5054 1493 0 0; P 5055 211 0 0; P 5057 126 0 0;
  P 5058 1411 0 0; P 5060 161 0 0; P 5062 141 0 0; P 5063 795 0 0; P 5065 126 0 0; P 5066 783 0 0;
  P 5068 1635 0 0; P 5071 258 0 0; P 5073 476 0 0; P 5074 2119 0 0; P 5076 1467 0 0; P 5078 2201 0 0;
  P 5079 35 0 0; P 5081 1562 0 0; P 5082 35 0 0; P 5084 173 0 0; P 5087 210 0 0; P 5089 88 0 0;
  P 5090 147 0 0; P 5092 843 0 0; P 5094 1377 0 0; P 5095 489 0 0; P 5097 454 0 0; P 5098 243 0 0;
  P 5100 675 0 0; P 5103 148 0 0; P 5105 72 0 0; P 5106 1307 0 0; P 5108 191 0 0; P 5110 2209 0 0;
  P 5111 279 0 0; P 5113 559 0 0; P 5114 899 0 0; P 5116 1387 0 0; P 5118 2045 0 0; P 5119 130 0 0;
  P 5121 457 0 0; P 5122 199 0 0; P 5124 279 0 0; P 5127 1519 0 0; P 5129 1514 0 0; P 5130 603 0 0;
  P 5132 15 0 0; P 5134 1629 0 0; P 5135 141 0 0; P 5137 1701 0 0; P 5138 1571 0 0; P 5140 1015 0 0;
  P 5143 1767 0 0; P 5145 308 0 0; P 5146 1771 0 0; P 5148 103 0 0; P 5150 213 0 0; P 5151 724 0 0;
  P 5153 708 0 0; P 5159 494 0 0; P 5161 315 0 0; P 5162 419 0 0; P 5166 117 0 0; P 5167 2193 0 0;
  P 5169 1196 0 0; P 5170 1411 0 0; P 5172 2247 0 0; P 5174 189 0 0; P 5175 347 0 0; P 5177 963 0 0;
  P 5180 2055 0 0; P 5183 1869 0 0; P 5185 373 0 0; P 5186 1755 0 0; P 5188 2305 0 0; P 5190 677 0 0;
  P 5191 330 0 0; P 5193 1006 0 0; P 5196 617 0 0; P 5199 1546 0 0; P 5201 125 0 0; P 5202 1519 0 0;
  P 5204 917 0 0; P 5206 465 0 0; P 5207 588 0 0; P 5209 156 0 0; P 5210 2219 0 0; P 5212 487 0 0;
  P 5215 354 0 0; P 5217 1507 0 0; P 5218 2335 0 0; P 5220 205 0 0; P 5222 1637 0 0; P 5223 1787 0 0;
  P 5225 503 0 0; P 5226 2607 0 0; P 5228 327 0 0; P 5231 1188 0 0; P 5233 205 0 0; P 5234 275 0 0;
  P 5236 475 0 0; P 5238 765 0 0; P 5239 549 0 0; P 5241 101 0 0; P 5242 895 0 0; P 5244 2321 0 0;
  P 5246 2477 0 0; P 5247 235 0 0; P 5249 197 0 0; P 5250 1371 0 0; P 5252 627 0 0; P 5254 1305 0 0;
  P 5255 167 0 0; P 5257 1537 0 0; P 5258 1359 0 0; P 5260 1455 0 0; P 5263 769 0 0; P 5265 41 0 0;
  P 5266 483 0 0; P 5268 297 0 0; P 5270 341 0 0; P 5271 1106 0 0; P 5273 1395 0 0; P 5276 609 0 0;
  P 5278 2337 0 0; P 5279 1299 0 0; P 5287 196 0 0; P 5289 1424 0 0; P 5292 315 0 0; P 5295 1133 0 0;
  P 5297 446 0 0; P 5298 575 0 0; P 5300 2195 0 0; P 5302 2205 0 0; P 5303 434 0 0; P 5305 1863 0 0;
  P 5310 837 0 0; P 5311 142 0 0; P 5313 598 0 0; P 5314 7 0 0; P 5316 1067 0 0; P 5318 125 0 0;
  P 5319 1573 0 0; P 5321 351 0 0; P 5322 1199 0 0; P 5324 15 0 0; P 5326 1545 0 0; P 5327 723 0 0;
  P 5329 1219 0 0; P 5330 803 0 0; P 5332 171 0 0; P 5334 545 0 0; P 5337 2279 0 0; P 5338 1647 0 0;
  P 5340 731 0 0; P 5343 485 0 0; P 5345 339 0 0; P 5346 171 0 0; P 5348 2259 0 0; P 5351 707 0 0;
  P 5353 1419 0 0; P 5356 51 0 0; P 5358 2485 0 0; P 5359 81 0 0; P 5361 35 0 0; P 5364 863 0 0;
  P 5367 194 0 0; P 5369 152 0 0; P 5370 1919 0 0; P 5372 1151 0 0; P 5375 188 0 0; P 5377 547 0 0;
  P 5378 1059 0 0; P 5380 423 0 0; P 5383 1509 0 0; P 5385 376 0 0; P 5386 2055 0 0; P 5388 2261 0 0;
  P 5390 2409 0 0; P 5391 434 0 0; P 5393 215 0 0; P 5394 1523 0 0; P 5396 2255 0 0; P 5398 357 0 0;
  P 5399 485 0 0; P 5401 420 0 0; P 5404 387 0 0; P 5406 1205 0 0; P 5407 955 0 0; P 5409 1720 0 0;
  P 5410 2343 0 0; P 5412 917 0 0; P 5415 331 0 0; P 5417 1256 0 0; P 5418 303 0 0; P 5420 945 0 0;
  P 5422 445 0 0; P 5423 311 0 0; P 5425 186 0 0; P 5428 117 0 0; P 5430 513 0 0; P 5431 2163 0 0;
  P 5433 791 0 0; P 5436 1229 0 0; P 5438 1289 0 0; P 5439 203 0 0; P 5441 1254 0 0; P 5442 1635 0 0;
  P 5444 1235 0 0; P 5446 865 0 0; P 5447 860 0 0; P 5449 103 0 0; P 5450 479 0 0; P 5452 2691 0 0;
  P 5454 893 0 0; P 5455 91 0 0; P 5457 767 0 0; P 5458 1839 0 0; P 5460 29 0 0; P 5463 167 0 0;
  P 5465 54 0 0; P 5468 95 0 0; P 5471 198 0 0; P 5473 589 0 0; P 5474 1247 0 0; P 5478 305 0 0;
  P 5479 370 0 0; P 5481 167 0 0; P 5484 1029 0 0; P 5487 1834 0 0; P 5489 1290 0 0; P 5490 1143 0 0;
  P 5492 135 0 0; P 5494 537 0 0; P 5495 279 0 0; P 5497 1729 0 0; P 5500 175 0 0; P 5502 2537 0 0;
  P 5503 237 0 0; P 5505 98 0 0; P 5508 729 0 0; P 5511 554 0 0; P 5513 1814 0 0; P 5514 535 0 0;
  P 5516 1563 0 0; P 5519 773 0 0; P 5521 1209 0 0; P 5524 2113 0 0; P 5526 1505 0 0; P 5527 318 0 0;
  P 5529 1756 0 0; P 5530 1467 0 0; P 5532 1017 0 0; P 5534 1425 0 0; P 5535 217 0 0; P 5537 492 0 0;
  P 5540 1089 0 0; P 5542 957 0 0; P 5543 248 0 0; P 5545 298 0 0; P 5548 403 0 0; P 5550 1273 0 0;
  P 5551 712 0 0; P 5553 116 0 0; P 5556 269 0 0; P 5558 1301 0 0; P 5559 938 0 0; P 5561 773 0 0;
  P 5562 995 0 0; P 5564 705 0 0; P 5566 2185 0 0; P 5567 239 0 0; P 5569 4 0 0; P 5572 1053 0 0;
  P 5574 901 0 0; P 5575 699 0 0; P 5577 328 0 0; P 5580 81 0 0; P 5582 1697 0 0; P 5583 1037 0 0;
  P 5585 1338 0 0; P 5586 371 0 0; P 5588 39 0 0; P 5590 1381 0 0; P 5591 870 0 0; P 5593 124 0 0;
  P 5594 15 0 0; P 5596 853 0 0; P 5598 101 0 0; P 5599 565 0 0; P 5601 487 0 0; P 5602 963 0 0;
  P 5604 2251 0 0; P 5606 1905 0 0; P 5607 43 0 0; P 5609 287 0 0; P 5610 271 0 0; P 5612 135 0 0;
  P 5615 461 0 0; P 5617 6 0 0; P 5620 1251 0 0; P 5622 2465 0 0; P 5623 709 0 0; P 5625 28 0 0;
  P 5626 943 0 0; P 5628 863 0 0; P 5630 357 0 0; P 5631 1502 0 0; P 5633 143 0 0; P 5634 759 0 0;
  P 5636 555 0 0; P 5639 1365 0 0; P 5641 568 0 0; P 5644 2233 0 0; P 5649 49 0 0; P 5650 967 0 0;
  P 5652 929 0 0; P 5654 149 0 0; P 5655 434 0 0; P 5657 165 0 0; P 5660 39 0 0; P 5662 2637 0 0;
  P 5663 90 0 0; P 5665 714 0 0; P 5666 1215 0 0; P 5670 41 0 0; P 5671 37 0 0; P 5673 82 0 0;
  P 5676 1259 0 0; P 5679 271 0 0; P 5681 326 0 0; P 5684 87 0 0; P 5687 2007 0 0; P 5689 1384 0 0;
  P 5690 1623 0 0; P 5692 561 0 0; P 5694 1609 0 0; P 5695 732 0 0; P 5700 705 0 0; P 5703 82 0 0;
  P 5705 248 0 0; P 5706 2199 0 0; P 5708 1151 0 0; P 5710 409 0 0; P 5711 441 0 0; P 5713 27 0 0;
  P 5714 1775 0 0; P 5718 1361 0 0; P 5719 375 0 0; P 5721 1562 0 0; P 5724 103 0 0; P 5726 309 0 0;
  P 5727 1310 0 0; P 5729 515 0 0; P 5732 2267 0 0; P 5734 2629 0 0; P 5735 744 0 0; P 5737 507 0 0;
  P 5740 115 0 0; P 5742 1085 0 0; P 5743 1621 0 0; P 5745 544 0 0; P 5746 279 0 0; P 5750 377 0 0;
  P 5751 127 0 0; P 5753 1721 0 0; P 5754 1235 0 0; P 5756 371 0 0; P 5758 805 0 0; P 5759 1431 0 0;
  P 5761 615 0 0; P 5762 2759 0 0; P 5764 2019 0 0; P 5767 124 0 0; P 5769 83 0 0; P 5772 343 0 0;
  P 5775 266 0 0; P 5777 134 0 0; P 5778 1071 0 0; P 5780 1535 0 0; P 5782 2377 0 0; P 5783 954 0 0;
  P 5785 1161 0 0; P 5788 1585 0 0; P 5790 197 0 0; P 5791 2101 0 0; P 5793 437 0 0; P 5794 2383 0 0;
  P 5796 831 0 0; P 5798 1853 0 0; P 5799 934 0 0; P 5801 129 0 0; P 5802 1015 0 0; P 5806 369 0 0;
  P 5807 731 0 0; P 5809 369 0 0; P 5810 47 0 0; P 5812 295 0 0; P 5814 2233 0 0; P 5815 1083 0 0;
  P 5817 343 0 0; P 5818 763 0 0; P 5819 1058 0 0; P 5820 61 0 0; P 5822 2145 0 0; P 5823 916 0 0;
  P 5825 323 0 0; P 5826 2027 0 0; P 5831 275 0 0; P 5833 264 0 0; P 5834 935 0 0; P 5836 91 0 0;
  P 5838 153 0 0; P 5839 169 0 0; P 5841 250 0 0; P 5844 1809 0 0; P 5847 1013 0 0; P 5849 105 0 0;
  P 5850 27 0 0; P 5854 2217 0 0; P 5855 1334 0 0; P 5857 516 0 0; P 5858 2735 0 0; P 5860 1899 0 0;
  P 5863 58 0 0; P 5865 1249 0 0; P 5868 373 0 0; P 5871 287 0 0; P 5873 113 0 0; P 5874 267 0 0;
  P 5876 243 0 0; P 5879 2556 0 0; P 5881 81 0 0; P 5882 975 0 0; P 5886 297 0 0; P 5887 142 0 0;
  P 5889 541 0 0; P 5892 63 0 0; P 5895 781 0 0; P 5897 390 0 0; P 5898 247 0 0; P 5900 125 0 0;
  P 5902 1981 0 0; P 5903 380 0 0; P 5905 172 0 0; P 5908 2101 0 0; P 5910 449 0 0; P 5911 2545 0 0;
  P 5913 292 0 0; P 5919 1843 0 0; P 5921 311 0 0; P 5922 495 0 0; P 5924 1017 0 0; P 5926 325 0 0;
  P 5927 1305 0 0; P 5932 2673 0 0; P 5935 84 0 0; P 5937 49 0 0; P 5940 99 0 0; P 5942 245 0 0;
  P 5943 1075 0 0; P 5948 117 0 0; P 5951 216 0 0; P 5953 1767 0 0; P 5954 95 0 0; P 5956 385 0 0;
  P 5958 2297 0 0; P 5959 1864 0 0; P 5961 2081 0 0; P 5962 2599 0 0; P 5964 1475 0 0; P 5966 609 0 0;
  P 5967 2359 0 0; P 5969 24 0 0; P 5970 399 0 0; P 5972 315 0 0; P 5975 284 0 0; P 5977 657 0 0;
  P 5978 1151 0 0; P 5980 1951 0 0; P 5982 45 0 0; P 5983 1960 0 0; P 5985 203 0 0; P 5986 895 0 0;
  P 5988 1067 0 0; P 5990 2729 0 0; P 5991 680 0 0; P 5993 1133 0 0; P 5998 1765 0 0; P 5999 362 0 0;
  P 6001 648 0 0; P 6002 2895 0 0; P 6004 2287 0 0; P 6006 1025 0 0; P 6007 435 0 0; P 6009 346 0 0;
  P 6010 2907 0 0; P 6012 533 0 0; P 6015 91 0 0; P 6017 261 0 0; P 6018 1315 0 0; P 6020 645 0 0;
  P 6022 2217 0 0; P 6023 143 0 0; P 6025 586 0 0; P 6026 915 0 0; P 6027 98 0 0; P 6030 1377 0 0;
  P 6031 613 0 0; P 6033 406 0 0; P 6034 439 0 0; P 6036 1577 0 0; P 6039 1556 0 0; P 6041 1476 0 0;
  P 6044 2525 0 0; P 6047 411 0 0; P 6049 988 0 0; P 6050 1227 0 0; P 6052 127 0 0; P 6055 1242 0 0;
  P 6057 2378 0 0; P 6058 1155 0 0; P 6060 243 0 0; P 6065 129 0 0; P 6066 67 0 0; P 6068 1149 0 0;
  P 6070 37 0 0; P 6071 789 0 0; P 6073 1753 0 0; P 6074 35 0 0; P 6076 1387 0 0; P 6078 1241 0 0;
  P 6079 382 0 0; P 6081 1081 0 0; P 6084 279 0 0; P 6086 557 0 0; P 6087 1948 0 0; P 6089 1062 0 0;
  P 6090 11 0 0; P 6092 1475 0 0; P 6094 973 0 0; P 6095 2186 0 0; P 6097 346 0 0; P 6098 1395 0 0;
  P 6100 577 0 0; P 6103 376 0 0; P 6105 823 0 0; P 6106 2079 0 0; P 6108 213 0 0; P 6111 467 0 0;
  P 6113 1283 0 0; P 6116 873 0 0; P 6118 1765 0 0; P 6119 287 0 0; P 6121 490 0 0; P 6124 19 0 0;
  P 6129 1421 0 0; P 6132 135 0 0; P 6134 2445 0 0; P 6135 572 0 0; P 6137 1682 0 0; P 6140 135 0 0;
  P 6142 2245 0 0; P 6143 1005 0 0; P 6145 348 0 0; P 6146 71 0 0; P 6150 1297 0 0; P 6151 538 0 0;
  P 6153 77 0 0; P 6156 25 0 0; P 6159 1165 0 0; P 6161 1556 0 0; P 6162 603 0 0; P 6164 1179 0 0;
  P 6167 33 0 0; P 6169 1204 0 0; P 6170 1179 0 0; P 6172 3 0 0; P 6174 1029 0 0; P 6175 823 0 0;
  P 6177 430 0 0; P 6178 1719 0 0; P 6180 245 0 0; P 6182 1773 0 0; P 6183 56 0 0; P 6185 308 0 0;
  P 6188 1223 0 0; P 6190 877 0 0; P 6191 1074 0 0; P 6193 919 0 0; P 6196 1807 0 0; P 6198 213 0 0;
  P 6199 109 0 0; P 6201 922 0 0; P 6202 867 0 0; P 6204 691 0 0; P 6207 1363 0 0; P 6209 935 0 0;
  P 6210 711 0 0; P 6214 913 0 0; P 6215 134 0 0; P 6217 711 0 0; P 6218 383 0 0; P 6220 889 0 0;
  P 6222 693 0 0; P 6223 1033 0 0; P 6225 317 0 0; P 6226 1035 0 0; P 6228 2691 0 0; P 6230 1317 0 0;
  P 6231 359 0 0; P 6233 777 0 0; P 6236 1701 0 0; P 6238 2353 0 0; P 6239 921 0 0; P 6241 592 0 0;
  P 6244 475 0 0; P 6246 1565 0 0; P 6247 586 0 0; P 6249 1000 0 0; P 6250 363 0 0; P 6255 2318 0 0;
  P 6257 852 0 0; P 6258 647 0 0; P 6260 1601 0 0; P 6262 261 0 0; P 6263 1466 0 0; P 6265 502 0 0;
  P 6268 973 0 0; P 6270 737 0 0; P 6271 54 0 0; P 6273 1106 0 0; P 6274 999 0 0; P 6276 1787 0 0;
  P 6278 749 0 0; P 6279 290 0 0; P 6281 2021 0 0; P 6282 1895 0 0; P 6286 741 0 0; P 6287 104 0 0;
  P 6289 237 0 0; P 6290 1127 0 0; P 6292 2317 0 0; P 6294 57 0 0; P 6295 82 0 0; P 6297 190 0 0;
  P 6300 7 0 0; P 6302 2105 0 0; P 6303 467 0 0; P 6305 1052 0 0; P 6306 2079 0 0; P 6308 405 0 0;
  P 6311 1155 0 0; P 6313 355 0 0; P 6316 21 0 0; P 6318 333 0 0; P 6319 1213 0 0; P 6321 1 0 0;
  P 6322 387 0 0; P 6324 1273 0 0; P 6326 1029 0 0; P 6330 623 0 0; P 6332 2781 0 0; P 6334 1977 0 0;
  P 6335 368 0 0; P 6337 2086 0 0; P 6338 459 0 0; P 6340 1137 0 0; P 6342 1309 0 0; P 6343 939 0 0;
  P 6345 2566 0 0; P 6348 75 0 0; P 6351 1234 0 0; P 6353 1025 0 0; P 6354 1155 0 0; P 6356 1115 0 0;
  P 6358 229 0 0; P 6359 305 0 0; P 6362 1967 0 0; P 6364 67 0 0; P 6366 273 0 0; P 6367 142 0 0;
  P 6370 1147 0 0; P 6372 135 0 0; P 6375 313 0 0; P 6377 275 0 0; P 6378 2643 0 0; P 6380 1085 0 0;
  P 6382 2061 0 0; P 6383 1013 0 0; P 6385 364 0 0; P 6386 543 0 0; P 6388 2731 0 0; P 6390 581 0 0;
  P 6391 324 0 0; P 6393 103 0 0; P 6394 1447 0 0; P 6396 91 0 0; P 6399 146 0 0; P 6401 1146 0 0;
  P 6402 947 0 0; P 6404 1779 0 0; P 6406 613 0 0; P 6407 231 0 0; P 6409 72 0 0; P 6412 1131 0 0;
  P 6415 663 0 0; P 6417 19 0 0; P 6418 1095 0 0; P 6420 903 0 0; P 6422 621 0 0; P 6425 231 0 0;
  P 6426 207 0 0; P 6428 791 0 0; P 6430 1333 0 0; P 6431 3 0 0; P 6433 810 0 0; P 6434 651 0 0;
  P 6436 1141 0 0; P 6438 425 0 0; P 6439 630 0 0; P 6441 41 0 0; P 6444 1647 0 0; P 6446 2633 0 0;
  P 6447 1547 0 0; P 6449 777 0 0; P 6450 1707 0 0; P 6452 381 0 0; P 6454 825 0 0; P 6455 732 0 0;
  P 6457 840 0 0; P 6458 119 0 0; P 6460 2073 0 0; P 6463 93 0 0; P 6465 224 0 0; P 6468 217 0 0;
  P 6470 477 0 0; P 6471 1910 0 0; P 6473 1211 0 0; P 6474 563 0 0; P 6476 1535 0 0; P 6478 213 0 0;
  P 6479 84 0 0; P 6481 538 0 0; P 6484 43 0 0; P 6487 880 0 0; P 6489 706 0 0; P 6490 111 0 0;
  P 6492 1169 0 0; P 6495 283 0 0; P 6497 1736 0 0; P 6498 2079 0 0; P 6500 375 0 0; P 6502 465 0 0;
  P 6503 330 0 0; P 6505 1911 0 0; P 6510 61 0 0; P 6511 2673 0 0; P 6513 682 0 0; P 6514 2571 0 0;
  P 6518 513 0 0; P 6519 725 0 0; P 6521 695 0 0; P 6522 675 0 0; P 6524 1283 0 0; P 6526 2137 0 0;
  P 6527 242 0 0; P 6529 765 0 0; P 6534 45 0 0; P 6535 31 0 0; P 6537 542 0 0; P 6538 31 0 0;
  P 6540 333 0 0; P 6545 1322 0 0; P 6546 279 0 0; P 6548 945 0 0; P 6550 2401 0 0; P 6551 941 0 0;
  P 6553 265 0 0; P 6554 159 0 0; P 6556 885 0 0; P 6558 153 0 0; P 6559 879 0 0; P 6561 1834 0 0;
  P 6562 651 0 0; P 6564 525 0 0; P 6567 1112 0 0; P 6569 1410 0 0; P 6570 1323 0 0; P 6575 884 0 0;
  P 6577 2341 0 0; P 6578 1587 0 0; P 6580 2577 0 0; P 6583 859 0 0; P 6585 476 0 0; P 6588 1617 0 0;
  P 6590 957 0 0; P 6591 1999 0 0; P 6593 279 0 0; P 6594 2679 0 0; P 6596 665 0 0; P 6598 885 0 0;
  P 6599 189 0 0; P 6601 457 0 0; P 6604 1279 0 0; P 6606 2365 0 0; P 6607 813 0 0; P 6609 286 0 0;
  P 6612 289 0 0; P 6614 2105 0 0; P 6615 136 0 0; P 6617 71 0 0; P 6618 2379 0 0; P 6620 341 0 0;
  P 6622 645 0 0; P 6623 491 0 0; P 6625 549 0 0; P 6628 2259 0 0; P 6630 1617 0 0; P 6631 823 0 0;
  P 6633 535 0 0; P 6634 559 0 0; P 6636 1189 0 0; P 6638 3185 0 0; P 6639 2135 0 0; P 6641 167 0 0;
  P 6642 1063 0 0; P 6644 917 0 0; P 6647 77 0 0; P 6649 202 0 0; P 6650 1391 0 0; P 6652 1143 0 0;
  P 6654 1809 0 0; P 6655 54 0 0; P 6657 839 0 0; P 6660 475 0 0; P 6662 2901 0 0; P 6663 416 0 0;
  P 6665 147 0 0; P 6666 999 0 0; P 6668 221 0 0; P 6670 673 0 0; P 6671 930 0 0; P 6673 256 0 0;
  P 6674 983 0 0; P 6676 3141 0 0; P 6678 41 0 0; P 6679 550 0 0; P 6681 124 0 0; P 6684 1275 0 0;
  P 6686 617 0 0; P 6687 872 0 0; P 6689 1764 0 0; P 6690 1911 0 0; P 6692 2237 0 0; P 6694 2989 0 0;
  P 6695 3072 0 0; P 6697 2613 0 0; P 6700 625 0 0; P 6702 1145 0 0; P 6703 675 0 0; P 6705 218 0 0;
  P 6706 1683 0 0; P 6708 189 0 0; P 6710 1397 0 0; P 6711 2929 0 0; P 6713 11 0 0; P 6714 751 0 0;
  P 6716 1781 0 0; P 6719 455 0 0; P 6721 210 0 0; P 6722 2387 0 0; P 6724 1017 0 0; P 6726 21 0 0;
  P 6727 397 0 0; P 6729 631 0 0; P 6730 3 0 0; P 6732 965 0 0; P 6735 1241 0 0; P 6737 1197 0 0;
  P 6740 41 0 0; P 6743 240 0 0; P 6745 136 0 0; P 6746 1563 0 0; P 6748 1273 0 0; P 6750 2781 0 0;
  P 6751 1104 0 0; P 6753 35 0 0; P 6754 1483 0 0; P 6756 225 0 0; P 6757 466 0 0; P 6758 3105 0 0;
  P 6759 29 0 0; P 6761 15 0 0; P 6764 989 0 0; P 6767 300 0 0; P 6769 97 0 0; P 6772 321 0 0;
  P 6774 733 0 0; P 6775 1293 0 0; P 6777 925 0 0; P 6780 655 0 0; P 6782 3321 0 0; P 6783 518 0 0;
  P 6785 452 0 0; P 6786 171 0 0; P 6788 2345 0 0; P 6791 107 0 0; P 6793 571 0 0; P 6794 707 0 0;
  P 6796 895 0 0; P 6798 1029 0 0; P 6799 1240 0 0; P 6801 140 0 0; P 6804 49 0 0; P 6807 1568 0 0;
  P 6810 679 0 0; P 6812 1115 0 0; P 6815 518 0 0; P 6817 682 0 0; P 6818 1571 0 0; P 6820 747 0 0;
  P 6822 1425 0 0; P 6825 133 0 0; P 6826 435 0 0; P 6828 63 0 0; P 6830 537 0 0; P 6831 115 0 0;
  P 6833 35 0 0; P 6836 473 0 0; P 6838 357 0 0; P 6839 96 0 0; P 6841 427 0 0; P 6846 2497 0 0;
  P 6847 2247 0 0; P 6849 221 0 0; P 6852 839 0 0; P 6855 254 0 0; P 6857 386 0 0; P 6858 747 0 0;
  P 6860 531 0 0; P 6862 1405 0 0; P 6863 956 0 0; P 6865 2494 0 0; P 6866 647 0 0; P 6868 43 0 0;
  P 6871 1719 0 0; P 6873 2056 0 0; P 6874 2631 0 0; P 6876 287 0 0; P 6881 152 0 0; P 6882 1883 0 0;
  P 6884 383 0 0; P 6886 565 0 0; P 6887 495 0 0; P 6889 652 0 0; P 6892 421 0 0; P 6895 256 0 0;
  P 6898 439 0 0; P 6900 915 0 0; P 6902 645 0 0; P 6903 2981 0 0; P 6905 2513 0 0; P 6906 1667 0 0;
  P 6908 1613 0 0; P 6910 1953 0 0; P 6911 1031 0 0; P 6913 414 0 0; P 6918 1653 0 0; P 6921 1046 0 0;
  P 6924 93 0 0; P 6927 653 0 0; P 6929 3216 0 0; P 6930 699 0 0; P 6932 627 0 0; P 6935 678 0 0;
  P 6937 582 0 0; P 6938 963 0 0; P 6940 399 0 0; P 6942 1949 0 0; P 6943 211 0 0; P 6948 63 0 0;
  P 6951 434 0 0; P 6953 1820 0 0; P 6954 735 0 0; P 6956 1727 0 0; P 6958 2113 0 0; P 6959 1070 0 0;
  P 6961 570 0 0; P 6964 13 0 0; P 6966 249 0 0; P 6967 2269 0 0; P 6969 1073 0 0; P 6970 1867 0 0;
  P 6972 455 0 0; P 6974 369 0 0; P 6975 992 0 0; P 6977 285 0 0; P 6980 485 0 0; P 6983 168 0 0;
  P 6985 439 0 0; P 6986 579 0 0; P 6988 445 0 0; P 6990 1673 0 0; P 6991 510 0 0; P 6993 166 0 0;
  P 6996 1025 0 0; P 6998 1241 0 0; P 6999 623 0 0; P 7001 1631 0 0; P 7002 3375 0 0; P 7004 291 0 0;
  P 7006 981 0 0; P 7007 914 0 0; P 7009 1932 0 0; P 7012 273 0 0; P 7014 633 0 0; P 7015 1483 0 0;
  P 7017 175 0 0; P 7018 1695 0 0; P 7020 117 0 0; P 7022 1337 0 0; P 7023 242 0 0; P 7025 1701 0 0;
  P 7026 195 0 0; P 7030 793 0 0; P 7031 1029 0 0; P 7033 16 0 0; P 7034 2679 0 0; P 7036 1353 0 0;
  P 7038 2961 0 0; P 7039 669 0 0; P 7041 587 0 0; P 7042 2871 0 0; P 7044 23 0 0; P 7046 1961 0 0;
  P 7047 238 0 0; P 7049 794 0 0; P 7050 1379 0 0; P 7052 3471 0 0; P 7055 803 0 0; P 7057 937 0 0;
  P 7058 1103 0 0; P 7060 765 0 0; P 7062 2597 0 0; P 7063 265 0 0; P 7065 599 0 0; P 7068 549 0 0;
  P 7070 1217 0 0; P 7071 137 0 0; P 7073 2202 0 0; P 7074 259 0 0; P 7076 677 0 0; P 7077 674 0 0;
  P 7079 351 0 0; P 7081 333 0 0; P 7082 423 0 0; P 7084 345 0 0; P 7087 1245 0 0; P 7089 2519 0 0;
  P 7092 1929 0 0; P 7095 67 0 0; P 7097 936 0 0; P 7098 2695 0 0; P 7100 921 0 0; P 7103 63 0 0;
  P 7105 1954 0 0; P 7106 3123 0 0; P 7108 235 0 0; P 7110 41 0 0; P 7111 1665 0 0; P 7113 1618 0 0;
  P 7116 3417 0 0; P 7118 1113 0 0; P 7119 935 0 0; P 7121 953 0 0; P 7124 89 0 0; P 7126 2785 0 0;
  P 7127 42 0 0; P 7129 130 0 0; P 7132 273 0 0; P 7134 729 0 0; P 7135 553 0 0; P 7137 337 0 0;
  P 7140 225 0 0; P 7143 2426 0 0; P 7145 1127 0 0; P 7146 259 0 0; P 7148 935 0 0; P 7150 33 0 0;
  P 7151 660 0 0; P 7153 301 0 0; P 7156 1117 0 0; P 7159 1332 0 0; P 7161 49 0 0; P 7162 1647 0 0;
  P 7164 33 0 0; P 7166 3521 0 0; P 7167 3529 0 0; P 7169 1110 0 0; P 7170 1887 0 0; P 7172 2549 0 0;
  P 7175 584 0 0; P 7177 918 0 0; P 7180 415 0 0; P 7182 245 0 0; P 7183 30 0 0; P 7185 1064 0 0;
  P 7190 897 0 0; P 7191 1201 0 0; P 7193 2412 0 0; P 7194 1763 0 0; P 7196 1607 0 0; P 7199 21 0 0;
  P 7201 153 0 0; P 7202 1631 0 0; P 7203 686 0 0; P 7204 1695 0 0; P 7206 2349 0 0; P 7207 246 0 0;
  P 7209 460 0 0; P 7210 3111 0 0; P 7215 19 0 0; P 7217 891 0 0; P 7218 3263 0 0; P 7220 2975 0 0;
  P 7222 2733 0 0; P 7223 245 0 0; P 7225 333 0 0; P 7226 2807 0 0; P 7228 1165 0 0; P 7230 2421 0 0;
  P 7231 2185 0 0; P 7233 1435 0 0; P 7236 75 0 0; P 7239 1610 0 0; P 7241 308 0 0; P 7242 87 0 0;
  P 7244 497 0 0; P 7246 2505 0 0; P 7247 726 0 0; P 7249 274 0 0; P 7250 2427 0 0; P 7252 1885 0 0;
  P 7254 933 0 0; P 7255 283 0 0; P 7257 3472 0 0; P 7258 2731 0 0; P 7260 121 0 0; P 7263 256 0 0;
  P 7265 776 0 0; P 7266 139 0 0; P 7270 829 0 0; P 7271 1325 0 0; P 7273 789 0 0; P 7276 1621 0 0;
  P 7278 1741 0 0; P 7279 3247 0 0; P 7281 179 0 0; P 7284 625 0 0; P 7286 1793 0 0; P 7287 1349 0 0;
  P 7289 1253 0 0; P 7290 1431 0 0; P 7292 3033 0 0; P 7295 1961 0 0; P 7297 570 0 0; P 7300 925 0 0;
  P 7302 1521 0 0; P 7303 3280 0 0; P 7305 602 0 0; P 7306 7 0 0; P 7308 287 0 0; P 7310 3557 0 0;
  P 7311 341 0 0; P 7313 45 0 0; P 7314 2787 0 0; P 7316 1415 0 0; P 7318 2625 0 0; P 7319 330 0 0;
  P 7321 202 0 0; P 7322 1587 0 0; P 7324 523 0 0; P 7326 381 0 0; P 7327 2947 0 0; P 7329 70 0 0;
  P 7332 643 0 0; P 7334 237 0 0; P 7335 1421 0 0; P 7337 828 0 0; P 7338 1351 0 0; P 7340 311 0 0;
  P 7342 577 0 0; P 7343 170 0 0; P 7345 1344 0 0; P 7346 671 0 0; P 7348 2863 0 0; P 7350 573 0 0;
  P 7351 601 0 0; P 7353 410 0 0; P 7354 2443 0 0; P 7356 1179 0 0; P 7359 2864 0 0; P 7361 155 0 0;
  P 7362 355 0 0; P 7364 377 0 0; P 7366 397 0 0; P 7367 213 0 0; P 7369 1041 0 0; P 7370 1683 0 0;
  P 7372 1429 0 0; P 7374 829 0 0; P 7375 172 0 0; P 7377 407 0 0; P 7378 523 0 0; P 7380 105 0 0;
  P 7382 2537 0 0; P 7383 20 0 0; P 7385 912 0 0; P 7386 751 0 0; P 7388 629 0 0; P 7391 35 0 0;
  P 7393 1407 0 0; P 7394 1127 0 0; P 7398 145 0 0; P 7399 2715 0 0; P 7401 1814 0 0; P 7402 871 0 0;
  P 7404 297 0 0; P 7409 854 0 0; P 7410 2179 0 0; P 7412 1797 0 0; P 7417 634 0 0; P 7418 867 0 0;
  P 7422 2961 0 0; P 7423 285 0 0; P 7425 371 0 0; P 7426 1371 0 0; P 7428 343 0 0; P 7431 65 0 0;
  P 7433 420 0 0; P 7434 2295 0 0; P 7436 315 0 0; P 7438 3285 0 0; P 7439 2505 0 0; P 7441 1053 0 0;
  P 7444 679 0 0; P 7446 1217 0 0; P 7447 1 0 0; P 7449 625 0 0; P 7450 379 0 0; P 7452 1701 0 0;
  P 7455 284 0 0; P 7458 3127 0 0; P 7460 1535 0 0; P 7462 345 0 0; P 7463 2939 0 0; P 7465 277 0 0;
  P 7466 2087 0 0; P 7468 789 0 0; P 7471 400 0 0; P 7473 457 0 0; P 7476 423 0 0; P 7478 1797 0 0;
  P 7479 1069 0 0; P 7481 887 0 0; P 7484 3305 0 0; P 7487 2940 0 0; P 7489 2644 0 0; P 7490 2843 0 0;
  P 7492 1015 0 0; P 7495 241 0 0; P 7497 49 0 0; P 7500 125 0 0; P 7503 628 0 0; P 7505 1451 0 0;
  P 7506 135 0 0; P 7508 3503 0 0; P 7511 51 0 0; P 7513 2697 0 0; P 7518 3653 0 0; P 7519 15 0 0;
  P 7521 1501 0 0; P 7522 2331 0 0; P 7524 75 0 0; P 7526 533 0 0; P 7527 1507 0 0; P 7529 953 0 0;
  P 7530 307 0 0; P 7532 705 0 0; P 7534 2349 0 0; P 7535 2726 0 0; P 7537 1377 0 0; P 7538 735 0 0;
  P 7540 2127 0 0; P 7542 549 0 0; P 7543 1173 0 0; P 7545 1679 0 0; P 7548 1689 0 0; P 7551 145 0 0;
  P 7553 492 0 0; P 7556 2835 0 0; P 7558 1501 0 0; P 7559 185 0 0; P 7561 846 0 0; P 7562 1547 0 0;
  P 7564 1845 0 0; P 7566 209 0 0; P 7567 151 0 0; P 7569 3409 0 0; P 7570 3303 0 0; P 7572 2413 0 0;
  P 7574 197 0 0; P 7575 2174 0 0; P 7577 846 0 0; P 7578 423 0 0; P 7580 761 0 0; P 7583 653 0 0;
  P 7585 268 0 0; P 7586 3251 0 0; P 7588 655 0 0; P 7590 869 0 0; P 7591 1236 0 0; P 7593 1210 0 0;
  P 7594 3471 0 0; P 7596 55 0 0; P 7598 1469 0 0; P 7599 2066 0 0; P 7601 2555 0 0; P 7602 555 0 0;
  P 7604 1257 0 0; P 7607 111 0 0; P 7609 495 0 0; P 7612 1671 0 0; P 7614 945 0 0; P 7620 203 0 0;
  P 7622 581 0 0; P 7623 637 0 0; P 7625 474 0 0; P 7626 291 0 0; P 7628 3773 0 0; P 7630 2833 0 0;
  P 7631 92 0 0; P 7634 2963 0 0; P 7636 733 0 0; P 7638 2673 0 0; P 7639 3729 0 0; P 7641 925 0 0;
  P 7642 663 0 0; P 7644 161 0 0; P 7646 1233 0 0; P 7647 1105 0 0; P 7649 2222 0 0; P 7650 199 0 0;
  P 7652 2165 0 0; P 7655 3629 0 0; P 7657 1069 0 0; P 7658 3627 0 0; P 7660 2287 0 0; P 7662 2473 0 0;
  P 7663 1203 0 0; P 7665 97 0 0; P 7666 1351 0 0; P 7668 77 0 0; P 7671 769 0 0; P 7673 120 0 0;
  P 7674 1891 0 0; P 7678 2325 0 0; P 7679 1497 0 0; P 7681 1500 0 0; P 7682 479 0 0; P 7684 1419 0 0;
  P 7686 581 0 0; P 7687 867 0 0; P 7689 728 0 0; P 7692 1683 0 0; P 7694 2685 0 0; P 7695 119 0 0;
  P 7697 282 0 0; P 7698 111 0 0; P 7700 177 0 0; P 7702 541 0 0; P 7703 2786 0 0; P 7705 1962 0 0;
  P 7706 831 0 0; P 7708 13 0 0; P 7710 3853 0 0; P 7711 3084 0 0; P 7713 1060 0 0; P 7714 367 0 0;
  P 7716 1157 0 0; P 7719 1993 0 0; P 7721 1382 0 0; P 7722 15 0 0; P 7724 1967 0 0; P 7727 1007 0 0;
  P 7729 594 0 0; P 7730 1979 0 0; P 7732 49 0 0; P 7734 2089 0 0; P 7735 717 0 0; P 7738 3499 0 0;
  P 7740 47 0 0; P 7742 377 0 0; P 7743 3007 0 0; P 7745 1364 0 0; P 7748 1155 0 0; P 7750 721 0 0;
  P 7751 273 0 0; P 7753 1459 0 0; P 7758 1633 0 0; P 7759 42 0 0; P 7761 2074 0 0; P 7762 231 0 0;
  P 7764 499 0 0; P 7766 1341 0 0; P 7767 410 0 0; P 7769 2933 0 0; P 7770 1943 0 0; P 7772 2879 0 0;
  P 7774 3585 0 0; P 7775 243 0 0; P 7777 150 0 0; P 7780 325 0 0; P 7783 118 0 0; P 7785 818 0 0;
  P 7788 435 0 0; P 7790 1533 0 0; P 7791 749 0 0; P 7793 233 0 0; P 7794 675 0 0; P 7796 1841 0 0;
  P 7799 137 0 0; P 7801 558 0 0; P 7802 2103 0 0; P 7807 1533 0 0; P 7809 2233 0 0; P 7810 699 0 0;
  P 7812 413 0 0; P 7814 2121 0 0; P 7815 994 0 0; P 7817 47 0 0; P 7818 1291 0 0; P 7820 35 0 0;
  P 7822 2929 0 0; P 7823 458 0 0; P 7825 966 0 0; P 7826 3483 0 0; P 7828 163 0 0; P 7830 1281 0 0;
  P 7831 825 0 0; P 7833 613 0 0; P 7838 3789 0 0; P 7839 374 0 0; P 7841 2829 0 0; P 7847 270 0 0;
  P 7849 967 0 0; P 7850 3591 0 0; P 7852 2235 0 0; P 7854 213 0 0; P 7855 1087 0 0; P 7857 215 0 0;
  P 7858 3643 0 0; P 7860 2505 0 0; P 7863 1568 0 0; P 7865 654 0 0; P 7866 79 0 0; P 7868 1227 0 0;
  P 7870 981 0 0; P 7871 2462 0 0; P 7873 154 0 0; P 7874 855 0 0; P 7876 3165 0 0; P 7878 129 0 0;
  P 7884 215 0 0; P 7887 664 0 0; P 7889 2400 0 0; P 7890 531 0 0; P 7892 1113 0 0; P 7895 197 0 0;
  P 7897 940 0 0; P 7900 1681 0 0; P 7902 2729 0 0; P 7903 612 0 0; P 7905 1612 0 0; P 7908 1333 0 0;
  P 7910 221 0 0; P 7911 197 0 0; P 7913 1466 0 0; P 7919 756 0 0; P 7921 2206 0 0; P 7922 1335 0 0;
  P 7924 1089 0 0; P 7926 1653 0 0; P 7927 321 0 0; P 7929 1178 0 0; P 7932 515 0 0; P 7934 137 0 0;
  P 7935 133 0 0; P 7937 617 0 0; P 7938 891 0 0; P 7940 795 0 0; P 7942 1057 0 0; P 7943 80 0 0;
  P 7945 2967 0 0; P 7946 51 0 0; P 7948 3001 0 0; P 7951 498 0 0; P 7953 413 0 0; P 7956 1557 0 0;
  P 7958 1121 0 0; P 7959 424 0 0; P 7961 1412 0 0; P 7962 1463 0 0; P 7964 1253 0 0; P 7966 1153 0 0;
  P 7967 483 0 0; P 7969 1054 0 0; P 7972 1695 0 0; P 7975 387 0 0; P 7977 1249 0 0; P 7980 15 0 0;
  P 7983 2678 0 0; P 7985 504 0 0; P 7988 1679 0 0; P 7990 1041 0 0; P 7991 2160 0 0; P 7993 2073 0 0;
  P 7994 2423 0 0; P 7996 2581 0 0; P 7998 1989 0 0; P 7999 952 0 0; P 8001 127 0 0; P 8004 3087 0 0;
  P 8006 2201 0 0; P 8007 554 0 0; P 8009 3159 0 0; P 8010 687 0 0; P 8012 1541 0 0; P 8014 1753 0 0;
  P 8015 776 0 0; P 8017 141 0 0; P 8020 1713 0 0; P 8022 917 0 0; P 8025 229 0 0; P 8026 1843 0 0;
  P 8028 279 0 0; P 8030 53 0 0; P 8033 2240 0 0; P 8034 695 0 0; P 8036 131 0 0; P 8039 98 0 0;
  P 8041 1305 0 0; P 8044 3627 0 0; P 8046 1389 0 0; P 8047 1444 0 0; P 8049 1009 0 0; P 8054 1025 0 0;
  P 8055 1069 0 0; P 8057 960 0 0; P 8058 1115 0 0; P 8060 297 0 0; P 8062 2449 0 0; P 8063 273 0 0;
  P 8065 253 0 0; P 8068 1603 0 0; P 8070 413 0 0; P 8071 358 0 0; P 8073 883 0 0; P 8076 1731 0 0;
  P 8078 669 0 0; P 8079 1523 0 0; P 8081 768 0 0; P 8082 239 0 0; P 8084 2519 0 0; P 8086 1597 0 0;
  P 8087 989 0 0; P 8089 967 0 0; P 8090 3759 0 0; P 8092 351 0 0; P 8094 2889 0 0; P 8095 907 0 0;
  P 8097 2513 0 0; P 8098 2667 0 0; P 8100 9 0 0; P 8103 2333 0 0; P 8105 1611 0 0; P 8106 771 0 0;
  P 8108 627 0 0; P 8110 217 0 0; P 8111 1130 0 0; P 8113 3058 0 0; P 8114 1667 0 0; P 8116 1057 0 0;
  P 8119 10 0 0; P 8121 3494 0 0; P 8124 269 0 0; P 8127 218 0 0; P 8129 548 0 0; P 8130 719 0 0;
  P 8134 25 0 0; P 8135 468 0 0; P 8137 739 0 0; P 8138 1043 0 0; P 8140 1683 0 0; P 8143 1890 0 0;
  P 8145 728 0 0; P 8146 1911 0 0; P 8148 133 0 0; P 8150 89 0 0; P 8151 3841 0 0; P 8153 1020 0 0;
  P 8154 995 0 0; P 8156 3641 0 0; P 8159 1026 0 0; P 8161 292 0 0; P 8162 1391 0 0; P 8164 471 0 0;
  P 8166 381 0 0; P 8167 2553 0 0; P 8169 481 0 0; P 8172 539 0 0; P 8175 661 0 0; P 8177 905 0 0;
  P 8178 2611 0 0; P 8180 185 0 0; P 8182 1477 0 0; P 8183 1139 0 0; P 8185 777 0 0; P 8188 1155 0 0;
  P 8190 1869 0 0; P 8191 714 0 0; P 8193 1055 0 0; P 8194 3847 0 0; P 8196 2477 0 0; P 8198 657 0 0;
  P 8199 2758 0 0; P 8201 365 0 0; P 8204 1727 0 0; P 8207 5 0 0; P 8209 943 0 0; P 8210 3507 0 0;
  P 8212 1773 0 0; P 8215 469 0 0; P 8217 94 0 0; P 8218 1443 0 0; P 8220 327 0 0; P 8222 2345 0 0;
  P 8223 308 0 0; P 8225 2588 0 0; P 8226 447 0 0; P 8230 2149 0 0; P 8231 3564 0 0; P 8233 1407 0 0;
  P 8234 215 0 0; P 8236 351 0 0; P 8239 1462 0 0; P 8241 1694 0 0; P 8244 343 0 0; P 8246 173 0 0;
  P 8247 2050 0 0; P 8250 3399 0 0; P 8252 2861 0 0; P 8254 3157 0 0; P 8255 1496 0 0; P 8257 1530 0 0;
  P 8258 1407 0 0; P 8260 225 0 0; P 8262 693 0 0; P 8263 2232 0 0; P 8265 161 0 0; P 8268 477 0 0;
  P 8271 44 0 0; P 8273 3500 0 0; P 8274 419 0 0; P 8276 915 0 0; P 8278 193 0 0; P 8279 2439 0 0;
  P 8281 226 0 0; P 8282 351 0 0; P 8284 2197 0 0; P 8286 3957 0 0; P 8287 1755 0 0; P 8289 98 0 0;
  P 8292 637 0 0; P 8295 938 0 0; P 8297 2846 0 0; P 8300 185 0 0; P 8302 1305 0 0; P 8303 3789 0 0;
  P 8305 417 0 0; P 8310 3333 0 0; P 8311 1470 0 0; P 8313 4117 0 0; P 8316 405 0 0; P 8319 458 0 0;
  P 8321 2985 0 0; P 8324 1149 0 0; P 8327 596 0 0; P 8329 775 0 0; P 8330 1107 0 0; P 8332 651 0 0;
  P 8334 3285 0 0; P 8335 129 0 0; P 8337 643 0 0; P 8340 553 0 0; P 8342 2921 0 0; P 8343 1667 0 0;
  P 8345 777 0 0; P 8348 1737 0 0; P 8350 3177 0 0; P 8351 170 0 0; P 8353 2548 0 0; P 8354 1515 0 0;
  P 8358 677 0 0; P 8359 1905 0 0; P 8362 655 0 0; P 8364 2443 0 0; P 8366 2381 0 0; P 8367 154 0 0;
  P 8370 1643 0 0; P 8372 17 0 0; P 8374 4125 0 0; P 8375 2316 0 0; P 8377 2035 0 0; P 8378 3851 0 0;
  P 8380 1815 0 0; P 8385 2369 0 0; P 8386 907 0 0; P 8388 691 0 0; P 8390 3797 0 0; P 8391 1336 0 0;
  P 8393 312 0 0; P 8398 3481 0 0; P 8399 4191 0 0; P 8401 1105 0 0; P 8402 287 0 0; P 8404 805 0 0;
  P 8407 1557 0 0; P 8409 2506 0 0; P 8412 1049 0 0; P 8414 3197 0 0; P 8415 1061 0 0; P 8417 2240 0 0;
  P 8418 2187 0 0; P 8420 2751 0 0; P 8423 168 0 0; P 8425 3 0 0; P 8426 1539 0 0; P 8428 129 0 0;
  P 8430 361 0 0; P 8431 97 0 0; P 8433 1255 0 0; P 8434 1459 0 0; P 8436 401 0 0; P 8439 43 0 0;
  P 8441 992 0 0; P 8442 1863 0 0; P 8444 905 0 0; P 8446 3201 0 0; P 8447 213 0 0; P 8449 25 0 0;
  P 8455 412 0 0; P 8457 230 0 0; P 8460 127 0 0; P 8463 397 0 0; P 8465 936 0 0; P 8466 451 0 0;
  P 8470 1713 0 0; P 8471 827 0 0; P 8473 2398 0 0; P 8476 85 0 0; P 8478 405 0 0; P 8479 1425 0 0;
  P 8481 641 0 0; P 8482 331 0 0; P 8484 1421 0 0; P 8487 4112 0 0; P 8489 3096 0 0; P 8492 497 0 0;
  P 8495 122 0 0; P 8497 540 0 0; P 8500 753 0 0; P 8502 3157 0 0; P 8503 91 0 0; P 8505 109 0 0;
  P 8506 3555 0 0; P 8508 1207 0 0; P 8510 2709 0 0; P 8511 4177 0 0; P 8513 3044 0 0; P 8516 1221 0 0;
  P 8518 721 0 0; P 8519 36 0 0; P 8521 2646 0 0; P 8522 3603 0 0; P 8524 1575 0 0; P 8526 637 0 0;
  P 8527 435 0 0; P 8529 2296 0 0; P 8530 2019 0 0; P 8532 787 0 0; P 8535 2996 0 0; P 8537 242 0 0;
  P 8540 465 0 0; P 8543 969 0 0; P 8545 1944 0 0; P 8548 519 0 0; P 8550 893 0 0; P 8551 639 0 0;
  P 8553 4171 0 0; P 8556 2011 0 0; P 8558 4193 0 0; P 8559 2161 0 0; P 8562 939 0 0; P 8564 801 0 0;
  P 8566 2581 0 0; P 8569 1429 0 0; P 8572 1081 0 0; P 8575 457 0 0; P 8577 439 0 0; P 8580 143 0 0;
  P 8582 1817 0 0; P 8583 3448 0 0; P 8585 137 0 0; P 8586 407 0 0; P 8588 29 0 0; P 8591 431 0 0;
  P 8593 94 0 0; P 8599 2385 0 0; P 8601 734 0 0; P 8602 1431 0 0; P 8604 1381 0 0; P 8607 203 0 0;
  P 8609 434 0 0; P 8612 287 0 0; P 8614 1585 0 0; P 8615 3713 0 0; P 8617 1150 0 0; P 8618 1947 0 0;
  P 8620 1197 0 0; P 8623 1483 0 0; P 8625 256 0 0; P 8626 103 0 0; P 8631 857 0 0; P 8633 3234 0 0;
  P 8636 2345 0 0; P 8638 3961 0 0; P 8639 441 0 0; P 8641 81 0 0; P 8644 103 0 0; P 8646 4293 0 0;
  P 8647 145 0 0; P 8649 280 0 0; P 8650 783 0 0; P 8652 833 0 0; P 8654 2529 0 0; P 8655 2863 0 0;
  P 8657 884 0 0; P 8658 3323 0 0; P 8660 1157 0 0; P 8663 2306 0 0; P 8665 2416 0 0; P 8666 2111 0 0;
  P 8668 1839 0 0; P 8670 1061 0 0; P 8671 1329 0 0; P 8673 28 0 0; P 8674 3403 0 0; P 8676 927 0 0;
  P 8679 1370 0 0; P 8681 1175 0 0; P 8682 947 0 0; P 8684 3815 0 0; P 8686 2653 0 0; P 8689 855 0 0;
  P 8692 1095 0 0; P 8694 1809 0 0; P 8695 2283 0 0; P 8697 164 0 0; P 8698 2583 0 0; P 8700 1295 0 0;
  P 8703 281 0 0; P 8705 59 0 0; P 8708 417 0 0; P 8711 360 0 0; P 8713 1785 0 0; P 8714 231 0 0;
  P 8718 3465 0 0; P 8719 7 0 0; P 8721 467 0 0; P 8722 1551 0 0; P 8724 2279 0 0; P 8727 748 0 0;
  P 8729 68 0 0; P 8730 959 0 0; P 8732 525 0 0; P 8734 2817 0 0; P 8735 1326 0 0; P 8737 3235 0 0;
  P 8740 2835 0 0; P 8742 1053 0 0; P 8743 90 0 0; P 8745 79 0 0; P 8746 4183 0 0; P 8748 63 0 0;
  P 8750 53 0 0; P 8751 1922 0 0; P 8753 693 0 0; P 8754 2871 0 0; P 8756 1181 0 0; P 8759 3675 0 0;
  P 8762 2159 0 0; P 8766 1677 0 0; P 8767 70 0 0; P 8769 188 0 0; P 8770 603 0 0; P 8772 37 0 0;
  P 8775 508 0 0; P 8777 257 0 0; P 8780 495 0 0; P 8783 860 0 0; P 8785 1597 0 0; P 8791 463 0 0;
  P 8793 272 0 0; P 8796 1585 0 0; P 8798 1301 0 0; P 8799 656 0 0; P 8801 309 0 0; P 8802 2139 0 0;
  P 8804 549 0 0; P 8806 1773 0 0; P 8807 3569 0 0; P 8809 1089 0 0; P 8812 2295 0 0; P 8814 1497 0 0;
  P 8815 1174 0 0; P 8817 1654 0 0; P 8820 147 0 0; P 8823 1028 0 0; P 8825 303 0 0; P 8826 4275 0 0;
  P 8828 1133 0 0; P 8830 3889 0 0; P 8831 891 0 0; P 8833 328 0 0; P 8834 683 0 0; P 8836 1171 0 0;
  P 8838 1653 0 0; P 8839 285 0 0; P 8841 539 0 0; P 8842 4143 0 0; P 8844 355 0 0; P 8847 1100 0 0;
  P 8849 2324 0 0; P 8850 1191 0 0; P 8852 1697 0 0; P 8855 138 0 0; P 8857 2493 0 0; P 8860 3577 0 0;
  P 8862 49 0 0; P 8863 1099 0 0; P 8865 2713 0 0; P 8868 623 0 0; P 8870 1029 0 0; P 8871 2422 0 0;
  P 8873 689 0 0; P 8874 2239 0 0; P 8876 381 0 0; P 8878 3949 0 0; P 8879 2369 0 0; P 8881 990 0 0;
  P 8884 2121 0 0; P 8886 469 0 0; P 8887 1107 0 0; P 8889 1216 0 0; P 8890 2007 0 0; P 8892 249 0 0;
  P 8895 958 0 0; P 8897 1439 0 0; P 8898 287 0 0; P 8900 2285 0 0; P 8903 222 0 0; P 8905 433 0 0;
  P 8908 3031 0 0; P 8910 1749 0 0; P 8911 963 0 0; P 8913 158 0 0; P 8916 2259 0 0; P 8919 2479 0 0;
  P 8921 6 0 0; P 8922 787 0 0; P 8924 797 0 0; P 8926 853 0 0; P 8927 1425 0 0; P 8929 358 0 0;
  P 8930 83 0 0; P 8932 507 0 0; P 8934 1125 0 0; P 8935 861 0 0; P 8937 3733 0 0; P 8938 2295 0 0;
  P 8940 529 0 0; P 8943 3635 0 0; P 8945 563 0 0; P 8946 967 0 0; P 8948 2637 0 0; P 8951 506 0 0;
  P 8953 25 0 0; P 8956 4231 0 0; P 8958 1029 0 0; P 8959 225 0 0; P 8961 176 0 0; P 8962 691 0 0;
  P 8964 939 0 0; P 8966 1233 0 0; P 8967 2744 0 0; P 8969 435 0 0; P 8970 2191 0 0; P 8972 1619 0 0;
  P 8974 981 0 0; P 8975 1128 0 0; P 8977 966 0 0; P 8980 3093 0 0; P 8982 169 0 0; P 8983 345 0 0;
  P 8985 2674 0 0; P 8986 495 0 0; P 8988 1513 0 0; P 8990 333 0 0; P 8991 2020 0 0; P 8993 2079 0 0;
  P 8994 1051 0 0; P 8999 1386 0 0; P 9001 1599 0 0; P 9002 3995 0 0; P 9004 649 0 0; P 9006 1477 0 0;
  P 9007 222 0 0; P 9009 29 0 0; P 9012 1053 0 0; P 9014 1217 0 0; P 9017 155 0 0; P 9018 1327 0 0;
  P 9020 287 0 0; P 9022 861 0 0; P 9023 4350 0 0; P 9025 744 0 0; P 9026 35 0 0; P 9028 2935 0 0;
  P 9031 714 0 0; P 9033 1615 0 0; P 9034 2095 0 0; P 9036 449 0 0; P 9039 1741 0 0; P 9041 813 0 0;
  P 9042 103 0 0; P 9044 2819 0 0; P 9047 287 0 0; P 9049 2490 0 0; P 9050 1319 0 0; P 9052 2725 0 0;
  P 9054 609 0 0; P 9055 946 0 0; P 9057 2345 0 0; P 9058 235 0 0; P 9060 151 0 0; P 9062 3929 0 0;
  P 9063 2320 0 0; P 9065 2022 0 0; P 9068 2565 0 0; P 9071 2276 0 0; P 9074 207 0 0; P 9076 2395 0 0;
  P 9078 2681 0 0; P 9079 2179 0 0; P 9081 190 0 0; P 9084 1699 0 0; P 9086 2445 0 0; P 9089 440 0 0;
  P 9092 29 0 0; P 9094 2769 0 0; P 9095 2546 0 0; P 9097 1260 0 0; P 9100 55 0 0; P 9103 4200 0 0;
  P 9105 1493 0 0; P 9106 1723 0 0; P 9108 575 0 0; P 9111 487 0 0; P 9113 3563 0 0; P 9114 539 0 0;
  P 9116 1841 0 0; P 9119 917 0 0; P 9121 249 0 0; P 9126 181 0 0; P 9127 1120 0 0; P 9129 23 0 0;
  P 9130 2991 0 0; P 9132 207 0 0; P 9134 1545 0 0; P 9135 944 0 0; P 9137 2163 0 0; P 9138 2671 0 0;
  P 9140 1365 0 0; P 9142 4545 0 0; P 9143 1268 0 0; P 9145 546 0 0; P 9148 1921 0 0; P 9150 469 0 0;
  P 9151 1330 0 0; P 9153 682 0 0; P 9154 3087 0 0; P 9156 281 0 0; P 9158 809 0 0; P 9159 3470 0 0;
  P 9161 1046 0 0; P 9162 2807 0 0; P 9164 1913 0 0; P 9169 229 0 0; P 9170 1103 0 0; P 9175 2806 0 0;
  P 9177 884 0 0; P 9180 1153 0 0; P 9182 1769 0 0; P 9185 207 0 0; P 9186 3159 0 0; P 9188 4305 0 0;
  P 9190 2217 0 0; P 9191 3936 0 0; P 9193 1216 0 0; P 9198 1365 0 0; P 9199 109 0 0; P 9201 146 0 0;
  P 9202 211 0 0; P 9204 645 0 0; P 9206 4085 0 0; P 9207 397 0 0; P 9209 2181 0 0; P 9210 2603 0 0;
  P 9212 3839 0 0; P 9214 397 0 0; P 9215 1217 0 0; P 9217 1956 0 0; P 9218 2919 0 0; P 9220 1875 0 0;
  P 9223 1023 0 0; P 9225 181 0 0; P 9226 4315 0 0; P 9228 145 0 0; P 9231 3899 0 0; P 9233 545 0 0;
  P 9234 315 0 0; P 9238 49 0 0; P 9239 1629 0 0; P 9241 909 0 0; P 9242 239 0 0; P 9244 441 0 0;
  P 9247 48 0 0; P 9249 1663 0 0; P 9250 531 0 0; P 9252 327 0 0; P 9255 298 0 0; P 9257 1364 0 0;
  P 9258 3843 0 0; P 9260 2729 0 0; P 9262 1549 0 0; P 9263 3173 0 0; P 9265 1123 0 0; P 9268 3183 0 0;
  P 9270 837 0 0; P 9271 1488 0 0; P 9273 502 0 0; P 9274 1219 0 0; P 9276 135 0 0; P 9278 2145 0 0;
  P 9279 1526 0 0; P 9281 2049 0 0; P 9282 2307 0 0; P 9284 1883 0 0; P 9287 2520 0 0; P 9289 358 0 0;
  P 9290 1731 0 0; P 9292 3087 0 0; P 9294 3373 0 0; P 9295 2149 0 0; P 9297 1838 0 0; P 9298 2139 0 0;
  P 9300 135 0 0; P 9302 605 0 0; P 9303 208 0 0; P 9305 3344 0 0; P 9306 675 0 0; P 9308 1559 0 0;
  P 9310 3141 0 0; P 9311 2657 0 0; P 9313 924 0 0; P 9316 1233 0 0; P 9319 477 0 0; P 9321 2627 0 0;
  P 9322 4027 0 0; P 9324 665 0 0; P 9327 4165 0 0; P 9329 2910 0 0; P 9330 4263 0 0; P 9332 2081 0 0;
  P 9334 3141 0 0; P 9335 1176 0 0; P 9337 546 0 0; P 9340 1339 0 0; P 9343 2700 0 0; P 9345 353 0 0;
  P 9350 1221 0 0; P 9351 56 0 0; P 9353 3221 0 0; P 9356 1773 0 0; P 9358 453 0 0; P 9359 1227 0 0;
  P 9361 369 0 0; P 9364 3297 0 0; P 9366 2245 0 0; P 9367 3172 0 0; P 9369 116 0 0; P 9370 2311 0 0;
  P 9372 269 0 0; P 9375 4459 0 0; P 9377 914 0 0; P 9378 1347 0 0; P 9380 561 0 0; P 9382 3297 0 0;
  P 9383 1124 0 0; P 9385 523 0 0; P 9386 3863 0 0; P 9390 2601 0 0; P 9391 1239 0 0; P 9393 623 0 0;
  P 9394 3471 0 0; P 9396 369 0 0; P 9398 2769 0 0; P 9399 1295 0 0; P 9401 429 0 0; P 9402 267 0 0;
  P 9404 2009 0 0; P 9407 260 0 0; P 9409 405 0 0; P 9414 673 0 0; P 9415 1678 0 0; P 9417 218 0 0;
  P 9418 823 0 0; P 9420 2701 0 0; P 9423 1280 0 0; P 9425 699 0 0; P 9431 3113 0 0; P 9433 42 0 0;
  P 9436 225 0 0; P 9439 105 0 0; P 9441 479 0 0; P 9442 4611 0 0; P 9444 3513 0 0; P 9447 458 0 0;
  P 9449 584 0 0; P 9450 1431 0 0; P 9454 4189 0 0; P 9455 2807 0 0; P 9457 4 0 0; P 9463 327 0 0;
  P 9465 197 0 0; P 9468 1695 0 0; P 9470 2289 0 0; P 9471 1459 0 0; P 9473 656 0 0; P 9476 2583 0 0;
  P 9478 909 0 0; P 9479 200 0 0; P 9481 4060 0 0; P 9484 853 0 0; P 9486 945 0 0; P 9487 211 0 0;
  P 9489 2089 0 0; P 9490 999 0 0; P 9492 373 0 0; P 9494 477 0 0; P 9497 2301 0 0; P 9500 1175 0 0;
  P 9502 621 0 0; P 9503 99 0 0; P 9508 1141 0 0; P 9510 2349 0 0; P 9511 399 0 0; P 9513 686 0 0;
  P 9516 903 0 0; P 9518 1797 0 0; P 9519 1573 0 0; P 9521 116 0 0; P 9522 243 0 0; P 9524 3207 0 0;
  P 9527 1650 0 0; P 9529 43 0 0; P 9530 1623 0 0; P 9532 2103 0 0; P 9534 1193 0 0; P 9535 1119 0 0;
  P 9537 565 0 0; P 9540 3059 0 0; P 9542 1185 0 0; P 9543 533 0 0; P 9545 539 0 0; P 9546 47 0 0;
  P 9548 335 0 0; P 9551 126 0 0; P 9553 1498 0 0; P 9558 2041 0 0; P 9559 702 0 0; P 9561 3059 0 0;
  P 9562 687 0 0; P 9564 387 0 0; P 9566 1901 0 0; P 9567 1883 0 0; P 9569 60 0 0; P 9570 487 0 0;
  P 9575 888 0 0; P 9577 1668 0 0; P 9578 1503 0 0; P 9580 1771 0 0; P 9582 3177 0 0; P 9583 790 0 0;
  P 9585 2524 0 0; P 9586 1867 0 0; P 9588 525 0 0; P 9590 2061 0 0; P 9591 841 0 0; P 9593 284 0 0;
  P 9594 499 0 0; P 9598 4309 0 0; P 9599 14 0 0; P 9601 963 0 0; P 9607 262 0 0; P 9609 1526 0 0;
  P 9610 2883 0 0; P 9612 93 0 0; P 9614 4577 0 0; P 9615 361 0 0; P 9617 1385 0 0; P 9620 557 0 0;
  P 9622 2145 0 0; P 9623 2429 0 0; P 9625 508 0 0; P 9628 31 0 0; P 9630 37 0 0; P 9631 295 0 0;
  P 9633 2333 0 0; P 9634 3075 0 0; P 9636 515 0 0; P 9639 700 0 0; P 9641 3287 0 0; P 9642 3591 0 0;
  P 9644 1671 0 0; P 9647 1227 0 0; P 9649 657 0 0; P 9652 2733 0 0; P 9654 1969 0 0; P 9655 3558 0 0;
  P 9657 1192 0 0; P 9658 3691 0 0; P 9660 57 0 0; P 9663 446 0 0; P 9665 2763 0 0; P 9666 435 0 0;
  P 9668 225 0 0; P 9671 1086 0 0; P 9673 3538 0 0; P 9674 759 0 0; P 9676 3367 0 0; P 9678 4277 0 0;
  P 9679 864 0 0; P 9681 910 0 0; P 9682 3175 0 0; P 9684 2405 0 0; P 9686 2333 0 0; P 9687 2054 0 0;
  P 9689 84 0 0; P 9690 1503 0 0; P 9692 3381 0 0; P 9695 207 0 0; P 9697 1201 0 0; P 9700 565 0 0;
  P 9702 1533 0 0; P 9705 1802 0 0; P 9708 1753 0 0; P 9711 917 0 0; P 9713 2933 0 0; P 9714 1227 0 0;
  P 9716 263 0 0; P 9719 3492 0 0; P 9721 171 0 0; P 9727 760 0 0; P 9729 938 0 0; P 9730 663 0 0;
  P 9732 3747 0 0; P 9734 4125 0 0; P 9735 2086 0 0; P 9737 275 0 0; P 9738 3663 0 0; P 9740 3015 0 0;
  P 9743 869 0 0; P 9745 2361 0 0; P 9746 2559 0 0; P 9748 889 0 0; P 9750 833 0 0; P 9751 1093 0 0;
  P 9753 1078 0 0; P 9754 3891 0 0; P 9756 1701 0 0; P 9758 1557 0 0; P 9759 706 0 0; P 9761 2588 0 0;
  P 9762 4455 0 0; P 9766 585 0 0; P 9767 1668 0 0; P 9769 1390 0 0; P 9770 1091 0 0; P 9772 741 0 0;
  P 9774 401 0 0; P 9775 537 0 0; P 9777 773 0 0; P 9780 711 0 0; P 9782 161 0 0; P 9783 88 0 0;
  P 9785 2036 0 0; P 9786 4147 0 0; P 9788 2007 0 0; P 9790 177 0 0; P 9791 390 0 0; P 9793 339 0 0;
  P 9796 321 0 0; P 9798 2677 0 0; P 9799 139 0 0; P 9801 284 0 0; P 9804 1165 0 0; P 9807 337 0 0;
  P 9810 711 0 0; P 9814 1545 0 0; P 9817 4420 0 0; P 9820 105 0 0; P 9822 305 0 0; P 9823 144 0 0;
  P 9825 2563 0 0; P 9828 207 0 0; P 9830 1541 0 0; P 9831 1159 0 0; P 9833 104 0 0; P 9839 389 0 0;
  P 9841 1788 0 0; P 9844 565 0 0; P 9846 2349 0 0; P 9847 3537 0 0; P 9849 329 0 0; P 9852 3379 0 0;
  P 9854 317 0 0; P 9855 803 0 0; P 9857 4386 0 0; P 9858 4235 0 0; P 9860 2997 0 0; P 9863 1809 0 0;
  P 9865 2604 0 0; P 9868 339 0 0; P 9870 2681 0 0; P 9871 903 0 0; P 9873 3842 0 0; P 9874 4279 0 0;
  P 9876 183 0 0; P 9878 573 0 0; P 9879 1181 0 0; P 9882 747 0 0; P 9884 389 0 0; P 9886 3673 0 0;
  P 9887 710 0 0; P 9889 2019 0 0; P 9890 2583 0 0; P 9895 787 0 0; P 9897 430 0 0; P 9900 11 0 0;
  P 9903 40 0 0; P 9905 219 0 0; P 9906 2027 0 0; P 9908 2699 0 0; P 9911 483 0 0; P 9913 1899 0 0;
  P 9914 95 0 0; P 9916 4483 0 0; P 9918 381 0 0; P 9919 1185 0 0; P 9921 901 0 0; P 9922 2691 0 0;
  P 9926 1445 0 0; P 9927 1987 0 0; P 9929 1382 0 0; P 9930 331 0 0; P 9932 2397 0 0; P 9935 2216 0 0;
  P 9937 451 0 0; P 9940 2059 0 0; P 9942 133 0 0; P 9943 3069 0 0; P 9945 1882 0 0; P 9946 2355 0 0;
  P 9948 1535 0 0; P 9950 2453 0 0; P 9951 1334 0 0; P 9953 539 0 0; P 9954 343 0 0; P 9956 851 0 0;
  P 9959 381 0 0; P 9961 2707 0 0; P 9964 2691 0 0; P 9966 1701 0 0; P 9967 4399 0 0; P 9969 295 0 0;
  P 9970 2587 0 0; P 9972 519 0 0; P 9974 2045 0 0; P 9975 124 0 0; P 9977 2954 0 0; P 9978 1483 0 0;
  P 9980 707 0 0; P 9982 993 0 0; P 9983 785 0 0; P 9985 1974 0 0; P 9986 1143 0 0; P 9988 3129 0 0;
  P 9990 573 0 0; P 9991 495 0 0; P 9993 121 0 0; P 9996 1447 0 0; P 9998 4013 0 0; P 9999 2951 0 0].

(** src/math/poly.c:870-1062, 957 entries *)
Definition ansi_trinomials : list polynomial := [
  P 161 18 0 0; P 162 27 0 0; P 166 37 0 0; P 167 6 0 0; P 169 34 0 0; P 170 11 0 0; P 172 1 0 0;
  P 174 13 0 0; P 175 6 0 0; P 177 8 0 0; P 178 31 0 0; P 180 3 0 0; P 182 81 0 0; P 183 56 0 0;
  P 185 24 0 0; P 186 11 0 0; P 191 9 0 0; P 193 15 0 0; P 194 87 0 0; P 196 3 0 0; P 198 9 0 0;
  P 199 34 0 0; P 201 14 0 0; P 202 55 0 0; P 204 27 0 0; P 207 43 0 0; P 209 6 0 0; P 210 7 0 0;
  P 212 105 0 0; P 214 73 0 0; P 215 23 0 0; P 217 45 0 0; P 218 11 0 0; P 220 7 0 0; P 223 33 0 0;
  P 225 32 0 0; P 228 113 0 0; P 231 26 0 0; P 233 74 0 0; P 234 31 0 0; P 236 5 0 0; P 238 73 0 0;
  P 239 36 0 0; P 241 70 0 0; P 242 95 0 0; P 244 111 0 0; P 247 82 0 0; P 249 35 0 0; P 250 103 0 0;
  P 252 15 0 0; P 253 46 0 0; P 255 52 0 0; P 257 12 0 0; P 258 71 0 0; P 260 15 0 0; P 263 93 0 0;
  P 265 42 0 0; P 266 47 0 0; P 268 25 0 0; P 270 53 0 0; P 271 58 0 0; P 273 23 0 0; P 274 67 0 0;
  P 276 63 0 0; P 278 5 0 0; P 279 5 0 0; P 281 93 0 0; P 282 35 0 0; P 284 53 0 0; P 286 69 0 0;
  P 287 71 0 0; P 289 21 0 0; P 292 37 0 0; P 294 33 0 0; P 295 48 0 0; P 297 5 0 0; P 300 5 0 0;
  P 302 41 0 0; P 303 1 0 0; P 305 102 0 0; P 308 15 0 0; P 310 93 0 0; P 313 79 0 0; P 314 15 0 0;
  P 316 63 0 0; P 318 45 0 0; P 319 36 0 0; P 321 31 0 0; P 322 67 0 0; P 324 51 0 0; P 327 34 0 0;
  P 329 50 0 0; P 330 99 0 0; P 332 89 0 0; P 333 2 0 0; P 337 55 0 0; P 340 45 0 0; P 342 125 0 0;
  P 343 75 0 0; P 345 22 0 0; P 346 63 0 0; P 348 103 0 0; P 350 53 0 0; P 351 34 0 0; P 353 69 0 0;
  P 354 99 0 0; P 358 57 0 0; P 359 68 0 0; P 362 63 0 0; P 364 9 0 0; P 366 29 0 0; P 367 21 0 0;
  P 369 91 0 0; P 370 139 0 0; P 372 111 0 0; P 375 16 0 0; P 377 41 0 0; P 378 43 0 0; P 380 47 0 0;
  P 382 81 0 0; P 383 90 0 0; P 385 6 0 0; P 386 83 0 0; P 388 159 0 0; P 390 9 0 0; P 391 28 0 0;
  P 393 7 0 0; P 394 135 0 0; P 396 25 0 0; P 399 26 0 0; P 401 152 0 0; P 402 171 0 0; P 404 65 0 0;
  P 406 141 0 0; P 407 71 0 0; P 409 87 0 0; P 412 147 0 0; P 414 13 0 0; P 415 102 0 0; P 417 107 0 0;
  P 418 199 0 0; P 420 7 0 0; P 422 149 0 0; P 423 25 0 0; P 425 12 0 0; P 426 63 0 0; P 428 105 0 0;
  P 431 120 0 0; P 433 33 0 0; P 436 165 0 0; P 438 65 0 0; P 439 49 0 0; P 441 7 0 0; P 444 81 0 0;
  P 446 105 0 0; P 447 73 0 0; P 449 134 0 0; P 450 47 0 0; P 455 38 0 0; P 457 16 0 0; P 458 203 0 0;
  P 460 19 0 0; P 462 73 0 0; P 463 93 0 0; P 465 31 0 0; P 468 27 0 0; P 470 9 0 0; P 471 1 0 0;
  P 473 200 0 0; P 474 191 0 0; P 476 9 0 0; P 478 121 0 0; P 479 104 0 0; P 481 138 0 0; P 484 105 0 0;
  P 486 81 0 0; P 487 94 0 0; P 489 83 0 0; P 490 219 0 0; P 492 7 0 0; P 494 17 0 0; P 495 76 0 0;
  P 497 78 0 0; P 498 155 0 0; P 500 27 0 0; P 503 3 0 0; P 505 156 0 0; P 506 23 0 0; P 508 9 0 0;
  P 510 69 0 0; P 511 10 0 0; P 513 26 0 0; P 514 67 0 0; P 516 21 0 0; P 518 33 0 0; P 519 79 0 0;
  P 521 32 0 0; P 522 39 0 0; P 524 167 0 0; P 526 97 0 0; P 527 47 0 0; P 529 42 0 0; P 532 1 0 0;
  P 534 161 0 0; P 537 94 0 0; P 538 195 0 0; P 540 9 0 0; P 543 16 0 0; P 545 122 0 0; P 550 193 0 0;
  P 551 135 0 0; P 553 39 0 0; P 556 153 0 0; P 558 73 0 0; P 559 34 0 0; P 561 71 0 0; P 564 163 0 0;
  P 566 153 0 0; P 567 28 0 0; P 569 77 0 0; P 570 67 0 0; P 574 13 0 0; P 575 146 0 0; P 577 25 0 0;
  P 580 237 0 0; P 582 85 0 0; P 583 130 0 0; P 585 88 0 0; P 588 35 0 0; P 590 93 0 0; P 593 86 0 0;
  P 594 19 0 0; P 596 273 0 0; P 599 30 0 0; P 601 201 0 0; P 602 215 0 0; P 604 105 0 0; P 606 165 0 0;
  P 607 105 0 0; P 609 31 0 0; P 610 127 0 0; P 612 81 0 0; P 614 45 0 0; P 615 211 0 0; P 617 200 0 0;
  P 618 295 0 0; P 620 9 0 0; P 622 297 0 0; P 623 68 0 0; P 625 133 0 0; P 626 251 0 0; P 628 223 0 0;
  P 631 307 0 0; P 633 101 0 0; P 634 39 0 0; P 636 217 0 0; P 639 16 0 0; P 641 11 0 0; P 642 119 0 0;
  P 646 249 0 0; P 647 5 0 0; P 649 37 0 0; P 650 3 0 0; P 651 14 0 0; P 652 93 0 0; P 654 33 0 0;
  P 655 88 0 0; P 657 38 0 0; P 658 55 0 0; P 660 11 0 0; P 662 21 0 0; P 663 107 0 0; P 665 33 0 0;
  P 668 147 0 0; P 670 153 0 0; P 671 15 0 0; P 673 28 0 0; P 676 31 0 0; P 679 66 0 0; P 682 171 0 0;
  P 684 209 0 0; P 686 197 0 0; P 687 13 0 0; P 689 14 0 0; P 690 79 0 0; P 692 299 0 0; P 694 169 0 0;
  P 695 177 0 0; P 697 267 0 0; P 698 215 0 0; P 700 75 0 0; P 702 37 0 0; P 705 17 0 0; P 708 15 0 0;
  P 711 92 0 0; P 713 41 0 0; P 714 23 0 0; P 716 183 0 0; P 718 165 0 0; P 719 150 0 0; P 721 9 0 0;
  P 722 231 0 0; P 724 207 0 0; P 726 5 0 0; P 727 180 0 0; P 729 58 0 0; P 730 147 0 0; P 732 343 0 0;
  P 735 44 0 0; P 737 5 0 0; P 738 347 0 0; P 740 135 0 0; P 742 85 0 0; P 743 90 0 0; P 745 258 0 0;
  P 746 351 0 0; P 748 19 0 0; P 750 309 0 0; P 751 18 0 0; P 753 158 0 0; P 754 19 0 0; P 756 45 0 0;
  P 758 233 0 0; P 759 98 0 0; P 761 3 0 0; P 762 83 0 0; P 767 168 0 0; P 769 120 0 0; P 772 7 0 0;
  P 774 185 0 0; P 775 93 0 0; P 777 29 0 0; P 778 375 0 0; P 780 13 0 0; P 782 329 0 0; P 783 68 0 0;
  P 785 92 0 0; P 791 30 0 0; P 793 253 0 0; P 794 143 0 0; P 798 53 0 0; P 799 25 0 0; P 801 217 0 0;
  P 804 75 0 0; P 806 21 0 0; P 807 7 0 0; P 809 15 0 0; P 810 159 0 0; P 812 29 0 0; P 814 21 0 0;
  P 815 333 0 0; P 817 52 0 0; P 818 119 0 0; P 820 123 0 0; P 822 17 0 0; P 823 9 0 0; P 825 38 0 0;
  P 826 255 0 0; P 828 189 0 0; P 831 49 0 0; P 833 149 0 0; P 834 15 0 0; P 838 61 0 0; P 839 54 0 0;
  P 841 144 0 0; P 842 47 0 0; P 844 105 0 0; P 845 2 0 0; P 846 105 0 0; P 847 136 0 0; P 849 253 0 0;
  P 850 111 0 0; P 852 159 0 0; P 855 29 0 0; P 857 119 0 0; P 858 207 0 0; P 860 35 0 0; P 861 14 0 0;
  P 862 349 0 0; P 865 1 0 0; P 866 75 0 0; P 868 145 0 0; P 870 301 0 0; P 871 378 0 0; P 873 352 0 0;
  P 876 149 0 0; P 879 11 0 0; P 881 78 0 0; P 882 99 0 0; P 884 173 0 0; P 887 147 0 0; P 889 127 0 0;
  P 890 183 0 0; P 892 31 0 0; P 894 173 0 0; P 895 12 0 0; P 897 113 0 0; P 898 207 0 0; P 900 1 0 0;
  P 902 21 0 0; P 903 35 0 0; P 905 117 0 0; P 906 123 0 0; P 908 143 0 0; P 911 204 0 0; P 913 91 0 0;
  P 916 183 0 0; P 918 77 0 0; P 919 36 0 0; P 921 221 0 0; P 924 31 0 0; P 926 365 0 0; P 927 403 0 0;
  P 930 31 0 0; P 932 177 0 0; P 935 417 0 0; P 937 217 0 0; P 938 207 0 0; P 942 45 0 0; P 943 24 0 0;
  P 945 77 0 0; P 948 189 0 0; P 951 260 0 0; P 953 168 0 0; P 954 131 0 0; P 956 305 0 0; P 959 143 0 0;
  P 961 18 0 0; P 964 103 0 0; P 966 201 0 0; P 967 36 0 0; P 969 31 0 0; P 972 7 0 0; P 975 19 0 0;
  P 977 15 0 0; P 979 178 0 0; P 982 177 0 0; P 983 230 0 0; P 985 222 0 0; P 986 3 0 0; P 988 121 0 0;
  P 990 161 0 0; P 991 39 0 0; P 993 62 0 0; P 994 223 0 0; P 996 65 0 0; P 998 101 0 0; P 999 59 0 0;
  P 1001 17 0 0; P 1007 75 0 0; P 1009 55 0 0; P 1010 99 0 0; P 1012 115 0 0; P 1014 385 0 0; P 1015 186 0 0;
  P 1020 135 0 0; P 1022 317 0 0; P 1023 7 0 0; P 1025 294 0 0; P 1026 35 0 0; P 1028 119 0 0; P 1029 98 0 0;
  P 1030 93 0 0; P 1031 68 0 0; P 1033 108 0 0; P 1034 75 0 0; P 1036 411 0 0; P 1039 21 0 0; P 1041 412 0 0;
  P 1042 439 0 0; P 1044 41 0 0; P 1047 10 0 0; P 1049 141 0 0; P 1050 159 0 0; P 1052 291 0 0;
  P 1054 105 0 0; P 1055 24 0 0; P 1057 198 0 0; P 1058 27 0 0; P 1062 49 0 0; P 1063 168 0 0;
  P 1065 463 0 0; P 1071 7 0 0; P 1078 361 0 0; P 1079 230 0 0; P 1081 24 0 0; P 1082 407 0 0;
  P 1084 189 0 0; P 1085 62 0 0; P 1086 189 0 0; P 1087 112 0 0; P 1089 91 0 0; P 1090 79 0 0; P 1092 23 0 0;
  P 1094 57 0 0; P 1095 139 0 0; P 1097 14 0 0; P 1098 83 0 0; P 1100 35 0 0; P 1102 117 0 0; P 1103 65 0 0;
  P 1105 21 0 0; P 1106 195 0 0; P 1108 327 0 0; P 1110 417 0 0; P 1111 13 0 0; P 1113 107 0 0;
  P 1116 59 0 0; P 1119 283 0 0; P 1121 62 0 0; P 1122 427 0 0; P 1126 105 0 0; P 1127 27 0 0;
  P 1129 103 0 0; P 1130 551 0 0; P 1134 129 0 0; P 1135 9 0 0; P 1137 277 0 0; P 1138 31 0 0;
  P 1140 141 0 0; P 1142 357 0 0; P 1145 227 0 0; P 1146 131 0 0; P 1148 23 0 0; P 1151 90 0 0;
  P 1153 241 0 0; P 1154 75 0 0; P 1156 307 0 0; P 1158 245 0 0; P 1159 66 0 0; P 1161 365 0 0;
  P 1164 19 0 0; P 1166 189 0 0; P 1167 133 0 0; P 1169 114 0 0; P 1170 27 0 0; P 1174 133 0 0;
  P 1175 476 0 0; P 1177 16 0 0; P 1178 375 0 0; P 1180 25 0 0; P 1182 77 0 0; P 1183 87 0 0; P 1185 134 0 0;
  P 1186 171 0 0; P 1188 75 0 0; P 1190 233 0 0; P 1191 196 0 0; P 1193 173 0 0; P 1196 281 0 0;
  P 1198 405 0 0; P 1199 114 0 0; P 1201 171 0 0; P 1202 287 0 0; P 1204 43 0 0; P 1206 513 0 0;
  P 1207 273 0 0; P 1209 118 0 0; P 1210 243 0 0; P 1212 203 0 0; P 1214 257 0 0; P 1215 302 0 0;
  P 1217 393 0 0; P 1218 91 0 0; P 1220 413 0 0; P 1223 255 0 0; P 1225 234 0 0; P 1226 167 0 0;
  P 1228 27 0 0; P 1230 433 0 0; P 1231 105 0 0; P 1233 151 0 0; P 1234 427 0 0; P 1236 49 0 0;
  P 1238 153 0 0; P 1239 4 0 0; P 1241 54 0 0; P 1242 203 0 0; P 1246 25 0 0; P 1247 14 0 0; P 1249 187 0 0;
  P 1252 97 0 0; P 1255 589 0 0; P 1257 289 0 0; P 1260 21 0 0; P 1263 77 0 0; P 1265 119 0 0; P 1266 7 0 0;
  P 1268 345 0 0; P 1270 333 0 0; P 1271 17 0 0; P 1273 168 0 0; P 1276 217 0 0; P 1278 189 0 0;
  P 1279 216 0 0; P 1281 229 0 0; P 1282 231 0 0; P 1284 223 0 0; P 1286 153 0 0; P 1287 470 0 0;
  P 1289 99 0 0; P 1294 201 0 0; P 1295 38 0 0; P 1297 198 0 0; P 1298 399 0 0; P 1300 75 0 0; P 1302 77 0 0;
  P 1305 326 0 0; P 1306 39 0 0; P 1308 495 0 0; P 1310 333 0 0; P 1311 476 0 0; P 1313 164 0 0;
  P 1314 19 0 0; P 1319 129 0 0; P 1321 52 0 0; P 1324 337 0 0; P 1326 397 0 0; P 1327 277 0 0;
  P 1329 73 0 0; P 1332 95 0 0; P 1334 617 0 0; P 1335 392 0 0; P 1337 75 0 0; P 1338 315 0 0;
  P 1340 125 0 0; P 1343 348 0 0; P 1345 553 0 0; P 1348 553 0 0; P 1350 237 0 0; P 1351 39 0 0;
  P 1353 371 0 0; P 1354 255 0 0; P 1356 131 0 0; P 1358 117 0 0; P 1359 98 0 0; P 1361 56 0 0;
  P 1362 655 0 0; P 1364 239 0 0; P 1366 1 0 0; P 1367 134 0 0; P 1369 88 0 0; P 1372 181 0 0;
  P 1374 609 0 0; P 1375 52 0 0; P 1377 100 0 0; P 1380 183 0 0; P 1383 130 0 0; P 1385 12 0 0;
  P 1386 219 0 0; P 1388 11 0 0; P 1390 129 0 0; P 1391 3 0 0; P 1393 300 0 0; P 1396 97 0 0; P 1398 601 0 0;
  P 1399 55 0 0; P 1401 92 0 0; P 1402 127 0 0; P 1404 81 0 0; P 1407 47 0 0; P 1409 194 0 0; P 1410 383 0 0;
  P 1412 125 0 0; P 1414 429 0 0; P 1415 282 0 0; P 1417 342 0 0; P 1420 33 0 0; P 1422 49 0 0;
  P 1423 15 0 0; P 1425 28 0 0; P 1426 103 0 0; P 1428 27 0 0; P 1430 33 0 0; P 1431 17 0 0; P 1433 387 0 0;
  P 1434 363 0 0; P 1436 83 0 0; P 1438 357 0 0; P 1441 322 0 0; P 1442 395 0 0; P 1444 595 0 0;
  P 1446 421 0 0; P 1447 195 0 0; P 1449 13 0 0; P 1452 315 0 0; P 1454 297 0 0; P 1455 52 0 0;
  P 1457 314 0 0; P 1458 243 0 0; P 1460 185 0 0; P 1463 575 0 0; P 1465 39 0 0; P 1466 311 0 0;
  P 1468 181 0 0; P 1470 49 0 0; P 1471 25 0 0; P 1473 77 0 0; P 1476 21 0 0; P 1478 69 0 0; P 1479 49 0 0;
  P 1481 32 0 0; P 1482 411 0 0; P 1486 85 0 0; P 1487 140 0 0; P 1489 252 0 0; P 1490 279 0 0;
  P 1492 307 0 0; P 1495 94 0 0; P 1497 49 0 0; P 1500 25 0 0; P 1503 80 0 0; P 1505 246 0 0; P 1508 599 0 0;
  P 1510 189 0 0; P 1511 278 0 0; P 1513 399 0 0; P 1514 299 0 0; P 1516 277 0 0; P 1518 69 0 0;
  P 1519 220 0 0; P 1521 229 0 0; P 1524 27 0 0; P 1526 473 0 0; P 1527 373 0 0; P 1529 60 0 0;
  P 1530 207 0 0; P 1534 225 0 0; P 1535 404 0 0; P 1537 46 0 0; P 1540 75 0 0; P 1542 365 0 0;
  P 1543 445 0 0; P 1545 44 0 0; P 1548 63 0 0; P 1550 189 0 0; P 1551 557 0 0; P 1553 252 0 0;
  P 1554 99 0 0; P 1556 65 0 0; P 1558 9 0 0; P 1559 119 0 0; P 1561 339 0 0; P 1562 95 0 0; P 1564 7 0 0;
  P 1566 77 0 0; P 1567 127 0 0; P 1569 319 0 0; P 1570 667 0 0; P 1572 501 0 0; P 1575 17 0 0;
  P 1577 341 0 0; P 1578 731 0 0; P 1580 647 0 0; P 1582 121 0 0; P 1583 20 0 0; P 1585 574 0 0;
  P 1586 399 0 0; P 1588 85 0 0; P 1590 169 0 0; P 1591 15 0 0; P 1593 568 0 0; P 1596 3 0 0; P 1599 643 0 0;
  P 1601 548 0 0; P 1602 783 0 0; P 1604 317 0 0; P 1606 153 0 0; P 1607 87 0 0; P 1609 231 0 0;
  P 1612 771 0 0; P 1615 103 0 0; P 1617 182 0 0; P 1618 211 0 0; P 1620 27 0 0; P 1623 17 0 0;
  P 1625 69 0 0; P 1628 603 0 0; P 1630 741 0 0; P 1631 668 0 0; P 1633 147 0 0; P 1634 227 0 0;
  P 1636 37 0 0; P 1638 173 0 0; P 1639 427 0 0; P 1641 287 0 0; P 1642 231 0 0; P 1647 310 0 0;
  P 1649 434 0 0; P 1650 579 0 0; P 1652 45 0 0; P 1655 53 0 0; P 1657 16 0 0; P 1660 37 0 0; P 1663 99 0 0;
  P 1665 176 0 0; P 1666 271 0 0; P 1668 459 0 0; P 1671 202 0 0; P 1673 90 0 0; P 1674 755 0 0;
  P 1676 363 0 0; P 1678 129 0 0; P 1679 20 0 0; P 1681 135 0 0; P 1687 31 0 0; P 1689 758 0 0;
  P 1692 359 0 0; P 1694 501 0 0; P 1695 29 0 0; P 1697 201 0 0; P 1698 459 0 0; P 1700 225 0 0;
  P 1703 161 0 0; P 1705 52 0 0; P 1708 93 0 0; P 1710 201 0 0; P 1711 178 0 0; P 1713 250 0 0;
  P 1716 221 0 0; P 1719 113 0 0; P 1721 300 0 0; P 1722 39 0 0; P 1724 261 0 0; P 1726 753 0 0;
  P 1729 94 0 0; P 1734 461 0 0; P 1735 418 0 0; P 1737 403 0 0; P 1738 267 0 0; P 1740 259 0 0;
  P 1742 869 0 0; P 1743 173 0 0; P 1745 369 0 0; P 1746 255 0 0; P 1748 567 0 0; P 1750 457 0 0;
  P 1751 482 0 0; P 1753 775 0 0; P 1756 99 0 0; P 1759 165 0 0; P 1764 105 0 0; P 1767 250 0 0;
  P 1769 327 0 0; P 1770 279 0 0; P 1772 371 0 0; P 1774 117 0 0; P 1775 486 0 0; P 1777 217 0 0;
  P 1778 635 0 0; P 1780 457 0 0; P 1782 57 0 0; P 1783 439 0 0; P 1785 214 0 0; P 1788 819 0 0;
  P 1790 593 0 0; P 1791 190 0 0; P 1793 114 0 0; P 1798 69 0 0; P 1799 312 0 0; P 1801 502 0 0;
  P 1802 843 0 0; P 1804 747 0 0; P 1806 101 0 0; P 1807 123 0 0; P 1809 521 0 0; P 1810 171 0 0;
  P 1814 545 0 0; P 1815 163 0 0; P 1817 479 0 0; P 1818 495 0 0; P 1820 11 0 0; P 1823 684 0 0;
  P 1825 9 0 0; P 1828 273 0 0; P 1830 381 0 0; P 1831 51 0 0; P 1833 518 0 0; P 1836 243 0 0; P 1838 53 0 0;
  P 1839 836 0 0; P 1841 66 0 0; P 1844 339 0 0; P 1846 901 0 0; P 1847 180 0 0; P 1849 49 0 0;
  P 1854 885 0 0; P 1855 39 0 0; P 1857 688 0 0; P 1860 13 0 0; P 1862 149 0 0; P 1863 260 0 0;
  P 1865 53 0 0; P 1866 11 0 0; P 1870 121 0 0; P 1871 261 0 0; P 1873 199 0 0; P 1878 253 0 0;
  P 1879 174 0 0; P 1881 370 0 0; P 1884 669 0 0; P 1886 833 0 0; P 1887 353 0 0; P 1889 29 0 0;
  P 1890 371 0 0; P 1895 873 0 0; P 1900 235 0 0; P 1902 733 0 0; P 1903 778 0 0; P 1905 344 0 0;
  P 1906 931 0 0; P 1908 945 0 0; P 1911 67 0 0; P 1913 462 0 0; P 1918 477 0 0; P 1919 105 0 0;
  P 1921 468 0 0; P 1924 327 0 0; P 1926 357 0 0; P 1927 25 0 0; P 1929 31 0 0; P 1932 277 0 0;
  P 1934 413 0 0; P 1935 103 0 0; P 1937 231 0 0; P 1938 747 0 0; P 1940 113 0 0; P 1943 11 0 0;
  P 1945 91 0 0; P 1946 51 0 0; P 1948 603 0 0; P 1950 9 0 0; P 1951 121 0 0; P 1953 17 0 0; P 1956 279 0 0;
  P 1958 89 0 0; P 1959 371 0 0; P 1961 771 0 0; P 1962 99 0 0; P 1964 21 0 0; P 1966 801 0 0; P 1967 26 0 0;
  P 1969 175 0 0; P 1974 165 0 0; P 1975 841 0 0; P 1977 238 0 0; P 1980 33 0 0; P 1983 113 0 0;
  P 1985 311 0 0; P 1986 891 0 0; P 1988 555 0 0; P 1990 133 0 0; P 1991 546 0 0; P 1993 103 0 0;
  P 1994 15 0 0; P 1996 307 0 0; P 1999 367 0 0].

(** src/math/poly.c:1074-2397, 3968 entries *)
Definition hp_pentanomials : list polynomial := [
  P 8 4 3 1; P 13 4 3 1; P 16 5 3 1; P 19 5 2 1; P 24 4 3 1; P 26 4 3 1; P 27 5 2 1; P 32 7 3 2; P 37 6 4 1;
  P 38 6 5 1; P 40 5 4 3; P 43 6 4 3; P 45 4 3 1; P 48 5 3 2; P 50 4 3 2; P 51 6 3 1; P 53 6 2 1; P 56 7 4 2;
  P 59 7 4 2; P 61 5 2 1; P 64 4 3 1; P 67 5 2 1; P 69 6 5 2; P 70 5 3 1; P 72 10 9 3; P 75 6 3 1;
  P 77 6 5 2; P 78 6 5 3; P 80 9 4 2; P 82 8 3 1; P 83 7 4 2; P 85 8 2 1; P 88 7 6 2; P 91 8 5 1;
  P 96 10 9 6; P 99 6 3 1; P 101 7 6 1; P 104 4 3 1; P 107 9 7 4; P 109 5 4 2; P 112 5 4 3; P 114 5 3 2;
  P 115 8 7 5; P 116 4 2 1; P 117 5 2 1; P 120 4 3 1; P 122 6 2 1; P 125 7 6 5; P 128 7 2 1; P 131 8 3 2;
  P 133 9 8 2; P 136 5 3 2; P 138 8 7 1; P 139 8 5 3; P 141 10 4 1; P 143 5 3 2; P 144 7 4 2; P 149 10 9 7;
  P 152 6 3 2; P 157 6 5 2; P 158 8 6 5; P 2002 22 21 11; P 2003 12 10 8; P 2005 17 12 7; P 2008 26 23 13;
  P 2011 17 15 4; P 2012 19 15 4; P 2013 5 4 2; P 2014 9 7 6; P 2016 21 15 7; P 2018 20 7 3; P 2019 20 7 2;
  P 2021 19 14 1; P 2024 40 35 9; P 2027 11 10 3; P 2029 12 7 4; P 2030 13 12 2; P 2032 7 6 2; P 2035 9 8 4;
  P 2037 19 18 3; P 2038 16 11 6; P 2040 7 2 1; P 2042 16 8 7; P 2043 9 7 4; P 2045 7 6 4; P 2046 12 11 3;
  P 2048 19 14 13; P 2050 15 13 8; P 2051 13 6 5; P 2053 21 13 6; P 2056 13 12 3; P 2059 14 12 10;
  P 2061 19 4 1; P 2062 16 3 2; P 2064 17 9 2; P 2067 17 13 8; P 2068 18 10 7; P 2069 18 9 8; P 2071 11 5 3;
  P 2072 13 10 3; P 2075 9 7 4; P 2077 15 14 4; P 2078 16 6 5; P 2080 4 3 1; P 2083 21 11 10; P 2084 4 2 1;
  P 2085 9 8 3; P 2088 18 11 5; P 2090 9 4 1; P 2091 12 9 5; P 2092 17 15 7; P 2093 16 15 7; P 2096 19 4 2;
  P 2099 15 12 9; P 2101 25 22 9; P 2104 19 15 9; P 2107 17 10 2; P 2108 21 5 3; P 2109 10 5 1;
  P 2110 12 9 6; P 2112 16 13 7; P 2115 11 10 1; P 2117 24 16 11; P 2120 17 14 6; P 2123 14 11 3;
  P 2125 24 17 14; P 2128 23 9 1; P 2131 13 6 5; P 2133 24 22 4; P 2134 23 13 2; P 2136 15 12 9;
  P 2138 13 9 2; P 2139 14 4 1; P 2141 16 3 1; P 2144 13 7 3; P 2147 8 3 2; P 2149 17 9 2; P 2152 24 13 7;
  P 2154 10 7 5; P 2155 10 9 8; P 2157 14 4 1; P 2160 31 25 14; P 2163 12 9 7; P 2165 10 4 2; P 2168 11 9 3;
  P 2171 7 6 4; P 2172 6 4 1; P 2173 15 8 4; P 2176 15 8 1; P 2179 8 7 2; P 2181 18 12 7; P 2184 11 10 5;
  P 2187 22 11 1; P 2189 19 8 7; P 2192 8 5 3; P 2194 15 13 9; P 2195 23 22 16; P 2197 6 5 2; P 2200 20 15 5;
  P 2202 15 3 2; P 2203 14 6 5; P 2204 11 7 1; P 2205 14 7 4; P 2208 21 16 6; P 2211 20 14 3; P 2213 20 19 4;
  P 2216 24 7 2; P 2219 22 12 11; P 2221 17 16 6; P 2223 17 6 2; P 2224 21 19 5; P 2226 19 16 7;
  P 2227 14 9 8; P 2229 17 8 7; P 2232 19 17 4; P 2234 7 6 1; P 2235 20 17 11; P 2237 7 4 2; P 2240 23 7 1;
  P 2243 27 15 2; P 2245 22 12 11; P 2246 23 15 6; P 2248 9 4 3; P 2251 19 16 13; P 2253 19 14 2;
  P 2254 10 9 2; P 2256 14 9 6; P 2259 16 10 6; P 2260 12 4 1; P 2261 14 12 7; P 2264 15 7 2; P 2267 18 17 8;
  P 2269 15 10 7; P 2272 21 10 9; P 2275 15 12 1; P 2277 10 4 2; P 2278 17 14 7; P 2280 13 4 2;
  P 2283 20 13 4; P 2285 8 6 2; P 2288 17 16 7; P 2290 23 6 5; P 2291 13 10 2; P 2293 10 8 3;
  P 2294 21 17 10; P 2296 15 10 1; P 2298 15 13 3; P 2299 16 6 1; P 2301 15 9 8; P 2302 15 8 1; P 2304 8 7 5;
  P 2307 11 7 2; P 2309 12 10 8; P 2312 19 6 4; P 2315 17 15 4; P 2317 17 4 2; P 2320 13 11 5; P 2323 16 3 2;
  P 2325 14 8 5; P 2326 13 10 7; P 2328 15 9 2; P 2330 15 5 1; P 2333 18 15 8; P 2336 15 10 8; P 2339 10 3 2;
  P 2341 24 18 16; P 2344 27 26 14; P 2347 11 10 2; P 2349 31 16 9; P 2350 21 19 4; P 2352 23 20 2;
  P 2354 14 11 6; P 2355 12 11 6; P 2357 10 9 8; P 2360 19 10 8; P 2362 13 10 6; P 2363 9 7 4;
  P 2365 21 14 5; P 2366 16 13 6; P 2368 13 11 8; P 2370 12 11 6; P 2371 20 18 17; P 2373 17 14 5;
  P 2374 24 16 13; P 2376 7 5 4; P 2379 22 9 3; P 2381 18 12 2; P 2384 21 19 1; P 2386 11 9 1; P 2387 8 7 6;
  P 2389 31 12 10; P 2392 31 13 3; P 2395 17 8 7; P 2397 22 17 4; P 2398 15 13 11; P 2400 20 19 17;
  P 2403 11 8 2; P 2405 17 14 5; P 2406 14 12 5; P 2408 23 6 4; P 2411 12 2 1; P 2413 11 6 1; P 2416 23 6 5;
  P 2419 22 16 6; P 2421 11 8 4; P 2424 21 16 6; P 2426 20 4 3; P 2427 8 6 5; P 2429 22 14 7;
  P 2432 29 22 19; P 2435 18 6 2; P 2437 9 4 3; P 2440 12 7 5; P 2443 15 13 4; P 2445 23 20 10;
  P 2446 18 13 6; P 2448 21 10 4; P 2451 10 4 3; P 2453 21 14 11; P 2456 12 5 3; P 2458 23 20 18;
  P 2459 17 7 4; P 2461 19 18 10; P 2462 22 13 8; P 2464 5 4 3; P 2467 18 14 2; P 2469 26 16 11;
  P 2471 15 6 3; P 2472 12 3 1; P 2475 12 11 9; P 2476 17 3 2; P 2477 19 17 6; P 2480 20 5 2; P 2482 11 7 6;
  P 2483 12 11 2; P 2486 19 14 9; P 2488 23 13 9; P 2490 8 7 5; P 2491 25 16 12; P 2493 18 15 7;
  P 2494 13 8 2; P 2496 12 3 1; P 2498 8 7 4; P 2499 13 12 9; P 2501 22 21 5; P 2504 19 8 6; P 2506 17 11 3;
  P 2507 13 8 1; P 2509 14 13 3; P 2512 29 21 7; P 2515 8 7 5; P 2517 14 4 1; P 2518 18 13 2;
  P 2520 31 15 13; P 2522 16 10 5; P 2523 23 17 14; P 2524 15 6 4; P 2525 7 6 5; P 2528 19 9 4;
  P 2530 14 5 3; P 2531 6 2 1; P 2532 26 22 13; P 2533 10 3 1; P 2535 24 19 16; P 2536 21 10 9;
  P 2539 10 9 3; P 2541 11 8 7; P 2544 21 20 6; P 2547 22 10 3; P 2549 10 9 5; P 2552 28 3 2; P 2555 9 6 2;
  P 2557 18 17 7; P 2558 18 8 1; P 2560 9 3 1; P 2563 12 11 10; P 2565 25 16 14; P 2568 8 5 2;
  P 2570 18 15 14; P 2571 18 16 9; P 2573 12 11 3; P 2576 7 2 1; P 2578 15 7 3; P 2579 23 6 1;
  P 2581 26 14 12; P 2582 22 19 15; P 2584 25 19 12; P 2587 23 12 10; P 2588 13 8 1; P 2589 29 11 10;
  P 2592 15 12 5; P 2595 24 17 2; P 2597 16 8 7; P 2600 14 13 7; P 2602 11 6 1; P 2603 18 8 7;
  P 2605 19 14 5; P 2608 15 11 2; P 2611 27 17 10; P 2612 21 14 6; P 2613 14 12 9; P 2616 17 8 7;
  P 2619 17 10 1; P 2621 8 7 1; P 2622 11 5 3; P 2624 15 10 4; P 2627 20 17 11; P 2629 13 9 6; P 2632 19 5 3;
  P 2634 20 11 5; P 2635 25 21 14; P 2636 18 11 10; P 2637 9 6 4; P 2638 10 3 1; P 2640 23 11 9;
  P 2643 16 13 10; P 2645 18 11 10; P 2648 15 8 1; P 2650 17 13 5; P 2651 7 5 4; P 2653 17 4 2;
  P 2654 20 16 13; P 2656 19 11 5; P 2658 6 3 2; P 2659 20 18 16; P 2661 17 14 2; P 2662 14 12 7;
  P 2664 27 21 19; P 2669 18 4 2; P 2672 18 7 1; P 2675 13 10 9; P 2677 17 8 6; P 2678 15 6 5; P 2680 15 9 4;
  P 2683 11 6 1; P 2684 14 12 3; P 2685 8 2 1; P 2688 21 10 6; P 2690 12 9 3; P 2691 14 10 8; P 2693 10 5 3;
  P 2696 17 15 12; P 2699 32 30 29; P 2701 12 10 5; P 2704 12 9 7; P 2705 12 10 5; P 2707 9 6 4;
  P 2709 10 9 3; P 2710 7 3 1; P 2712 21 12 7; P 2714 12 8 7; P 2715 30 26 15; P 2717 14 8 3; P 2720 25 18 1;
  P 2723 9 6 5; P 2725 21 17 2; P 2726 10 6 1; P 2728 21 7 5; P 2731 15 11 2; P 2733 19 8 7; P 2734 9 5 4;
  P 2736 16 3 1; P 2739 12 9 5; P 2741 6 5 4; P 2744 19 18 10; P 2746 9 7 2; P 2747 15 11 6; P 2749 22 18 17;
  P 2752 15 4 2; P 2755 13 7 6; P 2757 24 23 12; P 2758 17 5 4; P 2760 29 26 7; P 2763 12 10 6;
  P 2765 16 10 3; P 2768 25 19 15; P 2771 13 12 5; P 2773 30 25 20; P 2774 28 3 2; P 2776 7 3 2;
  P 2777 22 21 17; P 2779 20 17 9; P 2781 28 27 10; P 2782 22 10 9; P 2784 29 21 15; P 2787 19 18 3;
  P 2788 21 16 2; P 2789 14 12 8; P 2792 12 7 2; P 2794 11 9 4; P 2795 10 8 4; P 2797 19 6 1; P 2798 20 14 5;
  P 2800 17 14 6; P 2802 18 14 3; P 2803 18 16 13; P 2805 24 8 2; P 2808 15 13 1; P 2810 23 10 9;
  P 2811 10 9 7; P 2813 13 7 6; P 2816 21 19 8; P 2818 15 9 1; P 2819 10 6 5; P 2821 16 6 4; P 2822 18 17 3;
  P 2824 15 14 10; P 2827 19 10 6; P 2829 9 6 4; P 2830 17 15 13; P 2832 27 18 1; P 2834 15 13 7;
  P 2835 20 13 5; P 2837 17 8 3; P 2838 20 4 1; P 2840 20 15 9; P 2843 7 3 2; P 2845 10 9 1; P 2846 23 15 4;
  P 2848 15 8 1; P 2851 10 7 1; P 2853 14 8 1; P 2856 15 13 3; P 2858 17 9 7; P 2859 29 20 11;
  P 2861 20 16 10; P 2864 21 17 15; P 2866 9 7 2; P 2867 15 13 10; P 2869 8 6 1; P 2870 12 11 1;
  P 2872 21 5 2; P 2874 13 6 3; P 2875 20 16 2; P 2877 10 7 4; P 2880 13 10 6; P 2883 16 13 12;
  P 2885 13 11 6; P 2886 20 14 9; P 2888 11 4 1; P 2891 16 15 10; P 2893 27 7 2; P 2894 16 14 9;
  P 2896 29 6 1; P 2899 19 10 1; P 2901 11 3 2; P 2902 14 10 9; P 2904 27 15 6; P 2907 17 14 1;
  P 2908 19 13 10; P 2909 23 22 4; P 2912 16 9 2; P 2915 18 7 5; P 2917 16 15 4; P 2920 19 9 5;
  P 2923 11 6 5; P 2924 12 4 1; P 2925 12 4 3; P 2926 20 14 1; P 2928 24 21 11; P 2930 9 4 1; P 2931 13 8 1;
  P 2932 14 7 6; P 2933 15 14 13; P 2935 13 12 7; P 2936 5 3 2; P 2939 30 17 5; P 2941 23 18 17;
  P 2944 5 3 2; P 2947 22 20 11; P 2948 17 3 2; P 2949 17 7 4; P 2952 17 13 2; P 2954 9 6 5; P 2955 12 10 6;
  P 2957 19 14 3; P 2958 23 13 5; P 2960 12 3 2; P 2963 21 14 5; P 2965 25 22 15; P 2968 29 27 4;
  P 2971 18 13 2; P 2973 18 10 4; P 2974 11 3 1; P 2976 21 10 3; P 2979 12 11 6; P 2981 13 2 1;
  P 2984 17 9 6; P 2987 8 3 2; P 2989 18 9 7; P 2990 26 22 9; P 2992 23 3 1; P 2995 9 6 4; P 2997 12 6 5;
  P 3000 15 12 9; P 3002 22 21 10; P 3003 12 11 5; P 3005 14 12 5; P 3006 15 9 6; P 3008 15 13 1;
  P 3010 25 12 10; P 3011 22 8 6; P 3013 23 6 2; P 3014 17 15 5; P 3016 38 25 9; P 3019 16 6 1;
  P 3021 22 10 1; P 3022 14 12 1; P 3024 32 3 2; P 3026 19 18 13; P 3027 17 16 4; P 3029 11 6 4;
  P 3030 12 9 4; P 3032 17 15 4; P 3035 21 20 2; P 3037 7 6 3; P 3040 27 21 3; P 3043 18 16 15;
  P 3045 17 14 11; P 3047 19 15 4; P 3048 18 3 2; P 3051 19 17 16; P 3053 22 20 15; P 3054 21 4 3;
  P 3055 13 7 1; P 3056 5 4 3; P 3059 15 10 1; P 3061 22 15 1; P 3064 25 11 9; P 3067 18 16 13;
  P 3069 34 26 19; P 3070 20 13 8; P 3072 11 10 5; P 3074 17 9 3; P 3075 16 14 10; P 3077 12 10 8;
  P 3080 21 19 16; P 3082 9 6 1; P 3083 23 20 18; P 3085 25 14 12; P 3088 20 13 11; P 3091 12 7 5;
  P 3093 14 11 8; P 3096 33 29 14; P 3098 18 17 11; P 3099 14 13 11; P 3101 10 7 3; P 3104 23 9 5;
  P 3106 6 2 1; P 3107 14 12 11; P 3109 26 20 19; P 3112 17 15 1; P 3114 19 15 4; P 3115 25 18 16;
  P 3117 19 8 4; P 3120 18 17 11; P 3122 22 7 6; P 3123 15 10 4; P 3125 24 21 18; P 3128 30 19 11;
  P 3131 22 8 7; P 3133 6 4 3; P 3136 15 12 10; P 3138 29 19 13; P 3139 14 11 10; P 3141 23 18 12;
  P 3144 23 21 8; P 3146 18 11 6; P 3147 17 10 7; P 3149 22 3 2; P 3152 21 17 6; P 3154 19 17 6;
  P 3155 15 12 2; P 3157 24 14 10; P 3158 19 9 5; P 3160 7 6 2; P 3163 18 13 10; P 3165 17 13 10;
  P 3166 18 10 1; P 3168 33 31 18; P 3171 19 14 13; P 3173 20 17 14; P 3176 13 10 5; P 3179 22 12 2;
  P 3181 12 10 3; P 3184 11 10 2; P 3187 9 8 2; P 3189 19 18 12; P 3190 12 4 1; P 3192 25 8 7;
  P 3195 19 14 1; P 3197 22 16 14; P 3200 11 6 4; P 3202 24 12 3; P 3203 14 7 3; P 3205 17 9 2;
  P 3206 15 8 6; P 3208 16 13 3; P 3211 12 10 5; P 3213 30 16 1; P 3216 21 11 3; P 3218 10 9 8;
  P 3219 24 10 3; P 3221 11 6 5; P 3224 23 19 1; P 3226 9 7 5; P 3227 8 7 6; P 3229 12 9 7; P 3231 15 9 8;
  P 3232 12 9 7; P 3235 21 11 8; P 3237 19 8 4; P 3240 12 3 2; P 3242 27 13 7; P 3243 22 13 5;
  P 3245 11 10 4; P 3248 15 8 1; P 3250 15 11 8; P 3251 9 6 5; P 3253 10 5 3; P 3256 31 26 2; P 3259 22 4 1;
  P 3261 18 12 10; P 3262 15 13 7; P 3264 17 5 2; P 3265 18 16 7; P 3266 19 2 1; P 3267 20 19 10;
  P 3269 22 3 2; P 3272 23 10 1; P 3275 24 13 10; P 3277 25 22 1; P 3278 22 12 1; P 3280 16 15 6;
  P 3283 30 28 21; P 3284 24 17 13; P 3285 18 4 1; P 3288 21 18 11; P 3290 11 7 3; P 3291 18 7 1;
  P 3293 20 18 15; P 3296 19 14 13; P 3299 18 17 14; P 3301 24 10 4; P 3304 19 17 3; P 3307 15 10 2;
  P 3309 23 20 6; P 3312 14 9 3; P 3315 12 8 2; P 3317 22 17 7; P 3320 17 10 4; P 3323 28 14 10;
  P 3325 25 19 10; P 3328 17 9 2; P 3331 18 17 11; P 3333 16 8 7; P 3334 6 4 1; P 3336 11 10 5;
  P 3339 22 16 12; P 3340 11 7 5; P 3341 25 19 12; P 3342 9 6 5; P 3344 30 27 15; P 3346 15 6 1;
  P 3347 23 18 16; P 3349 20 19 17; P 3352 21 20 19; P 3354 10 9 3; P 3355 10 6 4; P 3357 24 17 15;
  P 3358 19 8 6; P 3360 18 15 5; P 3361 12 10 4; P 3362 11 7 4; P 3363 14 10 2; P 3365 24 15 2; P 3368 7 5 1;
  P 3370 15 10 1; P 3371 30 29 18; P 3373 14 6 4; P 3376 11 9 1; P 3379 25 20 9; P 3381 7 4 1; P 3384 21 9 3;
  P 3386 19 9 2; P 3387 26 25 16; P 3389 17 15 4; P 3392 23 13 6; P 3394 13 12 3; P 3395 22 10 6;
  P 3396 13 6 1; P 3397 19 4 1; P 3400 14 13 6; P 3403 15 12 6; P 3405 24 9 2; P 3406 22 13 12;
  P 3408 16 15 6; P 3411 14 8 5; P 3413 14 9 6; P 3416 28 27 1; P 3419 12 9 3; P 3421 19 14 5;
  P 3424 22 15 6; P 3427 16 12 1; P 3428 17 16 13; P 3429 16 12 6; P 3432 25 2 1; P 3433 28 25 12;
  P 3434 14 13 12; P 3435 15 14 5; P 3437 18 16 10; P 3440 27 16 1; P 3442 8 7 3; P 3443 26 19 3;
  P 3445 21 5 2; P 3446 21 17 8; P 3448 17 11 6; P 3450 11 8 3; P 3451 19 14 9; P 3453 16 6 1;
  P 3454 25 23 21; P 3456 19 18 9; P 3459 19 18 12; P 3461 20 10 7; P 3464 11 6 3; P 3467 28 26 6;
  P 3469 38 16 6; P 3472 17 14 7; P 3475 30 16 13; P 3477 16 15 12; P 3480 19 15 13; P 3482 15 5 4;
  P 3483 12 5 2; P 3485 8 7 4; P 3488 12 11 1; P 3490 16 12 3; P 3491 19 14 7; P 3493 19 18 1;
  P 3494 25 19 9; P 3496 35 21 4; P 3499 29 24 4; P 3501 15 8 2; P 3502 15 13 6; P 3504 23 17 10;
  P 3506 13 5 3; P 3507 21 14 6; P 3508 10 7 6; P 3509 23 12 7; P 3512 37 35 6; P 3514 11 9 4;
  P 3515 17 10 9; P 3517 22 14 12; P 3518 16 14 9; P 3520 32 29 3; P 3523 23 12 2; P 3525 10 7 5;
  P 3526 12 11 10; P 3528 25 18 7; P 3530 10 9 5; P 3531 18 3 1; P 3533 30 3 2; P 3536 12 7 5; P 3538 13 6 5;
  P 3539 16 2 1; P 3541 23 7 2; P 3544 21 14 2; P 3547 26 23 12; P 3549 14 6 3; P 3552 15 9 6; P 3553 13 3 2;
  P 3554 24 23 17; P 3555 28 25 15; P 3557 14 8 5; P 3560 17 3 2; P 3563 18 15 6; P 3565 22 17 12;
  P 3566 8 6 1; P 3567 24 20 12; P 3568 21 12 10; P 3571 30 13 3; P 3573 13 8 2; P 3576 19 10 3;
  P 3578 17 9 5; P 3579 20 14 6; P 3581 22 15 2; P 3584 25 12 10; P 3586 19 14 8; P 3587 26 6 5;
  P 3589 30 28 8; P 3592 38 33 14; P 3595 28 14 2; P 3597 22 9 3; P 3598 24 5 1; P 3600 9 5 2; P 3602 10 2 1;
  P 3603 23 11 6; P 3605 8 7 4; P 3608 15 14 10; P 3610 12 5 2; P 3611 18 7 1; P 3613 17 7 6; P 3616 25 18 7;
  P 3619 13 12 5; P 3621 22 21 16; P 3623 10 9 7; P 3624 29 27 12; P 3626 26 25 13; P 3627 7 6 4;
  P 3629 15 10 2; P 3632 26 17 5; P 3635 15 8 2; P 3637 7 6 5; P 3638 28 8 1; P 3640 20 15 10;
  P 3643 14 13 8; P 3645 21 14 6; P 3646 20 17 6; P 3648 23 7 2; P 3651 15 13 6; P 3653 10 9 8;
  P 3656 17 12 11; P 3659 18 13 2; P 3661 16 11 6; P 3664 35 24 14; P 3666 30 20 11; P 3667 15 6 4;
  P 3669 22 7 4; P 3670 23 4 3; P 3672 19 17 8; P 3674 27 15 11; P 3675 30 10 9; P 3677 25 20 7;
  P 3680 14 13 7; P 3683 15 13 10; P 3685 9 4 3; P 3688 32 13 11; P 3691 26 9 2; P 3692 6 5 3;
  P 3693 26 20 18; P 3696 36 33 22; P 3699 24 21 5; P 3701 4 2 1; P 3704 14 13 1; P 3707 11 6 1;
  P 3709 16 14 6; P 3712 13 12 7; P 3715 20 18 11; P 3716 24 11 4; P 3717 18 15 4; P 3718 23 18 10;
  P 3720 17 15 11; P 3722 15 7 5; P 3723 18 6 4; P 3724 10 9 8; P 3725 21 14 8; P 3728 9 4 2; P 3731 26 20 5;
  P 3733 8 7 3; P 3736 33 22 18; P 3739 18 10 5; P 3741 16 15 4; P 3742 25 18 11; P 3744 27 14 2;
  P 3746 22 9 7; P 3747 32 22 11; P 3748 19 11 8; P 3749 15 4 1; P 3752 9 4 2; P 3755 15 13 8;
  P 3757 18 16 5; P 3758 21 20 9; P 3760 23 9 1; P 3763 23 10 2; P 3765 28 19 12; P 3766 21 15 1;
  P 3768 14 7 2; P 3771 13 10 9; P 3773 10 9 4; P 3774 24 9 4; P 3776 7 5 4; P 3778 9 5 1; P 3779 23 8 2;
  P 3781 10 9 6; P 3784 29 13 6; P 3787 14 6 1; P 3789 16 15 4; P 3790 22 21 17; P 3792 20 7 5;
  P 3794 17 4 3; P 3795 8 7 5; P 3797 16 8 6; P 3800 24 23 21; P 3802 16 15 8; P 3803 18 15 6;
  P 3805 18 12 9; P 3806 9 7 5; P 3808 29 18 4; P 3811 9 8 4; P 3813 11 8 7; P 3814 22 21 11; P 3816 19 13 9;
  P 3818 17 8 6; P 3819 16 6 3; P 3820 20 11 3; P 3821 8 7 6; P 3824 19 13 2; P 3826 23 8 1; P 3827 18 13 8;
  P 3829 13 9 6; P 3832 35 13 2; P 3835 15 5 4; P 3837 22 18 3; P 3840 27 9 1; P 3843 16 5 2; P 3845 11 10 9;
  P 3848 29 18 13; P 3851 29 24 19; P 3853 12 7 5; P 3856 39 25 3; P 3859 14 8 7; P 3861 31 10 2;
  P 3862 18 16 5; P 3864 19 15 9; P 3867 20 14 6; P 3868 13 12 9; P 3869 24 22 13; P 3872 10 3 2;
  P 3874 20 8 3; P 3875 11 10 4; P 3877 17 11 4; P 3878 19 9 2; P 3880 27 5 1; P 3883 20 9 2; P 3885 15 8 3;
  P 3888 45 42 6; P 3890 20 19 10; P 3891 17 9 2; P 3893 16 13 2; P 3896 15 7 5; P 3898 25 9 1;
  P 3899 21 20 12; P 3901 26 6 1; P 3904 17 13 2; P 3907 15 4 1; P 3909 14 12 11; P 3910 28 22 13;
  P 3912 24 11 2; P 3915 25 22 9; P 3917 16 12 11; P 3920 15 13 8; P 3922 26 21 1; P 3923 24 21 3;
  P 3925 18 16 5; P 3926 17 16 12; P 3928 8 7 5; P 3931 23 9 4; P 3933 30 19 3; P 3934 28 12 5;
  P 3935 20 15 8; P 3936 15 5 3; P 3939 28 19 10; P 3940 21 5 2; P 3941 19 11 6; P 3944 31 29 28;
  P 3947 22 10 5; P 3949 28 22 3; P 3952 11 6 5; P 3955 24 8 5; P 3957 18 16 10; P 3958 27 4 2;
  P 3960 29 15 2; P 3963 13 8 1; P 3965 14 3 2; P 3968 25 18 14; P 3971 10 7 2; P 3973 13 11 8;
  P 3976 36 3 1; P 3978 19 9 7; P 3979 25 9 2; P 3980 16 9 4; P 3981 21 11 8; P 3982 21 13 8; P 3984 19 5 2;
  P 3986 12 8 7; P 3987 11 4 2; P 3989 6 5 2; P 3992 27 8 6; P 3994 19 12 9; P 3995 12 9 8; P 3997 16 13 3;
  P 4000 31 18 17; P 4002 24 11 6; P 4003 14 12 5; P 4005 17 12 2; P 4006 17 6 1; P 4008 24 9 6;
  P 4010 18 15 2; P 4011 28 15 9; P 4012 21 20 8; P 4013 18 17 15; P 4016 33 32 23; P 4019 7 6 1;
  P 4021 24 19 16; P 4022 7 4 2; P 4024 16 9 7; P 4026 23 20 10; P 4027 9 7 4; P 4028 22 12 7;
  P 4029 14 11 4; P 4032 15 13 6; P 4035 25 16 1; P 4037 21 14 10; P 4040 29 20 15; P 4042 23 21 13;
  P 4043 6 5 1; P 4045 22 12 10; P 4048 21 5 2; P 4051 24 14 7; P 4053 17 14 5; P 4056 21 17 6;
  P 4059 13 6 3; P 4061 28 20 10; P 4064 33 29 7; P 4067 24 8 5; P 4069 18 9 1; P 4072 13 10 6;
  P 4075 21 10 6; P 4076 19 15 7; P 4077 24 18 2; P 4078 29 18 16; P 4080 15 9 6; P 4082 16 10 3;
  P 4083 19 10 4; P 4085 12 11 6; P 4088 15 7 2; P 4091 23 12 10; P 4093 23 22 18; P 4096 27 15 1;
  P 4099 19 18 2; P 4101 18 10 6; P 4104 30 13 3; P 4107 27 6 2; P 4109 19 12 1; P 4110 16 12 1;
  P 4112 23 12 1; P 4115 16 12 1; P 4117 19 18 13; P 4118 22 12 1; P 4120 26 17 9; P 4121 12 6 3;
  P 4123 10 9 1; P 4128 31 2 1; P 4130 21 7 5; P 4131 18 14 5; P 4133 19 14 12; P 4136 31 29 15;
  P 4139 15 7 2; P 4141 28 23 2; P 4144 15 10 1; P 4147 14 10 5; P 4149 28 8 2; P 4152 25 13 3;
  P 4153 20 13 5; P 4155 17 10 7; P 4157 19 17 10; P 4160 27 18 12; P 4163 22 15 5; P 4165 18 13 2;
  P 4168 17 10 6; P 4171 24 8 1; P 4172 13 9 5; P 4173 16 12 10; P 4176 26 15 5; P 4178 18 2 1;
  P 4179 14 6 3; P 4181 26 18 1; P 4184 29 15 7; P 4187 15 14 6; P 4189 16 10 1; P 4190 11 7 6;
  P 4192 15 11 5; P 4194 18 5 2; P 4195 21 13 2; P 4197 16 13 6; P 4198 19 14 6; P 4200 12 5 2;
  P 4203 10 4 1; P 4205 8 4 3; P 4208 15 6 3; P 4211 14 12 6; P 4213 18 15 10; P 4216 13 3 2; P 4219 24 6 4;
  P 4221 13 10 3; P 4222 18 10 1; P 4224 8 3 2; P 4226 30 23 10; P 4227 19 11 2; P 4229 7 6 1;
  P 4232 18 13 7; P 4235 15 3 2; P 4237 21 19 14; P 4240 31 6 1; P 4243 14 12 10; P 4245 26 20 15;
  P 4248 11 6 2; P 4250 7 6 4; P 4251 23 18 17; P 4252 28 10 7; P 4253 21 12 11; P 4254 11 5 3;
  P 4256 15 13 8; P 4258 9 7 5; P 4259 17 12 7; P 4261 23 20 18; P 4264 15 14 5; P 4267 24 8 2;
  P 4269 19 17 16; P 4270 18 11 7; P 4272 11 8 1; P 4275 13 12 10; P 4277 26 3 1; P 4280 17 14 5;
  P 4283 30 27 15; P 4285 20 18 11; P 4286 12 5 4; P 4288 5 4 3; P 4291 18 14 10; P 4292 22 18 7;
  P 4293 20 19 17; P 4294 9 8 7; P 4296 14 5 2; P 4297 15 4 2; P 4298 30 24 11; P 4299 17 16 14;
  P 4301 12 11 2; P 4304 12 7 2; P 4306 9 5 1; P 4307 28 24 2; P 4309 23 15 10; P 4310 13 10 2;
  P 4312 21 5 2; P 4315 9 8 4; P 4317 20 18 11; P 4320 21 20 14; P 4323 16 6 3; P 4325 22 16 12;
  P 4328 20 17 15; P 4331 12 9 2; P 4333 21 17 10; P 4334 17 12 6; P 4336 18 11 5; P 4339 25 22 16;
  P 4341 28 14 11; P 4344 8 7 5; P 4347 10 8 5; P 4349 13 11 10; P 4352 33 27 20; P 4354 11 5 3;
  P 4355 24 23 14; P 4357 16 7 6; P 4360 21 4 2; P 4363 15 8 2; P 4365 22 12 10; P 4368 27 12 6;
  P 4370 26 15 11; P 4371 18 15 5; P 4373 8 7 1; P 4376 18 7 1; P 4379 16 13 8; P 4381 22 19 12;
  P 4384 27 19 17; P 4385 19 17 10; P 4387 23 18 4; P 4388 18 8 5; P 4389 15 10 3; P 4392 20 19 5;
  P 4393 15 13 9; P 4395 33 25 18; P 4397 25 18 11; P 4400 37 35 3; P 4403 15 14 4; P 4405 21 13 2;
  P 4407 21 3 2; P 4408 9 8 7; P 4411 22 6 3; P 4413 23 22 20; P 4414 19 6 4; P 4416 31 10 6; P 4418 23 19 7;
  P 4419 13 11 8; P 4421 32 22 18; P 4424 21 19 13; P 4426 11 6 1; P 4427 27 22 16; P 4429 16 6 4;
  P 4430 14 4 1; P 4432 25 5 3; P 4435 12 5 2; P 4437 20 8 2; P 4438 8 6 1; P 4440 26 21 14; P 4443 16 6 4;
  P 4448 11 9 8; P 4451 17 12 8; P 4453 26 15 2; P 4456 24 9 7; P 4459 13 9 6; P 4461 15 10 6;
  P 4462 21 16 3; P 4464 13 3 1; P 4467 30 29 11; P 4469 19 18 16; P 4472 30 7 2; P 4475 16 5 3;
  P 4477 37 22 4; P 4478 25 21 8; P 4480 28 21 15; P 4483 8 7 2; P 4485 8 2 1; P 4488 38 35 13;
  P 4491 18 7 3; P 4493 22 8 1; P 4496 17 10 7; P 4498 23 8 1; P 4499 27 8 5; P 4501 7 6 1; P 4503 7 5 1;
  P 4504 12 9 6; P 4506 13 9 3; P 4507 14 9 4; P 4509 14 5 4; P 4510 20 13 9; P 4512 12 3 1; P 4515 8 6 3;
  P 4517 21 16 11; P 4520 39 25 23; P 4523 17 12 7; P 4525 16 11 8; P 4528 23 13 9; P 4531 8 5 1;
  P 4532 25 22 20; P 4533 15 4 1; P 4536 25 11 7; P 4539 11 8 6; P 4541 12 11 2; P 4544 25 14 7;
  P 4546 27 23 16; P 4547 6 5 1; P 4549 23 12 7; P 4552 34 27 18; P 4555 25 22 12; P 4556 26 21 12;
  P 4560 14 13 7; P 4563 20 11 1; P 4565 18 6 2; P 4568 22 17 6; P 4571 10 6 1; P 4573 24 15 6;
  P 4576 26 19 9; P 4577 9 8 4; P 4579 10 6 2; P 4580 21 12 5; P 4581 27 13 10; P 4582 14 12 1;
  P 4584 19 15 9; P 4587 13 6 1; P 4589 26 18 16; P 4592 21 16 11; P 4593 22 16 12; P 4594 30 11 4;
  P 4595 15 14 1; P 4597 34 13 12; P 4598 32 28 9; P 4600 17 14 1; P 4603 24 22 5; P 4605 8 5 2;
  P 4608 23 20 13; P 4611 23 13 10; P 4613 27 14 10; P 4616 27 23 5; P 4619 10 8 7; P 4621 28 15 4;
  P 4622 21 20 17; P 4624 26 23 10; P 4627 16 8 5; P 4629 20 3 2; P 4630 14 3 2; P 4631 25 17 7;
  P 4632 19 16 2; P 4635 21 16 1; P 4637 18 17 3; P 4638 30 24 15; P 4640 25 8 7; P 4643 15 13 10;
  P 4645 24 11 5; P 4646 16 13 9; P 4648 8 5 3; P 4651 29 24 8; P 4653 30 21 13; P 4654 21 20 1;
  P 4656 27 25 4; P 4659 8 7 5; P 4661 26 21 2; P 4664 37 6 5; P 4666 24 17 11; P 4667 36 25 20;
  P 4669 18 14 10; P 4670 29 12 2; P 4672 27 25 23; P 4674 10 5 4; P 4675 26 25 21; P 4677 19 11 10;
  P 4680 10 9 3; P 4683 35 28 14; P 4685 24 10 1; P 4688 13 7 6; P 4691 26 21 3; P 4693 26 13 6;
  P 4696 18 17 11; P 4699 36 7 5; P 4701 23 21 18; P 4702 17 3 2; P 4704 11 8 1; P 4707 17 16 11;
  P 4709 21 12 11; P 4712 25 16 6; P 4714 19 17 6; P 4715 26 24 7; P 4717 30 17 16; P 4718 16 14 1;
  P 4720 24 19 9; P 4721 10 9 7; P 4722 24 19 18; P 4723 19 14 2; P 4725 13 10 8; P 4728 26 21 14;
  P 4730 19 12 10; P 4731 14 6 5; P 4733 14 9 5; P 4736 15 10 1; P 4738 12 7 5; P 4739 27 26 6;
  P 4741 21 10 8; P 4744 19 14 6; P 4747 25 24 8; P 4749 29 19 16; P 4752 29 5 2; P 4755 19 6 4;
  P 4757 30 22 17; P 4760 28 11 9; P 4762 7 6 4; P 4763 17 16 7; P 4765 30 19 7; P 4766 25 22 21;
  P 4768 25 17 3; P 4771 24 5 4; P 4773 26 12 5; P 4774 16 13 6; P 4776 27 23 6; P 4778 18 5 3;
  P 4779 14 8 1; P 4781 22 19 5; P 4784 30 29 7; P 4786 20 3 1; P 4787 19 6 5; P 4789 14 7 2; P 4792 29 18 4;
  P 4794 19 12 7; P 4795 23 7 2; P 4796 18 8 7; P 4797 15 14 3; P 4800 29 19 11; P 4803 7 5 4;
  P 4804 18 15 4; P 4808 13 4 2; P 4811 13 10 2; P 4812 22 15 13; P 4813 18 7 6; P 4814 22 10 9;
  P 4816 33 31 25; P 4819 28 25 7; P 4821 16 13 2; P 4822 33 17 13; P 4824 25 16 3; P 4826 24 19 17;
  P 4827 29 20 14; P 4829 20 14 2; P 4832 33 30 5; P 4834 19 17 2; P 4835 28 10 5; P 4837 14 9 1;
  P 4838 17 12 7; P 4840 25 21 2; P 4841 19 13 3; P 4842 33 29 18; P 4843 22 21 3; P 4844 16 15 1;
  P 4845 38 21 17; P 4848 28 27 6; P 4851 24 17 2; P 4853 17 7 4; P 4856 27 23 21; P 4859 25 22 14;
  P 4861 15 7 6; P 4862 15 8 1; P 4864 29 22 17; P 4866 23 15 2; P 4867 18 11 1; P 4869 22 16 4;
  P 4872 24 9 2; P 4875 26 16 10; P 4877 23 20 6; P 4880 32 21 7; P 4882 28 7 4; P 4883 26 8 2;
  P 4885 27 21 12; P 4888 35 21 8; P 4891 25 19 16; P 4893 15 12 2; P 4896 21 19 12; P 4898 25 12 2;
  P 4899 33 28 6; P 4901 20 18 14; P 4904 27 18 15; P 4906 22 21 6; P 4907 14 10 3; P 4909 30 16 11;
  P 4912 30 29 7; P 4915 16 9 1; P 4917 34 5 4; P 4920 11 9 5; P 4923 10 3 1; P 4925 19 6 2; P 4928 29 9 3;
  P 4931 23 21 18; P 4933 13 11 8; P 4936 27 22 15; P 4938 19 9 3; P 4939 24 8 1; P 4941 17 14 1;
  P 4942 13 12 9; P 4944 19 6 4; P 4946 23 9 1; P 4947 24 6 4; P 4949 30 25 2; P 4952 29 11 5;
  P 4954 15 10 7; P 4955 27 12 5; P 4957 11 6 5; P 4960 25 20 6; P 4962 23 11 6; P 4963 20 17 15;
  P 4964 13 10 5; P 4965 13 12 6; P 4968 26 25 17; P 4971 12 6 2; P 4973 26 22 16; P 4976 42 7 1;
  P 4979 29 11 8; P 4981 33 15 12; P 4984 23 16 9; P 4987 10 7 4; P 4989 15 8 2; P 4990 23 19 3;
  P 4992 15 8 6; P 4995 28 25 19; P 4996 18 15 13; P 4997 31 11 6; P 4999 13 11 9; P 5000 17 15 7;
  P 5002 33 13 8; P 5003 18 16 8; P 5005 22 13 6; P 5006 12 3 2; P 5008 21 10 3; P 5010 17 8 6;
  P 5011 29 20 15; P 5013 38 35 15; P 5016 15 12 9; P 5019 23 19 2; P 5021 14 11 2; P 5024 33 23 14;
  P 5026 20 15 11; P 5027 28 9 5; P 5029 22 3 2; P 5032 25 6 2; P 5035 24 21 10; P 5037 22 15 3;
  P 5040 24 5 3; P 5043 23 17 8; P 5045 25 24 2; P 5046 17 11 4; P 5048 34 15 10; P 5051 22 17 15;
  P 5053 26 18 11; P 5056 22 9 6; P 5059 20 19 14; P 5061 16 11 7; P 5064 21 12 11; P 5067 12 6 2;
  P 5069 18 5 3; P 5070 16 13 7; P 5072 25 5 3; P 5075 18 15 5; P 5077 18 11 5; P 5080 21 7 6;
  P 5083 25 19 6; P 5085 20 14 13; P 5086 23 18 14; P 5088 22 21 3; P 5091 18 13 10; P 5093 15 6 2;
  P 5096 19 18 13; P 5099 24 2 1; P 5101 18 16 15; P 5102 22 18 11; P 5104 30 13 2; P 5107 17 2 1;
  P 5109 26 19 7; P 5112 42 33 9; P 5115 14 8 5; P 5117 19 14 6; P 5120 33 27 5; P 5123 11 8 5;
  P 5125 23 18 4; P 5126 22 14 9; P 5128 24 15 6; P 5131 21 7 4; P 5133 15 11 8; P 5136 27 25 4;
  P 5139 36 22 1; P 5141 24 14 5; P 5142 12 11 3; P 5144 15 11 5; P 5147 12 10 2; P 5149 30 22 2;
  P 5152 15 8 1; P 5154 16 5 2; P 5155 15 14 1; P 5156 14 6 1; P 5157 8 6 3; P 5158 21 20 2; P 5160 35 31 13;
  P 5163 20 17 5; P 5164 12 7 3; P 5165 18 16 10; P 5168 15 11 5; P 5171 18 3 2; P 5173 23 22 2;
  P 5176 24 21 3; P 5178 15 13 10; P 5179 30 12 9; P 5181 23 7 2; P 5182 16 13 6; P 5184 20 11 5;
  P 5187 16 8 5; P 5189 28 22 2; P 5192 11 8 2; P 5194 25 15 13; P 5195 27 11 6; P 5197 20 15 7;
  P 5198 27 10 8; P 5200 33 27 19; P 5203 14 4 3; P 5205 9 8 6; P 5208 23 22 2; P 5211 20 19 1;
  P 5213 19 8 7; P 5214 12 9 8; P 5216 27 19 2; P 5219 23 3 2; P 5221 12 11 8; P 5224 29 15 1;
  P 5227 24 10 7; P 5229 28 19 13; P 5230 13 12 11; P 5232 21 11 2; P 5235 16 6 1; P 5237 12 10 7;
  P 5240 33 27 21; P 5243 10 9 1; P 5245 28 23 3; P 5248 27 18 1; P 5251 35 25 14; P 5253 24 17 14;
  P 5256 9 5 2; P 5259 10 8 4; P 5261 22 10 9; P 5262 22 20 1; P 5264 16 11 9; P 5267 31 25 14;
  P 5269 23 6 1; P 5272 29 18 10; P 5274 17 11 10; P 5275 16 10 1; P 5277 9 7 6; P 5280 13 11 1;
  P 5281 29 9 4; P 5282 13 10 9; P 5283 25 17 2; P 5284 16 9 5; P 5285 25 24 23; P 5286 20 14 7;
  P 5288 11 10 1; P 5290 17 9 4; P 5291 24 18 5; P 5293 25 9 2; P 5294 14 3 1; P 5296 8 3 2; P 5299 17 12 1;
  P 5301 14 8 1; P 5304 27 6 5; P 5306 15 4 1; P 5307 12 10 4; P 5308 18 14 11; P 5309 7 6 1; P 5312 22 3 2;
  P 5315 18 14 3; P 5317 17 4 3; P 5320 19 17 3; P 5323 15 11 2; P 5325 18 14 11; P 5328 30 27 9;
  P 5331 18 5 3; P 5333 25 24 19; P 5335 16 15 11; P 5336 23 21 8; P 5339 17 16 15; P 5341 22 15 13;
  P 5342 27 9 3; P 5344 17 11 10; P 5347 24 22 11; P 5349 16 13 10; P 5350 15 14 5; P 5352 23 20 1;
  P 5354 22 7 6; P 5355 16 11 2; P 5357 29 24 10; P 5360 19 11 1; P 5362 15 7 1; P 5363 20 7 1;
  P 5365 14 13 8; P 5366 20 3 2; P 5368 19 18 3; P 5371 18 15 6; P 5373 20 14 13; P 5374 24 19 14;
  P 5376 7 4 1; P 5379 23 17 4; P 5381 13 11 10; P 5382 26 24 17; P 5384 17 15 4; P 5387 28 21 8;
  P 5389 18 10 9; P 5392 7 3 2; P 5395 18 13 1; P 5397 9 5 2; P 5400 33 17 3; P 5402 18 15 9; P 5403 14 11 6;
  P 5405 17 14 12; P 5408 30 23 1; P 5411 28 10 3; P 5413 21 18 7; P 5414 25 2 1; P 5416 34 31 19;
  P 5419 25 24 23; P 5421 30 29 6; P 5424 16 15 13; P 5426 18 11 8; P 5427 18 12 11; P 5429 40 22 5;
  P 5432 37 34 23; P 5434 19 18 15; P 5435 24 18 14; P 5437 21 8 2; P 5440 24 15 10; P 5443 20 10 6;
  P 5445 20 19 7; P 5448 43 33 15; P 5451 30 19 16; P 5453 13 4 2; P 5456 21 14 10; P 5459 36 20 2;
  P 5461 30 28 5; P 5462 15 11 1; P 5464 15 5 2; P 5466 32 23 10; P 5467 22 8 5; P 5469 32 23 2;
  P 5470 13 12 1; P 5472 21 15 3; P 5475 18 16 13; P 5476 30 23 11; P 5477 23 18 10; P 5480 13 10 3;
  P 5482 20 17 9; P 5483 22 2 1; P 5485 16 8 2; P 5486 14 9 8; P 5488 21 19 9; P 5491 24 14 1;
  P 5493 15 12 7; P 5496 13 11 4; P 5498 19 12 7; P 5499 29 21 18; P 5501 27 19 2; P 5504 20 19 1;
  P 5506 23 20 12; P 5507 15 10 7; P 5509 11 9 4; P 5510 19 15 2; P 5512 13 11 6; P 5515 19 3 2;
  P 5517 40 13 11; P 5518 26 23 7; P 5520 10 5 2; P 5522 26 15 2; P 5523 26 20 13; P 5525 24 21 6;
  P 5528 25 18 14; P 5531 20 15 1; P 5533 19 16 10; P 5536 20 5 3; P 5538 28 22 7; P 5539 14 9 7;
  P 5541 15 9 4; P 5544 11 10 2; P 5546 23 12 6; P 5547 22 4 3; P 5549 33 11 10; P 5552 15 9 8;
  P 5554 16 5 2; P 5555 24 20 5; P 5557 39 35 8; P 5560 55 46 10; P 5563 22 19 13; P 5565 17 14 5;
  P 5568 33 22 7; P 5570 17 16 3; P 5571 27 11 2; P 5573 18 11 6; P 5576 27 23 6; P 5578 15 9 3;
  P 5579 25 20 12; P 5581 20 6 4; P 5584 13 9 7; P 5587 21 16 7; P 5589 29 27 8; P 5592 29 20 7;
  P 5595 21 12 2; P 5597 20 6 3; P 5600 8 5 3; P 5603 22 20 4; P 5605 32 23 1; P 5608 22 5 2; P 5611 20 9 7;
  P 5613 20 17 14; P 5614 6 3 1; P 5616 30 15 6; P 5618 17 15 2; P 5619 11 8 6; P 5621 12 11 4;
  P 5624 21 18 14; P 5627 13 9 8; P 5629 23 12 4; P 5632 17 15 5; P 5635 17 10 3; P 5637 8 6 5;
  P 5638 20 17 13; P 5640 29 27 23; P 5642 33 23 2; P 5643 10 3 1; P 5645 19 16 2; P 5646 23 8 5;
  P 5647 17 16 9; P 5648 21 15 8; P 5651 10 7 2; P 5653 16 11 5; P 5656 27 12 9; P 5658 9 4 3; P 5659 12 8 2;
  P 5661 26 14 10; P 5664 31 29 11; P 5667 10 8 1; P 5668 34 27 3; P 5669 27 4 1; P 5672 26 25 10;
  P 5674 18 15 13; P 5675 17 15 4; P 5677 27 26 2; P 5678 31 21 8; P 5680 40 17 2; P 5682 35 16 1;
  P 5683 22 18 11; P 5685 10 7 5; P 5686 27 7 3; P 5688 41 20 11; P 5691 21 15 4; P 5693 24 4 2;
  P 5696 26 21 14; P 5697 19 8 2; P 5698 14 9 5; P 5699 12 8 5; P 5701 16 6 5; P 5702 22 15 8;
  P 5704 27 25 14; P 5707 24 21 16; P 5709 22 9 1; P 5712 10 9 3; P 5715 28 6 3; P 5716 14 13 8;
  P 5717 21 6 5; P 5720 32 11 2; P 5722 19 18 14; P 5723 28 19 6; P 5725 22 9 3; P 5728 25 24 7;
  P 5730 25 18 10; P 5731 13 11 8; P 5733 10 8 5; P 5736 25 18 10; P 5738 30 17 4; P 5739 18 15 13;
  P 5741 16 6 4; P 5744 21 11 8; P 5747 13 4 2; P 5748 18 17 2; P 5749 26 19 18; P 5752 21 20 7;
  P 5755 8 7 2; P 5757 22 18 16; P 5760 29 23 10; P 5763 18 13 1; P 5765 17 10 7; P 5766 13 10 4;
  P 5768 21 14 3; P 5770 9 7 2; P 5771 16 14 13; P 5773 12 11 8; P 5774 15 5 4; P 5776 19 12 1;
  P 5779 21 7 4; P 5781 24 14 6; P 5784 25 22 6; P 5786 20 19 7; P 5787 30 20 15; P 5789 21 14 12;
  P 5792 33 13 11; P 5795 15 14 3; P 5797 33 26 23; P 5800 25 7 6; P 5803 16 15 10; P 5804 13 8 1;
  P 5805 10 7 3; P 5808 43 10 1; P 5811 21 17 2; P 5813 14 13 1; P 5816 17 15 7; P 5821 18 11 4;
  P 5824 23 17 10; P 5827 28 16 10; P 5828 17 8 5; P 5829 24 6 5; P 5830 27 23 11; P 5832 21 18 13;
  P 5835 13 5 2; P 5837 13 9 2; P 5840 23 14 2; P 5842 21 18 7; P 5843 20 7 6; P 5845 18 5 1; P 5846 20 17 3;
  P 5848 19 8 6; P 5851 9 6 1; P 5852 15 13 10; P 5853 46 36 18; P 5856 23 15 6; P 5859 28 25 16;
  P 5861 16 2 1; P 5862 18 3 2; P 5864 27 11 10; P 5866 30 23 2; P 5867 17 6 2; P 5869 26 23 4;
  P 5870 15 9 5; P 5872 19 15 10; P 5875 20 13 9; P 5877 37 36 30; P 5878 24 9 1; P 5880 21 10 3;
  P 5883 19 6 4; P 5884 14 11 10; P 5885 38 29 14; P 5888 23 10 4; P 5890 13 8 3; P 5891 20 15 9;
  P 5893 28 3 1; P 5894 21 15 2; P 5896 30 23 1; P 5899 35 21 10; P 5901 23 15 12; P 5904 32 19 5;
  P 5906 23 18 15; P 5907 25 17 2; P 5909 34 24 14; P 5912 33 22 13; P 5914 25 13 7; P 5915 30 29 28;
  P 5916 20 15 3; P 5917 21 12 6; P 5918 13 12 8; P 5920 16 15 6; P 5923 18 10 5; P 5925 24 7 3;
  P 5928 16 7 2; P 5929 16 6 4; P 5930 17 13 10; P 5931 30 26 14; P 5933 15 11 6; P 5934 28 25 4;
  P 5936 27 4 1; P 5938 23 7 3; P 5939 12 5 3; P 5941 20 18 11; P 5944 23 21 14; P 5945 9 5 3;
  P 5946 33 20 3; P 5947 14 11 4; P 5949 23 21 18; P 5950 32 13 8; P 5952 25 23 2; P 5955 28 8 5;
  P 5957 18 6 2; P 5960 37 35 25; P 5963 35 28 6; P 5965 27 19 12; P 5968 21 14 4; P 5971 11 3 2;
  P 5973 20 8 3; P 5974 23 19 3; P 5976 18 9 6; P 5979 29 25 2; P 5981 21 14 13; P 5984 17 7 1;
  P 5987 23 18 4; P 5989 36 20 2; P 5992 29 9 2; P 5994 17 9 5; P 5995 26 25 20; P 5996 20 18 3;
  P 5997 10 8 1; P 6000 23 21 12; P 6003 25 19 14; P 6005 22 13 8; P 6008 30 27 15; P 6011 36 30 5;
  P 6013 31 24 16; P 6014 21 14 9; P 6016 35 34 2; P 6019 19 18 11; P 6021 32 22 17; P 6024 39 33 26;
  P 6028 18 8 7; P 6029 22 17 3; P 6032 44 21 14; P 6035 28 14 13; P 6037 10 7 1; P 6038 21 17 11;
  P 6040 25 11 5; P 6042 21 3 2; P 6043 15 12 6; P 6045 19 16 10; P 6046 16 3 2; P 6048 17 15 8;
  P 6051 34 17 1; P 6053 15 11 2; P 6054 24 22 21; P 6056 7 6 1; P 6059 39 34 20; P 6061 31 25 6;
  P 6062 15 7 2; P 6063 28 24 9; P 6064 23 18 11; P 6067 30 18 10; P 6069 21 5 2; P 6072 28 15 13;
  P 6075 26 24 6; P 6077 17 11 8; P 6080 19 8 6; P 6082 20 2 1; P 6083 33 26 6; P 6085 16 13 7;
  P 6088 23 10 3; P 6091 15 9 4; P 6093 14 9 6; P 6096 20 11 2; P 6099 22 16 14; P 6101 24 20 11;
  P 6102 22 17 16; P 6104 13 11 6; P 6107 23 12 10; P 6109 17 11 4; P 6110 26 19 13; P 6112 35 12 1;
  P 6114 11 6 5; P 6115 22 19 10; P 6117 34 33 30; P 6120 4 3 1; P 6122 32 24 11; P 6123 25 22 6;
  P 6125 22 8 6; P 6126 20 15 5; P 6127 31 9 4; P 6128 34 15 2; P 6130 24 22 7; P 6131 36 34 7;
  P 6133 16 7 3; P 6136 17 7 5; P 6138 26 11 10; P 6139 14 13 3; P 6141 16 13 6; P 6144 26 7 1;
  P 6147 29 24 6; P 6148 25 18 16; P 6149 23 20 14; P 6152 28 27 13; P 6154 23 12 10; P 6155 34 33 4;
  P 6157 17 16 14; P 6158 14 6 5; P 6160 38 15 10; P 6163 17 12 7; P 6165 25 15 12; P 6166 5 4 2;
  P 6168 20 11 2; P 6171 22 10 8; P 6173 10 9 1; P 6176 29 15 1; P 6179 16 8 1; P 6181 22 13 6;
  P 6184 39 13 12; P 6186 15 6 4; P 6187 26 25 18; P 6189 26 8 5; P 6192 20 5 2; P 6194 21 9 2;
  P 6195 30 24 23; P 6197 25 14 4; P 6200 29 10 7; P 6203 20 15 10; P 6205 14 12 1; P 6206 22 7 5;
  P 6208 25 23 14; P 6211 19 18 5; P 6212 27 16 14; P 6213 15 14 12; P 6216 39 30 9; P 6219 17 14 4;
  P 6221 21 12 3; P 6224 13 4 2; P 6227 18 9 8; P 6229 12 7 6; P 6232 17 3 1; P 6234 22 18 7;
  P 6235 23 18 10; P 6237 32 14 9; P 6240 11 10 2; P 6242 32 28 27; P 6243 17 10 5; P 6245 28 26 4;
  P 6248 18 7 2; P 6251 35 34 31; P 6252 15 10 6; P 6253 14 10 2; P 6254 30 29 4; P 6256 11 10 5;
  P 6259 18 12 3; P 6261 17 14 12; P 6264 17 16 7; P 6266 10 7 5; P 6267 26 8 5; P 6269 31 8 3;
  P 6272 17 10 6; P 6275 15 14 5; P 6277 16 10 6; P 6280 9 7 5; P 6283 14 11 4; P 6284 16 13 8;
  P 6285 26 14 5; P 6288 34 25 5; P 6291 29 6 5; P 6293 30 20 18; P 6296 35 19 10; P 6298 15 10 1;
  P 6299 25 13 2; P 6301 17 8 7; P 6304 13 3 1; P 6307 28 27 5; P 6309 23 13 10; P 6310 11 7 2;
  P 6312 35 33 14; P 6314 16 11 7; P 6315 42 40 31; P 6317 11 6 1; P 6320 29 28 10; P 6323 19 15 14;
  P 6325 18 4 2; P 6327 22 15 10; P 6328 15 6 1; P 6329 21 16 1; P 6331 21 12 1; P 6333 22 14 2;
  P 6336 22 15 9; P 6339 17 10 7; P 6341 16 14 9; P 6344 21 15 2; P 6346 31 22 16; P 6347 11 6 2;
  P 6349 8 6 1; P 6350 11 7 6; P 6352 21 11 4; P 6355 30 27 16; P 6357 37 27 12; P 6360 13 11 1;
  P 6361 31 17 3; P 6363 32 23 14; P 6365 21 14 5; P 6368 31 9 1; P 6369 19 11 10; P 6371 30 18 17;
  P 6373 21 18 9; P 6374 12 9 8; P 6376 28 27 5; P 6379 30 10 5; P 6381 33 26 3; P 6384 34 29 7;
  P 6387 28 14 4; P 6389 19 17 4; P 6392 39 34 10; P 6395 29 7 4; P 6397 17 6 4; P 6398 12 11 10;
  P 6400 37 12 3; P 6403 15 10 4; P 6405 18 10 7; P 6408 31 12 10; P 6410 18 15 2; P 6411 23 18 14;
  P 6413 18 17 10; P 6414 34 15 9; P 6416 29 15 7; P 6419 9 7 4; P 6421 24 16 14; P 6423 26 19 1;
  P 6424 29 18 5; P 6427 35 29 18; P 6429 18 16 13; P 6432 26 13 7; P 6435 15 9 4; P 6437 23 18 4;
  P 6440 21 18 14; P 6442 19 18 5; P 6443 25 17 16; P 6445 30 10 4; P 6448 25 23 8; P 6451 26 14 13;
  P 6453 29 24 14; P 6456 31 25 17; P 6459 25 17 2; P 6461 36 15 6; P 6462 24 3 2; P 6464 25 22 6;
  P 6466 26 8 7; P 6467 7 6 2; P 6469 24 22 6; P 6472 31 30 2; P 6475 18 13 2; P 6477 31 18 15;
  P 6480 11 10 1; P 6482 17 8 3; P 6483 10 5 1; P 6485 21 8 6; P 6486 23 11 1; P 6488 21 13 7;
  P 6491 17 16 6; P 6493 38 11 4; P 6494 29 27 5; P 6496 21 5 2; P 6499 26 9 2; P 6501 24 21 14;
  P 6504 23 15 9; P 6506 15 7 5; P 6507 25 12 9; P 6508 20 11 3; P 6509 14 12 7; P 6512 29 27 13;
  P 6515 27 26 12; P 6516 18 12 3; P 6517 24 11 2; P 6520 37 29 11; P 6523 12 6 3; P 6525 16 12 10;
  P 6528 16 7 2; P 6530 15 9 5; P 6531 17 14 12; P 6532 15 10 7; P 6533 18 11 9; P 6536 25 10 9;
  P 6539 12 8 2; P 6541 14 11 7; P 6542 33 29 9; P 6543 28 21 7; P 6544 19 15 1; P 6547 12 11 10;
  P 6549 34 15 6; P 6552 27 22 6; P 6555 28 24 22; P 6557 34 30 17; P 6560 19 13 11; P 6563 35 30 21;
  P 6565 19 15 8; P 6566 10 3 1; P 6568 19 15 1; P 6571 14 13 6; P 6572 20 15 11; P 6573 17 10 5;
  P 6574 29 15 14; P 6576 27 25 19; P 6579 32 15 6; P 6581 10 8 6; P 6582 17 13 8; P 6584 37 23 7;
  P 6586 34 32 15; P 6587 27 4 2; P 6589 30 25 7; P 6592 45 42 1; P 6595 33 8 5; P 6597 18 14 5;
  P 6600 21 19 16; P 6602 14 8 3; P 6603 30 20 8; P 6605 25 15 14; P 6608 9 4 2; P 6610 27 26 8;
  P 6611 13 10 3; P 6613 28 22 15; P 6616 33 9 3; P 6619 7 6 1; P 6621 21 19 6; P 6624 15 14 9;
  P 6626 20 3 1; P 6627 26 7 5; P 6629 11 9 4; P 6632 27 20 17; P 6635 14 13 9; P 6637 29 26 21;
  P 6640 43 32 9; P 6643 42 25 9; P 6645 23 18 3; P 6646 9 8 5; P 6648 25 19 16; P 6651 22 19 14;
  P 6653 8 7 3; P 6656 19 15 1; P 6658 31 30 19; P 6659 20 16 1; P 6661 14 12 1; P 6664 24 15 6;
  P 6667 13 8 2; P 6669 16 7 5; P 6672 26 21 5; P 6675 16 10 1; P 6677 26 9 7; P 6680 29 7 3; P 6682 38 21 5;
  P 6683 12 5 3; P 6685 18 11 1; P 6688 55 32 9; P 6691 15 12 1; P 6693 10 6 4; P 6696 45 19 7;
  P 6698 18 14 11; P 6699 14 12 3; P 6701 19 8 4; P 6704 11 10 6; P 6707 32 15 14; P 6709 18 12 7;
  P 6712 31 26 2; P 6715 17 6 1; P 6717 16 11 7; P 6718 14 9 7; P 6720 12 9 7; P 6723 21 18 4; P 6725 23 3 2;
  P 6728 21 8 2; P 6731 32 27 6; P 6733 8 5 3; P 6734 21 14 9; P 6736 27 14 2; P 6738 35 24 5;
  P 6739 29 24 1; P 6741 18 15 11; P 6742 9 4 3; P 6744 29 21 15; P 6747 22 21 1; P 6749 18 16 4;
  P 6752 11 8 2; P 6755 30 20 3; P 6760 37 15 7; P 6762 28 4 3; P 6763 32 21 11; P 6765 23 3 2;
  P 6766 17 5 4; P 6768 18 15 10; P 6770 34 31 24; P 6771 36 13 12; P 6773 32 20 6; P 6776 25 11 6;
  P 6778 34 33 1; P 6779 16 6 2; P 6781 16 15 4; P 6784 16 15 1; P 6787 25 5 2; P 6789 28 19 9;
  P 6790 22 8 5; P 6792 27 25 24; P 6795 17 2 1; P 6797 20 10 6; P 6800 26 25 1; P 6802 29 25 3;
  P 6803 32 21 16; P 6805 24 20 7; P 6806 25 23 16; P 6808 37 19 13; P 6809 27 10 5; P 6811 21 20 8;
  P 6813 24 19 16; P 6814 32 26 25; P 6816 22 5 2; P 6819 21 11 8; P 6821 19 13 8; P 6823 14 5 1;
  P 6824 21 14 10; P 6827 26 12 8; P 6829 20 16 6; P 6832 35 32 25; P 6834 23 14 1; P 6835 23 4 2;
  P 6837 21 17 14; P 6840 14 9 3; P 6842 18 17 7; P 6843 26 9 6; P 6844 20 15 5; P 6845 26 20 6;
  P 6848 29 22 18; P 6850 21 7 4; P 6851 31 30 4; P 6853 28 27 15; P 6854 21 14 1; P 6856 30 29 17;
  P 6859 16 12 9; P 6861 21 10 3; P 6864 11 5 2; P 6867 16 4 2; P 6869 17 10 1; P 6870 27 22 21;
  P 6872 25 13 2; P 6875 22 21 4; P 6877 15 14 2; P 6878 21 15 5; P 6879 9 6 2; P 6880 31 30 19;
  P 6883 32 26 25; P 6885 22 21 12; P 6888 24 11 9; P 6890 16 15 8; P 6891 30 15 10; P 6893 20 12 6;
  P 6894 12 9 8; P 6896 29 17 11; P 6897 27 18 8; P 6899 6 5 2; P 6901 6 4 1; P 6904 36 13 11;
  P 6907 23 12 2; P 6909 36 35 8; P 6912 25 15 12; P 6914 16 11 4; P 6915 18 15 7; P 6916 13 4 1;
  P 6917 22 13 8; P 6919 15 14 2; P 6920 8 3 1; P 6922 25 15 13; P 6923 17 9 2; P 6925 24 9 7; P 6926 29 9 3;
  P 6928 8 7 5; P 6931 21 14 13; P 6933 35 26 4; P 6934 15 10 9; P 6936 37 31 30; P 6939 16 12 6;
  P 6941 27 12 11; P 6944 23 21 8; P 6945 17 3 2; P 6946 23 16 14; P 6947 25 19 18; P 6949 16 5 2;
  P 6950 11 9 3; P 6952 32 21 19; P 6955 13 7 4; P 6957 24 10 3; P 6960 14 9 3; P 6962 16 11 1;
  P 6963 24 20 6; P 6965 18 8 7; P 6968 35 32 17; P 6971 28 20 6; P 6973 36 34 14; P 6976 19 18 9;
  P 6978 23 18 3; P 6979 11 8 6; P 6981 17 16 11; P 6982 21 16 8; P 6984 8 3 2; P 6987 21 6 4;
  P 6989 15 12 2; P 6992 27 11 9; P 6994 28 12 3; P 6995 25 12 4; P 6997 27 17 4; P 7000 27 26 11;
  P 7003 16 6 5; P 7005 14 11 4; P 7008 33 25 6; P 7010 14 13 6; P 7011 5 2 1; P 7013 8 5 2; P 7016 23 10 7;
  P 7019 33 14 13; P 7021 23 6 4; P 7024 22 15 10; P 7027 20 9 2; P 7028 25 16 2; P 7029 29 23 16;
  P 7032 19 13 9; P 7035 29 9 8; P 7037 26 24 20; P 7040 19 18 7; P 7043 15 12 6; P 7045 19 6 3;
  P 7048 39 17 4; P 7051 7 6 3; P 7053 13 6 1; P 7054 17 11 1; P 7056 27 24 10; P 7059 31 17 4;
  P 7061 24 23 1; P 7064 11 5 2; P 7066 21 14 11; P 7067 19 11 10; P 7069 28 17 14; P 7072 37 26 17;
  P 7075 31 26 20; P 7078 11 10 2; P 7080 27 18 16; P 7083 26 22 2; P 7085 20 15 14; P 7086 22 6 3;
  P 7088 32 5 2; P 7090 21 15 1; P 7091 9 7 4; P 7093 22 18 2; P 7094 23 13 12; P 7096 27 17 13;
  P 7099 16 4 1; P 7101 8 7 1; P 7102 28 21 8; P 7104 15 10 4; P 7107 8 2 1; P 7109 26 21 8; P 7112 35 5 2;
  P 7114 13 12 3; P 7115 34 9 5; P 7117 27 26 10; P 7120 17 15 5; P 7122 35 13 2; P 7123 26 22 6;
  P 7125 11 10 5; P 7128 19 13 2; P 7130 35 24 21; P 7131 21 10 7; P 7133 36 34 10; P 7136 16 3 2;
  P 7138 20 7 6; P 7139 26 21 11; P 7141 26 9 1; P 7142 27 20 15; P 7144 33 13 3; P 7147 20 17 9;
  P 7149 9 7 6; P 7152 37 23 16; P 7154 15 14 8; P 7155 34 21 18; P 7157 20 18 16; P 7158 33 23 12;
  P 7160 27 26 9; P 7163 7 3 2; P 7165 21 17 2; P 7168 13 10 6; P 7171 22 18 3; P 7173 28 26 19;
  P 7174 16 13 4; P 7176 33 31 21; P 7178 16 7 6; P 7179 30 20 15; P 7181 24 13 11; P 7184 33 27 2;
  P 7186 19 10 1; P 7187 18 14 12; P 7188 23 19 7; P 7189 18 14 8; P 7192 29 14 6; P 7195 32 30 7;
  P 7197 17 14 12; P 7198 11 2 1; P 7200 29 23 3; P 7205 21 5 2; P 7208 29 23 21; P 7211 29 8 6;
  P 7212 29 26 4; P 7213 25 15 8; P 7214 28 7 2; P 7216 15 8 1; P 7219 23 6 5; P 7221 13 12 10;
  P 7224 15 12 10; P 7227 29 22 7; P 7229 19 4 2; P 7232 35 12 9; P 7234 29 22 18; P 7235 19 18 7;
  P 7237 21 10 2; P 7238 19 14 6; P 7240 33 14 2; P 7243 25 10 1; P 7245 26 23 9; P 7248 17 7 4;
  P 7251 19 14 13; P 7253 32 13 7; P 7256 22 21 7; P 7259 38 19 1; P 7261 28 3 2; P 7262 32 13 12;
  P 7264 41 36 19; P 7267 32 17 6; P 7268 14 4 3; P 7269 33 32 30; P 7272 23 10 4; P 7274 38 31 18;
  P 7275 8 2 1; P 7277 24 23 7; P 7280 37 6 4; P 7282 26 8 7; P 7283 34 22 12; P 7285 29 18 5;
  P 7288 25 23 17; P 7291 29 24 1; P 7293 34 14 8; P 7294 22 13 10; P 7296 37 7 2; P 7298 15 13 11;
  P 7299 26 11 3; P 7301 23 22 7; P 7304 37 30 17; P 7307 19 15 2; P 7309 23 15 2; P 7312 25 24 3;
  P 7315 25 10 4; P 7317 20 19 4; P 7320 35 28 10; P 7323 26 11 2; P 7325 35 29 6; P 7328 41 30 26;
  P 7330 11 10 9; P 7331 28 19 6; P 7333 26 21 5; P 7336 34 21 5; P 7339 14 5 1; P 7341 29 5 2;
  P 7344 33 28 3; P 7347 27 26 2; P 7349 12 6 2; P 7352 20 5 3; P 7355 27 26 7; P 7357 30 16 8;
  P 7358 20 15 6; P 7360 23 18 2; P 7363 34 24 19; P 7365 26 20 5; P 7368 19 13 11; P 7371 28 16 9;
  P 7373 11 8 6; P 7376 41 22 16; P 7379 22 8 4; P 7381 32 10 2; P 7384 31 26 9; P 7387 23 20 10;
  P 7389 22 17 13; P 7390 13 12 10; P 7392 33 27 21; P 7395 8 4 2; P 7396 29 16 2; P 7397 28 26 21;
  P 7400 19 9 5; P 7403 30 20 14; P 7405 17 14 6; P 7406 27 20 1; P 7407 27 21 17; P 7408 13 3 1;
  P 7411 24 18 16; P 7413 17 6 2; P 7414 13 12 2; P 7415 10 9 5; P 7416 35 23 9; P 7419 32 29 2;
  P 7420 26 25 5; P 7421 26 14 2; P 7424 18 13 7; P 7427 30 17 1; P 7429 30 10 4; P 7430 11 9 6;
  P 7432 30 19 7; P 7435 13 5 2; P 7437 31 20 19; P 7440 22 21 15; P 7442 10 6 5; P 7443 23 12 6;
  P 7445 12 5 2; P 7448 21 20 14; P 7451 16 14 9; P 7453 30 29 7; P 7454 24 13 5; P 7456 27 8 1;
  P 7457 12 9 2; P 7459 40 32 14; P 7461 20 19 7; P 7464 21 18 14; P 7467 25 20 4; P 7469 30 26 22;
  P 7470 17 8 3; P 7472 23 13 7; P 7474 23 17 15; P 7475 24 10 8; P 7477 23 16 2; P 7480 32 15 2;
  P 7482 18 4 3; P 7483 25 18 2; P 7485 26 8 1; P 7486 22 19 16; P 7488 21 16 6; P 7491 10 9 7;
  P 7493 20 10 3; P 7494 20 9 8; P 7496 23 21 12; P 7498 33 15 12; P 7499 27 14 9; P 7501 21 13 2;
  P 7502 20 17 8; P 7504 45 17 2; P 7507 34 14 9; P 7509 21 10 4; P 7510 26 7 2; P 7512 22 21 3;
  P 7514 38 21 5; P 7515 18 17 11; P 7516 27 25 18; P 7517 20 19 10; P 7520 19 9 7; P 7523 35 22 1;
  P 7525 17 11 4; P 7528 18 13 1; P 7531 13 10 3; P 7533 11 8 7; P 7536 42 21 14; P 7539 26 19 10;
  P 7541 28 10 2; P 7544 23 13 7; P 7546 15 8 5; P 7547 24 22 11; P 7549 22 16 12; P 7550 27 26 9;
  P 7552 17 8 3; P 7554 12 11 6; P 7555 26 13 2; P 7557 18 16 12; P 7560 41 21 3; P 7563 29 8 7;
  P 7565 24 22 13; P 7568 15 5 3; P 7571 16 14 7; P 7573 12 7 6; P 7576 41 40 11; P 7579 14 11 3;
  P 7581 23 21 14; P 7582 13 6 2; P 7584 51 46 10; P 7587 15 9 4; P 7589 15 10 7; P 7592 45 10 1;
  P 7595 34 32 13; P 7597 32 11 7; P 7600 19 18 2; P 7603 6 5 2; P 7605 28 15 3; P 7606 24 9 7;
  P 7608 39 25 10; P 7610 18 11 2; P 7611 32 27 6; P 7613 25 8 6; P 7615 19 13 7; P 7616 31 21 14;
  P 7617 18 5 3; P 7618 22 17 6; P 7619 29 18 6; P 7621 32 29 19; P 7624 9 2 1; P 7627 40 15 2;
  P 7629 35 10 7; P 7632 54 3 2; P 7633 24 14 7; P 7635 27 11 2; P 7637 13 10 8; P 7640 29 3 2;
  P 7643 16 5 1; P 7645 28 15 10; P 7648 37 33 10; P 7651 24 16 13; P 7653 21 14 11; P 7654 20 14 1;
  P 7656 30 13 7; P 7659 17 13 10; P 7661 30 20 4; P 7664 30 23 5; P 7667 27 26 7; P 7669 30 6 3;
  P 7670 13 11 4; P 7672 39 5 1; P 7675 9 6 1; P 7676 21 14 11; P 7677 38 25 11; P 7680 27 9 3;
  P 7683 23 14 7; P 7685 10 9 8; P 7688 35 16 6; P 7690 23 19 11; P 7691 36 29 2; P 7693 30 9 4;
  P 7696 17 16 15; P 7699 10 6 3; P 7701 20 14 8; P 7704 15 12 10; P 7707 19 18 15; P 7709 18 4 2;
  P 7712 27 22 5; P 7715 22 16 14; P 7717 7 6 1; P 7718 11 5 3; P 7720 27 25 4; P 7723 30 21 9;
  P 7725 23 22 17; P 7726 30 23 7; P 7728 21 6 3; P 7731 11 10 1; P 7733 15 8 3; P 7736 22 11 3;
  P 7737 13 5 1; P 7739 48 33 29; P 7741 32 22 11; P 7744 33 28 27; P 7746 22 19 10; P 7747 28 26 12;
  P 7749 28 25 2; P 7752 35 30 2; P 7754 31 7 5; P 7755 16 7 2; P 7756 29 6 4; P 7757 17 10 7;
  P 7760 32 23 21; P 7763 14 10 6; P 7765 18 17 1; P 7768 27 18 15; P 7771 38 35 27; P 7773 30 19 18;
  P 7776 41 39 36; P 7778 24 23 3; P 7779 40 22 14; P 7781 24 22 5; P 7782 25 17 1; P 7784 7 4 2;
  P 7786 16 15 9; P 7787 26 18 7; P 7789 17 13 2; P 7792 47 31 29; P 7795 38 33 8; P 7797 14 10 1;
  P 7798 29 22 3; P 7800 11 10 5; P 7803 19 14 2; P 7804 9 8 2; P 7805 23 14 5; P 7806 17 12 6;
  P 7808 25 24 10; P 7811 34 23 18; P 7813 38 30 28; P 7816 20 3 2; P 7819 8 5 3; P 7821 14 10 8;
  P 7824 39 36 14; P 7827 31 28 6; P 7829 15 14 8; P 7832 37 19 3; P 7834 16 15 9; P 7835 28 20 10;
  P 7836 23 20 7; P 7837 30 23 1; P 7840 33 29 23; P 7842 29 10 4; P 7843 16 9 6; P 7844 23 10 7;
  P 7845 32 31 7; P 7846 23 22 2; P 7848 34 31 21; P 7851 28 13 5; P 7853 30 28 26; P 7856 12 3 2;
  P 7859 22 3 2; P 7861 20 16 2; P 7862 17 13 10; P 7864 19 13 1; P 7867 40 35 21; P 7869 17 6 2;
  P 7872 27 22 18; P 7875 28 21 13; P 7877 18 7 4; P 7879 24 19 8; P 7880 25 19 17; P 7881 26 9 6;
  P 7882 17 15 10; P 7883 17 16 6; P 7885 35 30 13; P 7886 25 15 13; P 7888 12 9 7; P 7891 18 5 1;
  P 7893 20 5 2; P 7894 21 16 13; P 7896 45 39 7; P 7898 29 8 2; P 7899 11 10 2; P 7901 17 13 10;
  P 7904 45 34 25; P 7906 15 11 1; P 7907 20 10 6; P 7909 20 2 1; P 7912 7 3 2; P 7914 29 11 4;
  P 7915 32 22 6; P 7916 25 12 4; P 7917 27 26 23; P 7918 19 6 1; P 7920 20 19 5; P 7923 26 21 14;
  P 7925 10 3 2; P 7928 23 15 5; P 7930 17 10 5; P 7931 27 24 17; P 7933 15 11 10; P 7936 40 23 21;
  P 7939 11 4 2; P 7941 15 14 2; P 7944 14 7 1; P 7947 18 13 10; P 7949 28 17 7; P 7950 38 27 6;
  P 7952 19 13 2; P 7954 23 21 20; P 7955 16 11 1; P 7957 26 14 1; P 7960 19 13 12; P 7963 11 7 2;
  P 7965 36 31 15; P 7968 27 13 12; P 7970 29 19 3; P 7971 18 16 15; P 7973 21 14 3; P 7974 13 12 10;
  P 7976 44 5 3; P 7978 14 4 3; P 7979 24 2 1; P 7981 20 15 14; P 7982 25 8 4; P 7984 37 18 2;
  P 7986 28 10 3; P 7987 7 6 1; P 7989 24 22 12; P 7992 26 25 17; P 7995 17 12 8; P 7997 16 3 2;
  P 8000 16 3 1; P 8002 12 4 3; P 8003 26 21 2; P 8005 18 16 11; P 8008 23 22 17; P 8011 20 16 5;
  P 8013 28 26 20; P 8016 31 30 25; P 8018 18 15 9; P 8019 39 33 16; P 8021 32 18 3; P 8023 16 11 9;
  P 8024 21 14 11; P 8027 11 10 9; P 8029 33 19 16; P 8031 13 12 3; P 8032 19 15 13; P 8035 30 24 4;
  P 8037 34 33 30; P 8038 13 9 8; P 8040 39 13 7; P 8042 15 8 5; P 8043 25 17 16; P 8045 18 8 3;
  P 8048 30 23 3; P 8050 31 12 11; P 8051 24 15 5; P 8052 11 9 2; P 8053 20 19 12; P 8056 27 16 5;
  P 8059 34 21 6; P 8061 10 7 2; P 8064 27 23 9; P 8066 32 27 15; P 8067 42 29 17; P 8069 15 14 4;
  P 8072 23 11 6; P 8074 28 26 3; P 8075 29 24 16; P 8077 30 27 18; P 8080 39 14 11; P 8083 31 17 6;
  P 8085 31 22 13; P 8088 25 10 8; P 8091 16 9 1; P 8093 20 5 3; P 8096 32 11 2; P 8099 28 25 23;
  P 8101 15 6 4; P 8102 31 2 1; P 8104 30 23 17; P 8107 25 16 1; P 8109 15 9 4; P 8112 15 12 2;
  P 8115 20 17 5; P 8117 32 15 14; P 8118 21 15 1; P 8120 8 3 2; P 8122 19 12 4; P 8123 47 22 18;
  P 8125 26 18 10; P 8126 28 25 15; P 8128 25 24 19; P 8131 25 7 6; P 8132 9 5 4; P 8133 30 19 18;
  P 8136 11 3 2; P 8139 24 12 10; P 8141 32 8 6; P 8142 29 28 20; P 8144 28 27 17; P 8147 22 8 1;
  P 8149 18 8 4; P 8152 29 25 14; P 8155 18 10 5; P 8157 19 16 14; P 8158 23 17 7; P 8160 52 45 10;
  P 8163 29 28 25; P 8165 29 26 9; P 8168 25 16 6; P 8170 17 6 5; P 8171 21 17 8; P 8173 11 8 7;
  P 8174 21 9 8; P 8176 43 32 21; P 8179 24 21 13; P 8181 9 6 4; P 8184 32 27 6; P 8186 10 7 3;
  P 8187 29 22 16; P 8189 41 10 4; P 8192 9 5 2; P 8195 15 14 4; P 8197 21 8 2; P 8200 18 15 3;
  P 8202 15 12 11; P 8203 33 28 23; P 8205 21 18 13; P 8206 16 14 9; P 8208 19 13 11; P 8211 34 18 13;
  P 8213 24 10 4; P 8214 21 16 3; P 8216 27 24 17; P 8219 29 27 10; P 8221 24 22 11; P 8224 39 36 25;
  P 8227 25 18 12; P 8228 23 18 6; P 8229 36 29 3; P 8232 22 15 9; P 8235 38 36 21; P 8237 23 18 11;
  P 8238 15 5 3; P 8240 14 13 7; P 8242 36 35 2; P 8243 35 14 2; P 8245 18 16 14; P 8248 25 15 13;
  P 8249 20 11 9; P 8251 13 10 3; P 8253 9 5 2; P 8256 32 21 14; P 8259 21 15 4; P 8261 20 17 14;
  P 8264 15 6 3; P 8266 12 7 6; P 8267 21 16 2; P 8269 24 13 2; P 8270 21 17 4; P 8272 32 25 23;
  P 8275 35 10 9; P 8277 30 8 3; P 8280 30 19 9; P 8283 25 23 4; P 8285 47 42 24; P 8288 27 5 4;
  P 8290 43 24 14; P 8291 28 26 19; P 8293 14 12 8; P 8294 21 12 11; P 8296 37 19 6; P 8298 21 14 11;
  P 8299 29 28 8; P 8301 27 13 10; P 8304 32 17 15; P 8306 17 12 9; P 8307 19 17 10; P 8308 16 9 8;
  P 8309 28 26 10; P 8312 45 44 30; P 8314 18 15 9; P 8315 20 15 2; P 8317 30 28 19; P 8318 21 16 10;
  P 8320 41 39 5; P 8322 7 5 2; P 8323 35 12 10; P 8325 31 14 10; P 8326 14 5 4; P 8328 37 23 14;
  P 8331 37 34 10; P 8333 26 18 14; P 8336 33 10 2; P 8338 16 15 7; P 8339 13 12 7; P 8341 50 48 19;
  P 8344 27 15 1; P 8346 26 25 10; P 8347 29 7 6; P 8349 29 22 7; P 8352 35 18 14; P 8355 18 6 5;
  P 8356 22 18 13; P 8357 22 12 5; P 8360 15 14 5; P 8361 24 20 8; P 8363 20 3 2; P 8365 22 12 4;
  P 8368 35 17 4; P 8369 29 15 1; P 8371 13 8 2; P 8373 14 5 2; P 8376 45 39 17; P 8379 26 15 8;
  P 8381 22 15 5; P 8382 32 22 13; P 8383 23 13 8; P 8384 19 4 2; P 8387 14 12 3; P 8389 39 16 13;
  P 8392 17 11 1; P 8394 30 10 3; P 8395 18 12 4; P 8396 17 14 11; P 8397 25 6 1; P 8400 29 28 11;
  P 8403 22 6 1; P 8405 32 22 16; P 8406 30 9 1; P 8408 20 9 2; P 8410 33 17 5; P 8411 30 27 5;
  P 8413 26 25 24; P 8416 40 33 22; P 8419 15 10 1; P 8421 27 26 20; P 8422 33 22 9; P 8424 33 31 28;
  P 8427 14 13 8; P 8429 35 14 6; P 8432 17 15 13; P 8435 33 28 26; P 8437 34 27 15; P 8438 17 10 7;
  P 8440 18 9 6; P 8443 16 12 6; P 8445 38 6 5; P 8448 21 17 6; P 8450 38 36 7; P 8451 13 5 2; P 8452 11 8 6;
  P 8453 14 11 5; P 8454 21 6 4; P 8456 15 13 8; P 8458 19 10 6; P 8459 10 9 7; P 8461 24 22 14;
  P 8462 33 32 31; P 8464 34 15 5; P 8467 31 24 21; P 8468 15 11 3; P 8469 26 14 13; P 8472 30 21 5;
  P 8474 37 6 1; P 8475 6 4 1; P 8477 46 34 26; P 8480 21 6 3; P 8483 26 19 10; P 8485 23 10 5;
  P 8486 22 21 19; P 8488 13 6 3; P 8490 26 16 13; P 8491 35 32 25; P 8493 33 26 23; P 8494 10 7 4;
  P 8496 25 19 3; P 8498 15 14 11; P 8499 28 18 15; P 8501 37 36 31; P 8504 35 24 10; P 8507 31 6 5;
  P 8509 19 16 15; P 8512 33 27 4; P 8514 19 14 8; P 8515 27 10 7; P 8517 14 8 5; P 8520 28 15 13;
  P 8523 21 18 5; P 8525 36 19 2; P 8528 15 4 2; P 8531 18 2 1; P 8533 23 20 4; P 8534 27 7 1;
  P 8536 19 10 3; P 8538 20 11 4; P 8539 12 9 4; P 8541 26 9 5; P 8542 30 28 9; P 8544 31 5 2;
  P 8546 19 11 10; P 8547 21 13 10; P 8549 41 23 6; P 8552 29 10 1; P 8554 33 17 7; P 8555 14 13 7;
  P 8557 30 23 17; P 8560 21 13 3; P 8561 15 5 1; P 8563 13 5 2; P 8565 33 14 11; P 8567 24 16 11;
  P 8568 28 25 10; P 8570 37 10 3; P 8571 12 8 2; P 8573 22 14 4; P 8574 22 13 2; P 8576 19 9 1;
  P 8578 30 7 4; P 8579 13 11 6; P 8581 8 7 3; P 8584 32 15 13; P 8587 34 8 2; P 8589 15 12 10;
  P 8590 27 23 17; P 8592 23 5 4; P 8594 21 20 5; P 8595 17 13 10; P 8596 13 7 6; P 8597 33 27 26;
  P 8598 23 14 1; P 8600 21 14 3; P 8603 16 9 1; P 8605 30 23 7; P 8606 19 17 7; P 8608 47 44 33;
  P 8610 21 17 14; P 8611 25 18 1; P 8613 24 15 14; P 8616 22 19 11; P 8619 29 28 5; P 8621 22 10 2;
  P 8622 33 24 19; P 8624 4 3 2; P 8627 38 15 11; P 8628 25 24 7; P 8629 33 16 11; P 8630 20 6 3;
  P 8632 41 32 3; P 8634 19 14 8; P 8635 23 14 13; P 8637 20 13 7; P 8640 23 10 4; P 8642 15 11 6;
  P 8643 26 18 2; P 8645 17 14 12; P 8648 31 17 6; P 8651 26 11 3; P 8653 26 18 10; P 8656 39 14 4;
  P 8659 14 9 4; P 8661 30 7 1; P 8662 31 22 18; P 8664 29 19 11; P 8667 22 21 18; P 8669 20 12 3;
  P 8672 29 23 12; P 8675 18 17 10; P 8677 13 11 6; P 8678 25 19 15; P 8680 32 7 2; P 8683 19 18 11;
  P 8685 31 9 6; P 8687 21 18 3; P 8688 25 20 7; P 8690 24 14 11; P 8691 40 17 5; P 8693 32 24 15;
  P 8696 25 20 6; P 8699 26 20 3; P 8701 33 5 2; P 8702 24 17 15; P 8704 39 20 2; P 8706 25 22 6;
  P 8707 8 6 1; P 8709 19 16 10; P 8710 26 25 18; P 8712 30 13 3; P 8715 33 32 8; P 8716 36 22 21;
  P 8717 37 18 16; P 8720 27 17 5; P 8723 32 12 2; P 8725 25 9 6; P 8726 21 19 8; P 8728 13 7 1;
  P 8731 30 26 16; P 8733 40 32 31; P 8736 35 33 24; P 8738 28 18 11; P 8739 28 20 2; P 8741 32 27 21;
  P 8744 45 12 11; P 8747 18 14 7; P 8749 29 22 6; P 8752 30 29 11; P 8755 25 24 14; P 8757 35 26 12;
  P 8758 17 8 4; P 8760 27 9 4; P 8761 27 25 15; P 8763 18 17 5; P 8764 10 3 1; P 8765 14 9 3;
  P 8768 27 10 8; P 8771 37 4 2; P 8773 20 5 3; P 8774 30 29 11; P 8776 26 19 9; P 8778 16 5 2;
  P 8779 45 5 2; P 8781 34 10 1; P 8782 33 10 4; P 8784 26 25 7; P 8786 30 18 3; P 8787 49 45 22;
  P 8788 22 15 13; P 8789 27 7 2; P 8790 17 2 1; P 8792 24 9 2; P 8794 14 7 2; P 8795 12 5 3; P 8797 26 18 7;
  P 8800 25 14 6; P 8803 31 21 4; P 8805 42 16 9; P 8808 15 9 6; P 8810 24 17 7; P 8811 22 8 2;
  P 8813 37 4 2; P 8816 17 8 6; P 8818 29 11 9; P 8819 15 13 4; P 8821 28 24 23; P 8822 32 28 25;
  P 8824 19 14 6; P 8827 30 17 10; P 8829 15 9 8; P 8832 15 9 6; P 8835 20 16 5; P 8837 20 10 6;
  P 8840 33 22 16; P 8843 33 20 17; P 8845 31 24 2; P 8846 21 20 12; P 8848 33 4 3; P 8851 33 14 4;
  P 8853 23 17 16; P 8854 12 5 1; P 8856 14 5 2; P 8858 29 23 17; P 8859 35 30 27; P 8861 18 16 10;
  P 8864 37 12 7; P 8866 29 16 5; P 8867 32 9 5; P 8869 34 19 7; P 8872 51 4 2; P 8875 19 18 1;
  P 8877 21 13 10; P 8880 36 9 6; P 8882 17 11 6; P 8883 28 27 10; P 8885 30 26 20; P 8888 43 13 9;
  P 8891 10 9 4; P 8893 27 7 6; P 8894 17 6 5; P 8896 41 10 6; P 8899 29 2 1; P 8901 17 12 2; P 8902 10 9 2;
  P 8904 40 25 10; P 8906 35 16 13; P 8907 22 21 16; P 8909 22 17 9; P 8912 18 17 1; P 8914 16 4 3;
  P 8915 11 6 5; P 8917 28 21 3; P 8918 16 10 9; P 8920 33 32 31; P 8923 11 8 6; P 8925 22 11 7;
  P 8928 35 29 2; P 8931 17 6 5; P 8933 24 10 4; P 8936 17 3 1; P 8939 22 21 14; P 8941 36 35 31;
  P 8942 21 16 13; P 8944 39 34 1; P 8947 28 20 6; P 8949 29 22 13; P 8950 9 5 1; P 8952 27 14 2;
  P 8954 25 23 1; P 8955 18 13 1; P 8957 16 10 3; P 8960 12 7 5; P 8963 30 26 10; P 8965 30 7 5;
  P 8968 29 11 10; P 8971 23 5 4; P 8973 24 19 12; P 8976 23 8 2; P 8978 18 17 5; P 8979 29 22 16;
  P 8981 22 2 1; P 8984 9 8 6; P 8987 16 12 10; P 8989 15 7 2; P 8992 35 6 2; P 8995 19 16 13;
  P 8996 25 16 12; P 8997 33 22 1; P 8998 23 10 2; P 9000 28 19 17; P 9003 37 20 10; P 9005 19 14 4;
  P 9008 31 17 7; P 9010 17 12 1; P 9011 31 14 10; P 9013 32 9 7; P 9015 12 3 1; P 9016 23 21 8;
  P 9019 26 22 15; P 9021 28 22 10; P 9024 32 29 11; P 9027 23 14 3; P 9029 36 26 1; P 9030 32 8 1;
  P 9032 45 19 1; P 9035 30 22 5; P 9037 28 14 5; P 9038 21 9 8; P 9040 9 6 4; P 9043 27 26 23;
  P 9045 33 8 6; P 9046 36 30 15; P 9048 23 16 10; P 9051 17 10 7; P 9053 21 15 12; P 9056 11 3 2;
  P 9059 24 15 6; P 9061 26 18 7; P 9064 33 4 2; P 9066 15 6 1; P 9067 9 2 1; P 9069 36 31 12;
  P 9070 23 13 3; P 9072 45 38 6; P 9073 20 16 5; P 9075 30 17 15; P 9077 16 6 4; P 9080 17 10 7;
  P 9082 19 17 14; P 9083 31 18 5; P 9085 26 13 5; P 9087 23 19 7; P 9088 33 31 1; P 9090 18 7 3;
  P 9091 20 9 7; P 9093 11 8 4; P 9096 27 26 11; P 9098 25 15 14; P 9099 16 9 1; P 9101 14 8 6;
  P 9102 15 14 2; P 9104 47 33 24; P 9107 28 13 6; P 9109 9 5 2; P 9110 32 17 8; P 9112 9 7 5; P 9115 30 9 7;
  P 9117 18 16 7; P 9118 21 11 10; P 9120 35 25 5; P 9122 47 29 23; P 9123 15 13 10; P 9124 23 17 12;
  P 9125 26 12 10; P 9128 39 25 22; P 9131 7 5 4; P 9133 26 9 4; P 9136 21 14 1; P 9139 10 3 1;
  P 9141 36 7 1; P 9144 35 25 4; P 9146 12 2 1; P 9147 31 16 2; P 9149 30 28 7; P 9152 33 29 7;
  P 9155 25 11 6; P 9157 30 10 7; P 9160 22 15 3; P 9163 20 7 6; P 9165 13 12 3; P 9166 19 10 3;
  P 9167 12 3 2; P 9168 15 10 4; P 9171 38 5 4; P 9172 33 26 8; P 9173 31 17 12; P 9174 29 23 8;
  P 9176 43 37 30; P 9178 19 17 8; P 9179 10 6 5; P 9181 23 13 6; P 9183 30 13 1; P 9184 33 26 14;
  P 9187 20 18 4; P 9189 26 14 8; P 9192 21 18 13; P 9194 16 10 5; P 9195 14 13 1; P 9196 31 12 5;
  P 9197 14 12 5; P 9200 31 24 2; P 9203 28 20 6; P 9205 14 11 3; P 9208 35 10 9; P 9211 36 19 17;
  P 9213 38 7 5; P 9216 21 14 8; P 9219 30 6 4; P 9221 33 26 5; P 9222 33 23 11; P 9224 35 21 7;
  P 9227 38 29 3; P 9229 20 19 17; P 9230 17 12 8; P 9232 49 18 8; P 9235 23 22 2; P 9236 22 14 9;
  P 9237 18 16 12; P 9240 17 11 7; P 9243 5 2 1; P 9245 43 35 18; P 9246 27 18 3; P 9248 37 18 13;
  P 9251 8 3 2; P 9253 42 28 10; P 9254 24 17 13; P 9256 19 6 4; P 9259 22 16 6; P 9261 30 18 10;
  P 9264 39 17 14; P 9266 23 14 6; P 9267 23 8 5; P 9269 42 18 14; P 9272 13 4 3; P 9275 10 6 2;
  P 9277 11 3 2; P 9280 23 7 2; P 9283 20 7 6; P 9285 29 6 5; P 9286 25 20 14; P 9288 49 43 18; P 9291 8 5 1;
  P 9293 20 18 3; P 9296 29 17 15; P 9299 22 21 1; P 9301 35 25 18; P 9304 27 13 9; P 9307 31 25 4;
  P 9309 19 16 10; P 9312 21 19 16; P 9314 27 23 12; P 9315 26 21 8; P 9317 23 20 2; P 9318 18 6 3;
  P 9320 55 22 8; P 9323 18 4 1; P 9325 18 16 1; P 9326 35 23 20; P 9328 21 14 8; P 9331 31 30 2;
  P 9333 26 14 8; P 9336 17 5 3; P 9338 23 8 5; P 9339 23 14 1; P 9341 19 18 14; P 9342 19 10 8;
  P 9344 51 44 5; P 9346 18 10 3; P 9347 16 14 7; P 9348 19 9 3; P 9349 25 18 2; P 9352 31 26 15;
  P 9354 16 7 4; P 9355 22 16 4; P 9357 35 34 2; P 9360 28 23 1; P 9362 23 13 1; P 9363 26 21 17;
  P 9365 21 20 7; P 9368 38 7 1; P 9371 28 21 17; P 9373 28 10 4; P 9374 18 9 2; P 9376 23 5 1;
  P 9379 14 9 5; P 9381 19 9 6; P 9384 17 11 6; P 9387 31 30 9; P 9388 24 7 3; P 9389 20 7 3;
  P 9392 29 24 11; P 9395 17 15 4; P 9397 32 14 7; P 9400 18 13 1; P 9403 30 8 1; P 9405 18 4 1;
  P 9406 28 27 7; P 9408 28 15 6; P 9410 32 11 8; P 9411 24 22 1; P 9412 11 9 2; P 9413 11 10 9;
  P 9416 19 11 6; P 9419 30 19 13; P 9421 14 9 5; P 9422 22 10 9; P 9424 22 9 6; P 9426 21 6 5;
  P 9427 23 18 8; P 9428 21 17 7; P 9429 21 9 2; P 9430 37 18 5; P 9432 52 43 25; P 9434 19 14 12;
  P 9435 7 5 4; P 9437 14 12 1; P 9438 15 13 6; P 9440 25 22 14; P 9443 30 19 2; P 9445 34 14 12;
  P 9446 12 5 3; P 9448 23 21 20; P 9451 13 12 3; P 9452 18 14 13; P 9453 32 29 23; P 9456 35 19 5;
  P 9458 25 16 6; P 9459 36 18 13; P 9460 20 17 1; P 9461 32 28 6; P 9462 34 14 5; P 9464 37 18 13;
  P 9466 23 14 1; P 9467 27 14 7; P 9469 28 22 18; P 9472 45 40 15; P 9474 23 20 7; P 9475 29 25 2;
  P 9477 26 11 7; P 9480 18 9 2; P 9482 19 12 4; P 9483 20 10 5; P 9485 23 22 9; P 9488 25 12 7;
  P 9491 19 6 5; P 9493 38 22 3; P 9495 23 20 18; P 9496 29 17 15; P 9498 41 17 10; P 9499 29 20 10;
  P 9501 29 26 4; P 9504 19 15 6; P 9505 15 10 1; P 9506 12 7 5; P 9507 29 28 14; P 9509 13 9 2;
  P 9512 39 17 16; P 9514 28 21 9; P 9515 18 9 2; P 9517 32 18 11; P 9520 13 5 2; P 9523 8 4 2;
  P 9525 30 27 2; P 9526 16 10 1; P 9528 37 33 22; P 9531 32 14 2; P 9533 36 31 5; P 9536 31 26 6;
  P 9538 24 9 3; P 9539 38 27 13; P 9541 31 21 14; P 9544 43 32 9; P 9547 12 8 2; P 9549 37 34 32;
  P 9550 19 15 11; P 9552 11 4 1; P 9554 29 28 15; P 9555 24 22 10; P 9556 21 9 1; P 9557 27 20 1;
  P 9560 27 13 2; P 9563 25 9 2; P 9565 6 5 4; P 9568 49 26 14; P 9571 24 16 5; P 9572 31 19 9; P 9573 8 6 5;
  P 9574 38 37 8; P 9576 29 25 7; P 9579 34 33 6; P 9581 12 7 4; P 9584 36 29 27; P 9587 36 29 22;
  P 9589 28 22 15; P 9592 15 8 1; P 9595 28 18 15; P 9596 18 11 5; P 9597 28 25 22; P 9600 19 6 4;
  P 9602 21 5 2; P 9603 19 10 4; P 9604 13 11 9; P 9605 37 26 12; P 9606 15 12 1; P 9608 14 13 1;
  P 9611 14 6 5; P 9613 32 16 3; P 9616 25 8 2; P 9618 16 3 1; P 9619 29 14 10; P 9621 29 20 11;
  P 9624 31 17 7; P 9626 7 6 1; P 9627 25 19 18; P 9629 16 15 10; P 9632 30 23 5; P 9635 26 21 10;
  P 9637 21 18 6; P 9638 21 19 13; P 9640 33 7 3; P 9643 18 14 11; P 9645 9 7 6; P 9646 31 30 17;
  P 9648 31 24 21; P 9650 32 18 11; P 9651 22 14 4; P 9653 22 15 2; P 9656 19 16 2; P 9659 15 14 8;
  P 9661 22 14 6; P 9662 22 9 8; P 9664 35 21 1; P 9667 34 22 6; P 9669 29 27 24; P 9670 35 34 3;
  P 9672 17 9 3; P 9675 44 25 23; P 9677 30 27 12; P 9680 25 6 2; P 9683 46 37 21; P 9685 17 14 4;
  P 9688 20 9 2; P 9691 17 14 1; P 9693 10 6 3; P 9694 50 18 17; P 9696 36 27 21; P 9698 38 27 24;
  P 9699 30 6 1; P 9701 23 12 3; P 9703 13 7 1; P 9704 7 3 2; P 9706 22 15 11; P 9707 26 15 1;
  P 9709 16 13 10; P 9710 30 15 9; P 9712 27 19 17; P 9715 27 10 6; P 9717 9 6 2; P 9718 46 29 11;
  P 9720 37 4 2; P 9722 12 11 8; P 9723 32 29 25; P 9724 30 28 15; P 9725 14 8 5; P 9726 29 28 23;
  P 9728 30 5 2; P 9731 16 12 10; P 9733 22 21 8; P 9736 15 7 6; P 9739 15 14 2; P 9741 11 8 1;
  P 9742 30 18 15; P 9744 36 9 2; P 9747 26 8 1; P 9749 20 7 6; P 9752 42 17 3; P 9755 6 5 1; P 9757 22 14 6;
  P 9760 56 49 47; P 9763 30 18 1; P 9764 25 13 9; P 9765 28 17 11; P 9768 41 23 22; P 9771 29 8 1;
  P 9773 32 10 6; P 9776 24 19 1; P 9778 24 18 15; P 9779 40 21 20; P 9781 40 28 15; P 9784 38 37 9;
  P 9787 20 13 9; P 9789 17 8 2; P 9792 27 26 21; P 9794 24 15 6; P 9795 26 5 4; P 9797 35 32 2;
  P 9800 42 41 10; P 9802 12 10 3; P 9803 18 10 2; P 9805 22 21 18; P 9806 30 9 8; P 9808 43 32 21;
  P 9809 19 15 10; P 9811 41 28 27; P 9812 31 30 22; P 9813 26 17 12; P 9815 27 26 8; P 9816 46 33 22;
  P 9818 30 19 10; P 9819 18 4 3; P 9821 34 23 18; P 9824 13 10 3; P 9826 22 10 7; P 9827 13 12 5;
  P 9829 4 3 1; P 9832 39 37 25; P 9834 32 25 7; P 9835 32 29 1; P 9836 18 13 10; P 9837 35 16 2;
  P 9838 25 19 12; P 9840 49 47 13; P 9842 35 28 24; P 9843 18 12 2; P 9845 38 18 11; P 9848 25 23 10;
  P 9850 19 16 4; P 9851 11 6 5; P 9853 18 11 10; P 9856 36 15 1; P 9859 34 28 1; P 9861 33 18 16;
  P 9862 13 10 3; P 9864 35 32 21; P 9866 34 27 14; P 9867 26 8 2; P 9869 23 8 6; P 9872 13 11 3;
  P 9875 19 18 2; P 9877 19 16 15; P 9880 35 28 5; P 9881 27 7 5; P 9883 35 34 11; P 9885 38 15 3;
  P 9888 33 6 4; P 9891 46 38 7; P 9892 31 4 1; P 9893 32 28 18; P 9894 27 7 1; P 9896 39 38 26;
  P 9898 23 13 5; P 9899 34 21 13; P 9901 10 4 3; P 9902 27 19 10; P 9904 21 10 2; P 9907 10 7 1;
  P 9909 11 10 7; P 9910 27 16 15; P 9912 42 35 15; P 9915 29 17 8; P 9917 32 9 6; P 9920 49 18 14;
  P 9923 37 33 26; P 9924 30 29 26; P 9925 12 9 7; P 9928 39 38 31; P 9931 34 10 3; P 9933 23 6 2;
  P 9934 34 7 3; P 9936 22 21 1; P 9938 25 19 9; P 9939 32 26 17; P 9941 29 12 10; P 9944 15 14 6;
  P 9947 23 17 8; P 9949 32 24 10; P 9952 31 30 11; P 9955 9 8 5; P 9957 25 11 4; P 9958 17 14 4;
  P 9960 30 15 10; P 9962 20 14 3; P 9963 34 29 20; P 9965 34 24 23; P 9968 36 3 2; P 9971 11 8 5;
  P 9973 27 24 12; P 9976 21 19 5; P 9979 26 10 2; P 9981 30 27 22; P 9984 27 10 7; P 9987 14 11 10;
  P 9989 21 20 6; P 9992 7 4 2; P 9994 29 22 3; P 9995 41 40 31; P 9997 26 10 6; P 10000 19 13 9].

(** src/math/poly.c:2412-2707, 883 entries *)
Definition ansi_pentanomials : list polynomial := [
  P 160 1 2 117; P 163 1 2 8; P 164 1 2 49; P 165 1 2 25; P 168 1 2 65; P 171 1 3 42; P 173 1 2 10;
  P 176 1 2 43; P 179 1 2 4; P 181 1 2 89; P 184 1 2 81; P 187 1 2 20; P 188 1 2 60; P 189 1 2 49;
  P 190 1 2 47; P 192 1 2 7; P 195 1 2 37; P 197 1 2 21; P 200 1 2 81; P 203 1 2 45; P 205 1 2 21;
  P 206 1 2 63; P 208 1 2 83; P 211 1 2 165; P 213 1 2 62; P 216 1 2 107; P 219 1 2 65; P 221 1 2 18;
  P 222 1 2 73; P 224 1 2 159; P 226 1 2 30; P 227 1 2 21; P 229 1 2 21; P 230 1 2 13; P 232 1 2 23;
  P 235 1 2 45; P 237 1 2 104; P 240 1 3 49; P 243 1 2 17; P 245 1 2 37; P 246 1 2 11; P 248 1 2 243;
  P 251 1 2 45; P 254 1 2 7; P 256 1 2 155; P 259 1 2 254; P 261 1 2 74; P 262 1 2 207; P 264 1 2 169;
  P 267 1 2 29; P 269 1 2 117; P 272 1 3 56; P 275 1 2 28; P 277 1 2 33; P 280 1 2 113; P 283 1 2 200;
  P 285 1 2 77; P 288 1 2 191; P 290 1 2 70; P 291 1 2 76; P 293 1 3 154; P 296 1 2 123; P 298 1 2 78;
  P 299 1 2 21; P 301 1 2 26; P 304 1 2 11; P 306 1 2 106; P 307 1 2 93; P 309 1 2 26; P 311 1 3 155;
  P 312 1 2 83; P 315 1 2 142; P 317 1 3 68; P 320 1 2 7; P 323 1 2 21; P 325 1 2 53; P 326 1 2 67;
  P 328 1 2 51; P 331 1 2 134; P 334 1 2 5; P 335 1 2 250; P 336 1 2 77; P 338 1 2 112; P 339 1 2 26;
  P 341 1 2 57; P 344 1 2 7; P 347 1 2 96; P 349 1 2 186; P 352 1 2 263; P 355 1 2 138; P 356 1 2 69;
  P 357 1 2 28; P 360 1 2 49; P 361 1 2 44; P 363 1 2 38; P 365 1 2 109; P 368 1 2 85; P 371 1 2 156;
  P 373 1 3 172; P 374 1 2 109; P 376 1 2 77; P 379 1 2 222; P 381 1 2 5; P 384 1 2 299; P 387 1 2 146;
  P 389 1 2 159; P 392 1 2 145; P 395 1 2 333; P 397 1 2 125; P 398 1 3 23; P 400 1 2 245; P 403 1 2 80;
  P 405 1 2 38; P 408 1 2 323; P 410 1 2 16; P 411 1 2 50; P 413 1 2 33; P 416 1 3 76; P 419 1 2 129;
  P 421 1 2 81; P 424 1 2 177; P 427 1 2 245; P 429 1 2 14; P 430 1 2 263; P 432 1 2 103; P 434 1 2 64;
  P 435 1 2 166; P 437 1 2 6; P 440 1 2 37; P 442 1 2 32; P 443 1 2 57; P 445 1 2 225; P 448 1 3 83;
  P 451 1 2 33; P 452 1 2 10; P 453 1 2 88; P 454 1 2 195; P 456 1 2 275; P 459 1 2 332; P 461 1 2 247;
  P 464 1 2 310; P 466 1 2 78; P 467 1 2 210; P 469 1 2 149; P 472 1 2 33; P 475 1 2 68; P 477 1 2 121;
  P 480 1 2 149; P 482 1 2 13; P 483 1 2 352; P 485 1 2 70; P 488 1 2 123; P 491 1 2 270; P 493 1 2 171;
  P 496 1 3 52; P 499 1 2 174; P 501 1 2 332; P 502 1 2 99; P 504 1 3 148; P 507 1 2 26; P 509 1 2 94;
  P 512 1 2 51; P 515 1 2 73; P 517 1 2 333; P 520 1 2 291; P 523 1 2 66; P 525 1 2 92; P 528 1 2 35;
  P 530 1 2 25; P 531 1 2 53; P 533 1 2 37; P 535 1 2 143; P 536 1 2 165; P 539 1 2 37; P 541 1 2 36;
  P 542 1 3 212; P 544 1 2 87; P 546 1 2 8; P 547 1 2 165; P 548 1 2 385; P 549 1 3 274; P 552 1 2 41;
  P 554 1 2 162; P 555 1 2 326; P 557 1 2 288; P 560 1 2 157; P 562 1 2 56; P 563 1 4 159; P 565 1 2 66;
  P 568 1 2 291; P 571 1 2 408; P 572 1 2 238; P 573 1 2 220; P 576 1 3 52; P 578 1 2 138; P 579 1 3 526;
  P 581 1 2 138; P 584 1 2 361; P 586 1 2 14; P 587 1 2 130; P 589 1 2 365; P 591 1 2 38; P 592 1 2 143;
  P 595 1 2 9; P 597 1 2 64; P 598 1 2 131; P 600 1 2 239; P 603 1 2 446; P 605 1 2 312; P 608 1 2 213;
  P 611 1 2 13; P 613 1 2 377; P 616 1 2 465; P 619 1 2 494; P 621 1 2 17; P 624 1 2 71; P 627 1 2 37;
  P 629 1 2 121; P 630 1 2 49; P 632 1 2 9; P 635 1 2 64; P 637 1 2 84; P 638 1 2 127; P 640 1 3 253;
  P 643 1 2 153; P 644 1 2 24; P 645 1 2 473; P 648 1 2 235; P 653 1 2 37; P 656 1 2 39; P 659 1 2 25;
  P 661 1 2 80; P 664 1 2 177; P 666 1 2 100; P 667 1 2 161; P 669 1 2 314; P 672 1 2 91; P 674 1 2 22;
  P 675 1 2 214; P 677 1 2 325; P 678 1 2 95; P 680 1 2 91; P 681 1 2 83; P 683 1 2 153; P 685 1 3 4;
  P 688 1 2 71; P 691 1 2 242; P 693 1 2 250; P 696 1 2 241; P 699 1 2 40; P 701 1 2 466; P 703 1 2 123;
  P 704 1 2 277; P 706 1 2 27; P 707 1 2 141; P 709 1 2 9; P 710 1 3 29; P 712 1 2 623; P 715 1 3 458;
  P 717 1 2 320; P 720 1 2 625; P 723 1 2 268; P 725 1 2 331; P 728 1 2 51; P 731 1 2 69; P 733 1 2 92;
  P 734 1 2 67; P 736 1 2 359; P 739 1 2 60; P 741 1 2 34; P 744 1 2 347; P 747 1 2 158; P 749 1 2 357;
  P 752 1 2 129; P 755 1 4 159; P 757 1 2 359; P 760 1 2 17; P 763 1 2 17; P 764 1 2 12; P 765 1 2 137;
  P 766 1 3 280; P 768 1 2 115; P 770 1 2 453; P 771 1 2 86; P 773 1 2 73; P 776 1 2 51; P 779 1 2 456;
  P 781 1 2 209; P 784 1 2 59; P 786 1 2 118; P 787 1 2 189; P 788 1 2 375; P 789 1 2 5; P 790 1 2 111;
  P 792 1 2 403; P 795 1 2 137; P 796 1 2 36; P 797 1 2 193; P 800 1 2 463; P 802 1 2 102; P 803 1 2 208;
  P 805 1 2 453; P 808 1 3 175; P 811 1 2 18; P 813 1 2 802; P 816 1 3 51; P 819 1 2 149; P 821 1 2 177;
  P 824 1 2 495; P 827 1 2 189; P 829 1 2 560; P 830 1 2 241; P 832 1 2 39; P 835 1 2 350; P 836 1 2 606;
  P 837 1 2 365; P 840 1 2 341; P 843 1 2 322; P 848 1 2 225; P 851 1 2 442; P 853 1 2 461; P 854 1 2 79;
  P 856 1 2 842; P 859 1 2 594; P 863 1 2 90; P 864 1 2 607; P 867 1 2 380; P 869 1 2 82; P 872 1 2 691;
  P 874 1 2 110; P 875 1 2 66; P 877 1 2 140; P 878 1 2 343; P 880 1 3 221; P 883 1 2 488; P 885 1 2 707;
  P 886 1 2 227; P 888 1 2 97; P 891 1 2 364; P 893 1 2 13; P 896 1 2 19; P 899 1 3 898; P 901 1 2 581;
  P 904 1 3 60; P 907 1 3 26; P 909 1 3 168; P 910 1 2 357; P 912 1 2 569; P 914 1 2 4; P 915 1 2 89;
  P 917 1 2 22; P 920 1 3 517; P 922 1 2 24; P 923 1 2 142; P 925 1 2 308; P 928 1 2 33; P 929 1 2 36;
  P 931 1 2 72; P 933 1 2 527; P 934 1 3 800; P 936 1 3 27; P 939 1 2 142; P 940 1 2 204; P 941 1 2 573;
  P 944 1 2 487; P 946 1 3 83; P 947 1 2 400; P 949 1 2 417; P 950 1 2 859; P 952 1 3 311; P 955 1 2 606;
  P 957 1 2 158; P 958 1 2 191; P 960 1 2 491; P 962 1 2 18; P 963 1 2 145; P 965 1 2 213; P 968 1 2 21;
  P 970 1 2 260; P 971 1 2 6; P 973 1 2 113; P 974 1 2 211; P 976 1 2 285; P 978 1 2 376; P 980 1 2 316;
  P 981 1 2 383; P 984 1 2 349; P 987 1 3 142; P 989 1 2 105; P 992 1 2 585; P 995 1 3 242; P 997 1 2 453;
  P 1000 1 3 68; P 1002 1 2 266; P 1003 1 2 410; P 1004 1 2 96; P 1005 1 2 41; P 1006 1 2 63; P 1008 1 2 703;
  P 1011 1 2 17; P 1013 1 2 180; P 1016 1 2 49; P 1017 1 2 746; P 1018 1 2 27; P 1019 1 2 96; P 1021 1 2 5;
  P 1024 1 2 515; P 1027 1 2 378; P 1032 1 2 901; P 1035 1 2 76; P 1037 1 2 981; P 1038 1 2 41;
  P 1040 1 2 429; P 1043 1 3 869; P 1045 1 2 378; P 1046 1 2 39; P 1048 1 3 172; P 1051 1 3 354;
  P 1053 1 2 290; P 1056 1 2 11; P 1059 1 3 6; P 1061 1 2 166; P 1064 1 2 946; P 1066 1 2 258; P 1067 1 2 69;
  P 1068 1 2 223; P 1069 1 2 146; P 1070 1 3 94; P 1072 1 2 443; P 1073 1 3 235; P 1074 1 2 395;
  P 1075 1 2 92; P 1076 1 2 22; P 1077 1 2 521; P 1080 1 2 151; P 1083 1 2 538; P 1088 1 2 531;
  P 1091 1 2 82; P 1093 1 2 173; P 1096 1 2 351; P 1099 1 2 464; P 1101 1 2 14; P 1104 1 2 259;
  P 1107 1 2 176; P 1109 1 2 501; P 1112 1 2 1045; P 1114 1 2 345; P 1115 1 2 268; P 1117 1 2 149;
  P 1118 1 2 475; P 1120 1 3 386; P 1123 1 2 641; P 1124 1 2 156; P 1125 1 2 206; P 1128 1 3 7;
  P 1131 1 2 188; P 1132 1 2 20; P 1133 1 2 667; P 1136 1 2 177; P 1139 1 2 45; P 1141 1 2 134; P 1143 1 2 7;
  P 1144 1 2 431; P 1147 1 2 390; P 1149 1 2 221; P 1150 1 2 63; P 1152 1 2 971; P 1155 1 2 94;
  P 1157 1 2 105; P 1160 1 2 889; P 1162 1 2 288; P 1163 1 2 33; P 1165 1 2 494; P 1168 1 2 473;
  P 1171 1 2 396; P 1172 1 2 426; P 1173 1 2 673; P 1176 1 2 19; P 1179 1 2 640; P 1181 1 2 82;
  P 1184 1 2 1177; P 1187 1 2 438; P 1189 1 2 102; P 1192 1 3 831; P 1194 1 2 317; P 1195 1 2 293;
  P 1197 1 2 269; P 1200 1 3 739; P 1203 1 2 226; P 1205 1 2 4; P 1208 1 2 915; P 1211 1 2 373;
  P 1213 1 2 245; P 1216 1 2 155; P 1219 1 2 225; P 1221 1 2 101; P 1222 1 2 215; P 1224 1 2 157;
  P 1227 1 2 361; P 1229 1 2 627; P 1232 1 2 225; P 1235 1 2 642; P 1237 1 2 150; P 1240 1 2 567;
  P 1243 1 2 758; P 1244 1 2 126; P 1245 1 2 212; P 1248 1 2 1201; P 1250 1 2 37; P 1251 1 2 1004;
  P 1253 1 2 141; P 1254 1 2 697; P 1256 1 2 171; P 1258 1 2 503; P 1259 1 2 192; P 1261 1 2 14;
  P 1262 1 2 793; P 1264 1 2 285; P 1267 1 2 197; P 1269 1 2 484; P 1272 1 2 223; P 1274 1 2 486;
  P 1275 1 2 25; P 1277 1 2 451; P 1280 1 2 843; P 1283 1 2 70; P 1285 1 2 564; P 1288 1 2 215;
  P 1290 1 2 422; P 1291 1 2 245; P 1292 1 2 78; P 1293 1 2 26; P 1296 1 2 379; P 1299 1 2 172;
  P 1301 1 2 297; P 1303 1 2 306; P 1304 1 3 574; P 1307 1 2 157; P 1309 1 2 789; P 1312 1 2 1265;
  P 1315 1 2 270; P 1316 1 2 12; P 1317 1 2 254; P 1318 1 3 94; P 1320 1 2 835; P 1322 1 2 538;
  P 1323 1 2 1198; P 1325 1 2 526; P 1328 1 2 507; P 1330 1 2 609; P 1331 1 2 289; P 1333 1 2 276;
  P 1336 1 2 815; P 1339 1 2 284; P 1341 1 2 53; P 1342 1 2 477; P 1344 1 2 469; P 1346 1 2 57;
  P 1347 1 2 61; P 1349 1 2 40; P 1352 1 2 583; P 1355 1 2 117; P 1357 1 2 495; P 1360 1 2 393;
  P 1363 1 2 852; P 1365 1 2 329; P 1368 1 2 41; P 1370 1 2 108; P 1371 1 2 145; P 1373 1 2 613;
  P 1376 1 2 1201; P 1378 1 2 362; P 1379 1 2 400; P 1381 1 2 56; P 1382 1 3 58; P 1384 1 2 1131;
  P 1387 1 2 33; P 1389 1 2 41; P 1392 1 2 485; P 1394 1 2 30; P 1395 1 2 233; P 1397 1 2 397;
  P 1400 1 2 493; P 1403 1 2 717; P 1405 1 2 558; P 1406 1 2 13; P 1408 1 3 45; P 1411 1 2 200;
  P 1413 1 2 101; P 1416 1 3 231; P 1418 1 2 283; P 1419 1 2 592; P 1421 1 2 30; P 1424 1 2 507;
  P 1427 1 2 900; P 1429 1 2 149; P 1432 1 2 251; P 1435 1 2 126; P 1437 1 2 545; P 1439 1 2 535;
  P 1440 1 3 1023; P 1443 1 2 413; P 1445 1 2 214; P 1448 1 3 212; P 1450 1 2 155; P 1451 1 2 193;
  P 1453 1 2 348; P 1456 1 2 1011; P 1459 1 2 1032; P 1461 1 2 446; P 1462 1 2 165; P 1464 1 2 275;
  P 1467 1 2 113; P 1469 1 2 775; P 1472 1 2 613; P 1474 1 2 59; P 1475 1 2 208; P 1477 1 2 1325;
  P 1480 1 2 285; P 1483 1 2 1077; P 1484 1 2 61; P 1485 1 2 655; P 1488 1 2 463; P 1491 1 2 544;
  P 1493 1 2 378; P 1494 1 2 731; P 1496 1 2 181; P 1498 1 2 416; P 1499 1 2 477; P 1501 1 2 60;
  P 1502 1 2 111; P 1504 1 2 207; P 1506 1 2 533; P 1507 1 2 900; P 1509 1 2 209; P 1512 1 2 1121;
  P 1515 1 2 712; P 1517 1 2 568; P 1520 1 2 81; P 1522 1 2 47; P 1523 1 2 240; P 1525 1 2 102;
  P 1528 1 2 923; P 1531 1 2 1125; P 1532 1 2 466; P 1533 1 2 763; P 1536 1 2 881; P 1538 1 2 6;
  P 1539 1 2 80; P 1541 1 2 4; P 1544 1 2 99; P 1546 1 2 810; P 1547 1 2 493; P 1549 1 2 426; P 1552 1 2 83;
  P 1555 1 2 254; P 1557 1 2 20; P 1560 1 2 11; P 1563 1 2 41; P 1565 1 2 18; P 1568 1 2 133; P 1571 1 2 21;
  P 1573 1 2 461; P 1574 1 2 331; P 1576 1 2 147; P 1579 1 2 374; P 1581 1 2 160; P 1584 1 2 895;
  P 1587 1 2 433; P 1589 1 2 882; P 1592 1 2 223; P 1594 1 2 971; P 1595 1 2 18; P 1597 1 2 42;
  P 1598 1 2 385; P 1600 1 2 57; P 1603 1 2 917; P 1605 1 2 46; P 1608 1 2 271; P 1610 1 2 250;
  P 1611 1 2 58; P 1613 1 2 48; P 1614 1 2 1489; P 1616 1 2 139; P 1619 1 2 289; P 1621 1 2 1577;
  P 1622 1 2 1341; P 1624 1 2 1095; P 1626 1 2 191; P 1627 1 2 189; P 1629 1 2 397; P 1632 1 2 211;
  P 1635 1 2 113; P 1637 1 2 234; P 1640 1 2 715; P 1643 1 2 760; P 1644 1 2 236; P 1645 1 2 938;
  P 1646 1 2 435; P 1648 1 2 77; P 1651 1 2 873; P 1653 1 2 82; P 1654 1 3 201; P 1656 1 2 361;
  P 1658 1 2 552; P 1659 1 2 374; P 1661 1 2 84; P 1662 1 3 958; P 1664 1 2 399; P 1667 1 2 1020;
  P 1669 1 2 425; P 1670 1 2 19; P 1672 1 2 405; P 1675 1 2 77; P 1677 1 2 844; P 1680 1 2 1549;
  P 1682 1 2 354; P 1683 1 2 1348; P 1684 1 2 474; P 1685 1 2 493; P 1686 1 2 887; P 1688 1 2 921;
  P 1690 1 2 200; P 1691 1 2 556; P 1693 1 2 137; P 1696 1 2 737; P 1699 1 2 405; P 1701 1 2 568;
  P 1702 1 2 245; P 1704 1 3 55; P 1706 1 2 574; P 1707 1 2 221; P 1709 1 2 201; P 1712 1 2 445;
  P 1714 1 2 191; P 1715 1 2 612; P 1717 1 2 881; P 1718 1 2 535; P 1720 1 2 525; P 1723 1 2 137;
  P 1725 1 2 623; P 1727 1 2 22; P 1728 1 2 545; P 1730 1 2 316; P 1731 1 2 925; P 1732 1 2 75;
  P 1733 1 2 285; P 1736 1 2 435; P 1739 1 2 409; P 1741 1 3 226; P 1744 1 2 35; P 1747 1 2 93;
  P 1749 1 2 236; P 1752 1 2 559; P 1754 1 2 75; P 1755 1 2 316; P 1757 1 2 21; P 1758 1 2 221;
  P 1760 1 3 1612; P 1761 1 2 131; P 1762 1 2 318; P 1763 1 2 345; P 1765 1 2 165; P 1766 1 2 1029;
  P 1768 1 2 1403; P 1771 1 2 297; P 1773 1 2 50; P 1776 1 2 17; P 1779 1 3 1068; P 1781 1 2 18;
  P 1784 1 2 1489; P 1786 1 2 614; P 1787 1 2 457; P 1789 1 2 80; P 1792 1 2 341; P 1794 1 2 95;
  P 1795 1 2 89; P 1796 1 2 829; P 1797 1 2 80; P 1800 1 2 1013; P 1803 1 2 248; P 1805 1 2 82;
  P 1808 1 2 25; P 1811 1 2 117; P 1812 1 2 758; P 1813 1 3 884; P 1816 1 2 887; P 1819 1 2 116;
  P 1821 1 2 326; P 1822 1 3 31; P 1824 1 2 821; P 1826 1 2 298; P 1827 1 2 154; P 1829 1 2 162;
  P 1832 1 3 1078; P 1834 1 2 210; P 1835 1 2 288; P 1837 1 2 200; P 1840 1 2 195; P 1842 1 2 799;
  P 1843 1 2 872; P 1845 1 2 526; P 1848 1 2 871; P 1850 1 2 79; P 1851 1 2 250; P 1852 1 2 339;
  P 1853 1 2 705; P 1856 1 2 585; P 1858 1 2 1368; P 1859 1 2 120; P 1861 1 2 509; P 1864 1 2 1379;
  P 1867 1 2 117; P 1868 1 2 250; P 1869 1 2 617; P 1872 1 3 60; P 1874 1 2 70; P 1875 1 2 412;
  P 1876 1 2 122; P 1877 1 2 796; P 1880 1 2 1647; P 1882 1 2 128; P 1883 1 2 1062; P 1885 1 2 813;
  P 1888 1 2 923; P 1891 1 2 1766; P 1892 1 3 497; P 1893 1 2 461; P 1894 1 3 215; P 1896 1 2 451;
  P 1897 1 2 324; P 1898 1 2 613; P 1899 1 2 485; P 1901 1 2 330; P 1904 1 2 337; P 1907 1 2 45;
  P 1909 1 2 225; P 1910 1 3 365; P 1912 1 2 599; P 1914 1 2 544; P 1915 1 2 473; P 1916 1 2 502;
  P 1917 1 2 485; P 1920 1 2 67; P 1922 1 2 36; P 1923 1 4 40; P 1925 1 2 576; P 1928 1 2 763;
  P 1930 1 2 155; P 1931 1 2 648; P 1933 1 2 971; P 1936 1 2 117; P 1939 1 2 5; P 1941 1 2 1133;
  P 1942 1 2 147; P 1944 1 2 617; P 1947 1 2 1162; P 1949 1 2 621; P 1952 1 3 65; P 1954 1 2 1226;
  P 1955 1 2 109; P 1957 1 2 17; P 1960 1 2 939; P 1963 1 2 1137; P 1965 1 2 364; P 1968 1 3 922;
  P 1970 1 2 388; P 1971 1 2 100; P 1972 1 2 474; P 1973 1 2 438; P 1976 1 3 1160; P 1978 1 2 158;
  P 1979 1 2 369; P 1981 1 2 96; P 1982 1 2 1027; P 1984 1 2 129; P 1987 1 2 80; P 1989 1 2 719;
  P 1992 1 2 1241; P 1995 1 2 37; P 1997 1 2 835; P 1998 1 3 1290; P 2000 1 2 981].
