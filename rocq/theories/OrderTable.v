(** Generated by tools/extract_orders.py from /repo/include/boost/atomic; do not edit.

    [functions]: the functions that have a memory order and call others, one entry per definition, with the file
    (below include/boost/atomic) and line, the name, the default of each order parameter, what is asserted about the orders,
    where the control flow begins, and the calls that take an order.  Each call has its line, the name of what is called,
    the orders passed and the places where control may go when it returns true and when it returns false; the number of
    calls stands for the end of the function.
    [machine_functions]: the functions that consist of machine code, compiler intrinsics or fences. *)
From Coq Require Import List String.
Require Import Verif.Order Verif.OrderFlow.
Import ListNotations.
Open Scope string_scope.
Open Scope list_scope.

Definition functions : list function := [
  Function "atomic.hpp" 63 "operator=" [] [] [0]
    [Step 65 "store" [] [1] [1]];
  Function "atomic.hpp" 69 "operator=" [] [] [0]
    [Step 71 "store" [] [1] [1]];
  Function "atomic.hpp" 75 "operator value_type" [] [] [0]
    [Step 77 "load" [] [1] [1]];
  Function "atomic_ref.hpp" 64 "operator=" [] [] [0]
    [Step 66 "store" [] [1] [1]];
  Function "atomic_ref.hpp" 70 "operator value_type" [] [] [0]
    [Step 72 "load" [] [1] [1]];
  Function "ipc_atomic.hpp" 60 "operator=" [] [] [0]
    [Step 62 "store" [] [1] [1]];
  Function "ipc_atomic.hpp" 66 "operator=" [] [] [0]
    [Step 68 "store" [] [1] [1]];
  Function "ipc_atomic.hpp" 72 "operator value_type" [] [] [0]
    [Step 74 "load" [] [1] [1]];
  Function "ipc_atomic_ref.hpp" 64 "operator=" [] [] [0]
    [Step 66 "store" [] [1] [1]];
  Function "ipc_atomic_ref.hpp" 70 "operator value_type" [] [] [0]
    [Step 72 "load" [] [1] [1]];
  Function "detail/atomic_impl.hpp" 228 "store" [Some SeqCst] [Differs 0 Consume; Differs 0 Acquire; Differs 0 AcqRel] [0]
    [Step 234 "store" [Param 0] [1] [1]];
  Function "detail/atomic_impl.hpp" 237 "load" [Some SeqCst] [Differs 0 Release; Differs 0 AcqRel] [0]
    [Step 242 "load" [Param 0] [1] [1]];
  Function "detail/atomic_impl.hpp" 245 "exchange" [Some SeqCst] [] [0]
    [Step 247 "exchange" [Param 0] [1] [1]];
  Function "detail/atomic_impl.hpp" 250 "compare_exchange_strong" [None; None] [Differs 1 Release; Differs 1 AcqRel; NotStronger 0 1] [0]
    [Step 256 "compare_exchange_strong_impl" [Param 0; Param 1] [1] [1]];
  Function "detail/atomic_impl.hpp" 259 "compare_exchange_strong" [Some SeqCst] [] [0]
    [Step 261 "compare_exchange_strong" [Param 0; Deduced 0] [1] [1]];
  Function "detail/atomic_impl.hpp" 264 "compare_exchange_weak" [None; None] [Differs 1 Release; Differs 1 AcqRel; NotStronger 0 1] [0]
    [Step 270 "compare_exchange_weak_impl" [Param 0; Param 1] [1] [1]];
  Function "detail/atomic_impl.hpp" 273 "compare_exchange_weak" [Some SeqCst] [] [0]
    [Step 275 "compare_exchange_weak" [Param 0; Deduced 0] [1] [1]];
  Function "detail/atomic_impl.hpp" 278 "wait" [Some SeqCst] [Differs 0 Release; Differs 0 AcqRel] [0]
    [Step 283 "wait" [Param 0] [1] [1]];
  Function "detail/atomic_impl.hpp" 288 "wait_until" [Some SeqCst] [Differs 0 Release; Differs 0 AcqRel] [0]
    [Step 296 "wait_until" [Param 0] [1] [1]];
  Function "detail/atomic_impl.hpp" 302 "wait_for" [Some SeqCst] [Differs 0 Release; Differs 0 AcqRel] [0]
    [Step 310 "wait_for" [Param 0] [1] [1]];
  Function "detail/atomic_impl.hpp" 316 "compare_exchange_strong_impl" [None; None] [] [0]
    [Step 318 "compare_exchange_strong" [Param 0; Param 1] [1] [1]];
  Function "detail/atomic_impl.hpp" 323 "compare_exchange_strong_impl" [None; None] [] [0]
    [Step 326 "compare_exchange_strong" [Param 0; Param 1] [1] [1]];
  Function "detail/atomic_impl.hpp" 333 "compare_exchange_weak_impl" [None; None] [] [0]
    [Step 335 "compare_exchange_weak" [Param 0; Param 1] [1] [1]];
  Function "detail/atomic_impl.hpp" 340 "compare_exchange_weak_impl" [None; None] [] [0]
    [Step 343 "compare_exchange_weak" [Param 0; Param 1] [1] [1]];
  Function "detail/atomic_impl.hpp" 389 "store" [Some SeqCst] [Differs 0 Consume; Differs 0 Acquire; Differs 0 AcqRel] [0]
    [Step 395 "store" [Param 0] [1] [1]];
  Function "detail/atomic_impl.hpp" 398 "load" [Some SeqCst] [Differs 0 Release; Differs 0 AcqRel] [0]
    [Step 403 "load" [Param 0] [1] [1]];
  Function "detail/atomic_impl.hpp" 406 "exchange" [Some SeqCst] [] [0]
    [Step 408 "exchange" [Param 0] [1] [1]];
  Function "detail/atomic_impl.hpp" 411 "compare_exchange_strong" [None; None] [Differs 1 Release; Differs 1 AcqRel; NotStronger 0 1] [0]
    [Step 417 "compare_exchange_strong_impl" [Param 0; Param 1] [1] [1]];
  Function "detail/atomic_impl.hpp" 420 "compare_exchange_strong" [Some SeqCst] [] [0]
    [Step 422 "compare_exchange_strong" [Param 0; Deduced 0] [1] [1]];
  Function "detail/atomic_impl.hpp" 425 "compare_exchange_weak" [None; None] [Differs 1 Release; Differs 1 AcqRel; NotStronger 0 1] [0]
    [Step 431 "compare_exchange_weak_impl" [Param 0; Param 1] [1] [1]];
  Function "detail/atomic_impl.hpp" 434 "compare_exchange_weak" [Some SeqCst] [] [0]
    [Step 436 "compare_exchange_weak" [Param 0; Deduced 0] [1] [1]];
  Function "detail/atomic_impl.hpp" 439 "fetch_and" [Some SeqCst] [] [0]
    [Step 441 "fetch_and" [Param 0] [1] [1]];
  Function "detail/atomic_impl.hpp" 444 "fetch_or" [Some SeqCst] [] [0]
    [Step 446 "fetch_or" [Param 0] [1] [1]];
  Function "detail/atomic_impl.hpp" 449 "fetch_xor" [Some SeqCst] [] [0]
    [Step 451 "fetch_xor" [Param 0] [1] [1]];
  Function "detail/atomic_impl.hpp" 454 "fetch_complement" [Some SeqCst] [] [0]
    [Step 456 "fetch_complement" [Param 0] [1] [1]];
  Function "detail/atomic_impl.hpp" 459 "bitwise_and" [Some SeqCst] [] [0]
    [Step 461 "bitwise_and" [Param 0] [1] [1]];
  Function "detail/atomic_impl.hpp" 464 "bitwise_or" [Some SeqCst] [] [0]
    [Step 466 "bitwise_or" [Param 0] [1] [1]];
  Function "detail/atomic_impl.hpp" 469 "bitwise_xor" [Some SeqCst] [] [0]
    [Step 471 "bitwise_xor" [Param 0] [1] [1]];
  Function "detail/atomic_impl.hpp" 474 "bitwise_complement" [Some SeqCst] [] [0]
    [Step 476 "bitwise_complement" [Param 0] [1] [1]];
  Function "detail/atomic_impl.hpp" 479 "opaque_and" [Some SeqCst] [] [0]
    [Step 481 "opaque_and" [Param 0] [1] [1]];
  Function "detail/atomic_impl.hpp" 484 "opaque_or" [Some SeqCst] [] [0]
    [Step 486 "opaque_or" [Param 0] [1] [1]];
  Function "detail/atomic_impl.hpp" 489 "opaque_xor" [Some SeqCst] [] [0]
    [Step 491 "opaque_xor" [Param 0] [1] [1]];
  Function "detail/atomic_impl.hpp" 494 "opaque_complement" [Some SeqCst] [] [0]
    [Step 496 "opaque_complement" [Param 0] [1] [1]];
  Function "detail/atomic_impl.hpp" 499 "and_and_test" [Some SeqCst] [] [0]
    [Step 501 "and_and_test" [Param 0] [1] [1]];
  Function "detail/atomic_impl.hpp" 504 "or_and_test" [Some SeqCst] [] [0]
    [Step 506 "or_and_test" [Param 0] [1] [1]];
  Function "detail/atomic_impl.hpp" 509 "xor_and_test" [Some SeqCst] [] [0]
    [Step 511 "xor_and_test" [Param 0] [1] [1]];
  Function "detail/atomic_impl.hpp" 514 "complement_and_test" [Some SeqCst] [] [0]
    [Step 516 "complement_and_test" [Param 0] [1] [1]];
  Function "detail/atomic_impl.hpp" 519 "bit_test_and_set" [Some SeqCst] [] [0]
    [Step 522 "bit_test_and_set" [Param 0] [1] [1]];
  Function "detail/atomic_impl.hpp" 525 "bit_test_and_reset" [Some SeqCst] [] [0]
    [Step 528 "bit_test_and_reset" [Param 0] [1] [1]];
  Function "detail/atomic_impl.hpp" 531 "bit_test_and_complement" [Some SeqCst] [] [0]
    [Step 534 "bit_test_and_complement" [Param 0] [1] [1]];
  Function "detail/atomic_impl.hpp" 537 "operator&=" [] [] [0]
    [Step 539 "bitwise_and" [] [1] [1]];
  Function "detail/atomic_impl.hpp" 542 "operator|=" [] [] [0]
    [Step 544 "bitwise_or" [] [1] [1]];
  Function "detail/atomic_impl.hpp" 547 "operator^=" [] [] [0]
    [Step 549 "bitwise_xor" [] [1] [1]];
  Function "detail/atomic_impl.hpp" 552 "wait" [Some SeqCst] [Differs 0 Release; Differs 0 AcqRel] [0]
    [Step 557 "wait" [Param 0] [1] [1]];
  Function "detail/atomic_impl.hpp" 562 "wait_until" [Some SeqCst] [Differs 0 Release; Differs 0 AcqRel] [0]
    [Step 570 "wait_until" [Param 0] [1] [1]];
  Function "detail/atomic_impl.hpp" 576 "wait_for" [Some SeqCst] [Differs 0 Release; Differs 0 AcqRel] [0]
    [Step 584 "wait_for" [Param 0] [1] [1]];
  Function "detail/atomic_impl.hpp" 590 "compare_exchange_strong_impl" [None; None] [] [0]
    [Step 592 "compare_exchange_strong" [Param 0; Param 1] [1] [1]];
  Function "detail/atomic_impl.hpp" 597 "compare_exchange_strong_impl" [None; None] [] [0]
    [Step 600 "compare_exchange_strong" [Param 0; Param 1] [1] [1]];
  Function "detail/atomic_impl.hpp" 606 "compare_exchange_weak_impl" [None; None] [] [0]
    [Step 608 "compare_exchange_weak" [Param 0; Param 1] [1] [1]];
  Function "detail/atomic_impl.hpp" 613 "compare_exchange_weak_impl" [None; None] [] [0]
    [Step 616 "compare_exchange_weak" [Param 0; Param 1] [1] [1]];
  Function "detail/atomic_impl.hpp" 661 "store" [Some SeqCst] [Differs 0 Consume; Differs 0 Acquire; Differs 0 AcqRel] [0]
    [Step 667 "store" [Param 0] [1] [1]];
  Function "detail/atomic_impl.hpp" 670 "load" [Some SeqCst] [Differs 0 Release; Differs 0 AcqRel] [0]
    [Step 675 "load" [Param 0] [1] [1]];
  Function "detail/atomic_impl.hpp" 678 "fetch_add" [Some SeqCst] [] [0]
    [Step 680 "fetch_add" [Param 0] [1] [1]];
  Function "detail/atomic_impl.hpp" 683 "fetch_sub" [Some SeqCst] [] [0]
    [Step 685 "fetch_sub" [Param 0] [1] [1]];
  Function "detail/atomic_impl.hpp" 688 "exchange" [Some SeqCst] [] [0]
    [Step 690 "exchange" [Param 0] [1] [1]];
  Function "detail/atomic_impl.hpp" 693 "compare_exchange_strong" [None; None] [Differs 1 Release; Differs 1 AcqRel; NotStronger 0 1] [0]
    [Step 699 "compare_exchange_strong_impl" [Param 0; Param 1] [1] [1]];
  Function "detail/atomic_impl.hpp" 702 "compare_exchange_strong" [Some SeqCst] [] [0]
    [Step 704 "compare_exchange_strong" [Param 0; Deduced 0] [1] [1]];
  Function "detail/atomic_impl.hpp" 707 "compare_exchange_weak" [None; None] [Differs 1 Release; Differs 1 AcqRel; NotStronger 0 1] [0]
    [Step 713 "compare_exchange_weak_impl" [Param 0; Param 1] [1] [1]];
  Function "detail/atomic_impl.hpp" 716 "compare_exchange_weak" [Some SeqCst] [] [0]
    [Step 718 "compare_exchange_weak" [Param 0; Deduced 0] [1] [1]];
  Function "detail/atomic_impl.hpp" 721 "fetch_and" [Some SeqCst] [] [0]
    [Step 723 "fetch_and" [Param 0] [1] [1]];
  Function "detail/atomic_impl.hpp" 726 "fetch_or" [Some SeqCst] [] [0]
    [Step 728 "fetch_or" [Param 0] [1] [1]];
  Function "detail/atomic_impl.hpp" 731 "fetch_xor" [Some SeqCst] [] [0]
    [Step 733 "fetch_xor" [Param 0] [1] [1]];
  Function "detail/atomic_impl.hpp" 737 "fetch_negate" [Some SeqCst] [] [0]
    [Step 739 "fetch_negate" [Param 0] [1] [1]];
  Function "detail/atomic_impl.hpp" 742 "fetch_complement" [Some SeqCst] [] [0]
    [Step 744 "fetch_complement" [Param 0] [1] [1]];
  Function "detail/atomic_impl.hpp" 747 "add" [Some SeqCst] [] [0]
    [Step 749 "add" [Param 0] [1] [1]];
  Function "detail/atomic_impl.hpp" 752 "sub" [Some SeqCst] [] [0]
    [Step 754 "sub" [Param 0] [1] [1]];
  Function "detail/atomic_impl.hpp" 757 "negate" [Some SeqCst] [] [0]
    [Step 759 "negate" [Param 0] [1] [1]];
  Function "detail/atomic_impl.hpp" 762 "bitwise_and" [Some SeqCst] [] [0]
    [Step 764 "bitwise_and" [Param 0] [1] [1]];
  Function "detail/atomic_impl.hpp" 767 "bitwise_or" [Some SeqCst] [] [0]
    [Step 769 "bitwise_or" [Param 0] [1] [1]];
  Function "detail/atomic_impl.hpp" 772 "bitwise_xor" [Some SeqCst] [] [0]
    [Step 774 "bitwise_xor" [Param 0] [1] [1]];
  Function "detail/atomic_impl.hpp" 777 "bitwise_complement" [Some SeqCst] [] [0]
    [Step 779 "bitwise_complement" [Param 0] [1] [1]];
  Function "detail/atomic_impl.hpp" 782 "opaque_add" [Some SeqCst] [] [0]
    [Step 784 "opaque_add" [Param 0] [1] [1]];
  Function "detail/atomic_impl.hpp" 787 "opaque_sub" [Some SeqCst] [] [0]
    [Step 789 "opaque_sub" [Param 0] [1] [1]];
  Function "detail/atomic_impl.hpp" 792 "opaque_negate" [Some SeqCst] [] [0]
    [Step 794 "opaque_negate" [Param 0] [1] [1]];
  Function "detail/atomic_impl.hpp" 797 "opaque_and" [Some SeqCst] [] [0]
    [Step 799 "opaque_and" [Param 0] [1] [1]];
  Function "detail/atomic_impl.hpp" 802 "opaque_or" [Some SeqCst] [] [0]
    [Step 804 "opaque_or" [Param 0] [1] [1]];
  Function "detail/atomic_impl.hpp" 807 "opaque_xor" [Some SeqCst] [] [0]
    [Step 809 "opaque_xor" [Param 0] [1] [1]];
  Function "detail/atomic_impl.hpp" 812 "opaque_complement" [Some SeqCst] [] [0]
    [Step 814 "opaque_complement" [Param 0] [1] [1]];
  Function "detail/atomic_impl.hpp" 817 "add_and_test" [Some SeqCst] [] [0]
    [Step 819 "add_and_test" [Param 0] [1] [1]];
  Function "detail/atomic_impl.hpp" 822 "sub_and_test" [Some SeqCst] [] [0]
    [Step 824 "sub_and_test" [Param 0] [1] [1]];
  Function "detail/atomic_impl.hpp" 827 "negate_and_test" [Some SeqCst] [] [0]
    [Step 829 "negate_and_test" [Param 0] [1] [1]];
  Function "detail/atomic_impl.hpp" 832 "and_and_test" [Some SeqCst] [] [0]
    [Step 834 "and_and_test" [Param 0] [1] [1]];
  Function "detail/atomic_impl.hpp" 837 "or_and_test" [Some SeqCst] [] [0]
    [Step 839 "or_and_test" [Param 0] [1] [1]];
  Function "detail/atomic_impl.hpp" 842 "xor_and_test" [Some SeqCst] [] [0]
    [Step 844 "xor_and_test" [Param 0] [1] [1]];
  Function "detail/atomic_impl.hpp" 847 "complement_and_test" [Some SeqCst] [] [0]
    [Step 849 "complement_and_test" [Param 0] [1] [1]];
  Function "detail/atomic_impl.hpp" 852 "bit_test_and_set" [Some SeqCst] [] [0]
    [Step 855 "bit_test_and_set" [Param 0] [1] [1]];
  Function "detail/atomic_impl.hpp" 858 "bit_test_and_reset" [Some SeqCst] [] [0]
    [Step 861 "bit_test_and_reset" [Param 0] [1] [1]];
  Function "detail/atomic_impl.hpp" 864 "bit_test_and_complement" [Some SeqCst] [] [0]
    [Step 867 "bit_test_and_complement" [Param 0] [1] [1]];
  Function "detail/atomic_impl.hpp" 871 "operator++" [] [] [0]
    [Step 873 "fetch_add" [] [1] [1]];
  Function "detail/atomic_impl.hpp" 876 "operator++" [] [] [0]
    [Step 878 "add" [] [1] [1]];
  Function "detail/atomic_impl.hpp" 881 "operator--" [] [] [0]
    [Step 883 "fetch_sub" [] [1] [1]];
  Function "detail/atomic_impl.hpp" 886 "operator--" [] [] [0]
    [Step 888 "sub" [] [1] [1]];
  Function "detail/atomic_impl.hpp" 891 "operator+=" [] [] [0]
    [Step 893 "add" [] [1] [1]];
  Function "detail/atomic_impl.hpp" 896 "operator-=" [] [] [0]
    [Step 898 "sub" [] [1] [1]];
  Function "detail/atomic_impl.hpp" 901 "operator&=" [] [] [0]
    [Step 903 "bitwise_and" [] [1] [1]];
  Function "detail/atomic_impl.hpp" 906 "operator|=" [] [] [0]
    [Step 908 "bitwise_or" [] [1] [1]];
  Function "detail/atomic_impl.hpp" 911 "operator^=" [] [] [0]
    [Step 913 "bitwise_xor" [] [1] [1]];
  Function "detail/atomic_impl.hpp" 916 "wait" [Some SeqCst] [Differs 0 Release; Differs 0 AcqRel] [0]
    [Step 921 "wait" [Param 0] [1] [1]];
  Function "detail/atomic_impl.hpp" 926 "wait_until" [Some SeqCst] [Differs 0 Release; Differs 0 AcqRel] [0]
    [Step 934 "wait_until" [Param 0] [1] [1]];
  Function "detail/atomic_impl.hpp" 940 "wait_for" [Some SeqCst] [Differs 0 Release; Differs 0 AcqRel] [0]
    [Step 948 "wait_for" [Param 0] [1] [1]];
  Function "detail/atomic_impl.hpp" 954 "compare_exchange_strong_impl" [None; None] [] [0]
    [Step 956 "compare_exchange_strong" [Param 0; Param 1] [1] [1]];
  Function "detail/atomic_impl.hpp" 961 "compare_exchange_strong_impl" [None; None] [] [0]
    [Step 964 "compare_exchange_strong" [Param 0; Param 1] [1] [1]];
  Function "detail/atomic_impl.hpp" 970 "compare_exchange_weak_impl" [None; None] [] [0]
    [Step 972 "compare_exchange_weak" [Param 0; Param 1] [1] [1]];
  Function "detail/atomic_impl.hpp" 977 "compare_exchange_weak_impl" [None; None] [] [0]
    [Step 980 "compare_exchange_weak" [Param 0; Param 1] [1] [1]];
  Function "detail/atomic_impl.hpp" 1022 "store" [Some SeqCst] [Differs 0 Consume; Differs 0 Acquire; Differs 0 AcqRel] [0]
    [Step 1028 "store" [Param 0] [1] [1]];
  Function "detail/atomic_impl.hpp" 1031 "load" [Some SeqCst] [Differs 0 Release; Differs 0 AcqRel] [0]
    [Step 1036 "load" [Param 0] [1] [1]];
  Function "detail/atomic_impl.hpp" 1039 "exchange" [Some SeqCst] [] [0]
    [Step 1041 "exchange" [Param 0] [1] [1]];
  Function "detail/atomic_impl.hpp" 1044 "compare_exchange_strong" [None; None] [Differs 1 Release; Differs 1 AcqRel; NotStronger 0 1] [0]
    [Step 1050 "compare_exchange_strong_impl" [Param 0; Param 1] [1] [1]];
  Function "detail/atomic_impl.hpp" 1053 "compare_exchange_strong" [Some SeqCst] [] [0]
    [Step 1055 "compare_exchange_strong" [Param 0; Deduced 0] [1] [1]];
  Function "detail/atomic_impl.hpp" 1058 "compare_exchange_weak" [None; None] [Differs 1 Release; Differs 1 AcqRel; NotStronger 0 1] [0]
    [Step 1064 "compare_exchange_weak_impl" [Param 0; Param 1] [1] [1]];
  Function "detail/atomic_impl.hpp" 1067 "compare_exchange_weak" [Some SeqCst] [] [0]
    [Step 1069 "compare_exchange_weak" [Param 0; Deduced 0] [1] [1]];
  Function "detail/atomic_impl.hpp" 1072 "wait" [Some SeqCst] [Differs 0 Release; Differs 0 AcqRel] [0]
    [Step 1077 "wait" [Param 0] [1] [1]];
  Function "detail/atomic_impl.hpp" 1082 "wait_until" [Some SeqCst] [Differs 0 Release; Differs 0 AcqRel] [0]
    [Step 1090 "wait_until" [Param 0] [1] [1]];
  Function "detail/atomic_impl.hpp" 1096 "wait_for" [Some SeqCst] [Differs 0 Release; Differs 0 AcqRel] [0]
    [Step 1104 "wait_for" [Param 0] [1] [1]];
  Function "detail/atomic_impl.hpp" 1110 "compare_exchange_strong_impl" [None; None] [] [0]
    [Step 1112 "compare_exchange_strong" [Param 0; Param 1] [1] [1]];
  Function "detail/atomic_impl.hpp" 1117 "compare_exchange_strong_impl" [None; None] [] [0]
    [Step 1120 "compare_exchange_strong" [Param 0; Param 1] [1] [1]];
  Function "detail/atomic_impl.hpp" 1126 "compare_exchange_weak_impl" [None; None] [] [0]
    [Step 1128 "compare_exchange_weak" [Param 0; Param 1] [1] [1]];
  Function "detail/atomic_impl.hpp" 1133 "compare_exchange_weak_impl" [None; None] [] [0]
    [Step 1136 "compare_exchange_weak" [Param 0; Param 1] [1] [1]];
  Function "detail/atomic_impl.hpp" 1188 "store" [Some SeqCst] [Differs 0 Consume; Differs 0 Acquire; Differs 0 AcqRel] [0]
    [Step 1194 "store" [Param 0] [1] [1]];
  Function "detail/atomic_impl.hpp" 1197 "load" [Some SeqCst] [Differs 0 Release; Differs 0 AcqRel] [0]
    [Step 1202 "load" [Param 0] [1] [1]];
  Function "detail/atomic_impl.hpp" 1205 "fetch_add" [Some SeqCst] [] [0]
    [Step 1207 "fetch_add" [Param 0] [1] [1]];
  Function "detail/atomic_impl.hpp" 1210 "fetch_sub" [Some SeqCst] [] [0]
    [Step 1212 "fetch_sub" [Param 0] [1] [1]];
  Function "detail/atomic_impl.hpp" 1215 "exchange" [Some SeqCst] [] [0]
    [Step 1217 "exchange" [Param 0] [1] [1]];
  Function "detail/atomic_impl.hpp" 1220 "compare_exchange_strong" [None; None] [Differs 1 Release; Differs 1 AcqRel; NotStronger 0 1] [0]
    [Step 1226 "compare_exchange_strong_impl" [Param 0; Param 1] [1] [1]];
  Function "detail/atomic_impl.hpp" 1229 "compare_exchange_strong" [Some SeqCst] [] [0]
    [Step 1231 "compare_exchange_strong" [Param 0; Deduced 0] [1] [1]];
  Function "detail/atomic_impl.hpp" 1234 "compare_exchange_weak" [None; None] [Differs 1 Release; Differs 1 AcqRel; NotStronger 0 1] [0]
    [Step 1240 "compare_exchange_weak_impl" [Param 0; Param 1] [1] [1]];
  Function "detail/atomic_impl.hpp" 1243 "compare_exchange_weak" [Some SeqCst] [] [0]
    [Step 1245 "compare_exchange_weak" [Param 0; Deduced 0] [1] [1]];
  Function "detail/atomic_impl.hpp" 1249 "fetch_negate" [Some SeqCst] [] [0]
    [Step 1251 "fetch_negate" [Param 0] [1] [1]];
  Function "detail/atomic_impl.hpp" 1254 "add" [Some SeqCst] [] [0]
    [Step 1256 "add" [Param 0] [1] [1]];
  Function "detail/atomic_impl.hpp" 1259 "sub" [Some SeqCst] [] [0]
    [Step 1261 "sub" [Param 0] [1] [1]];
  Function "detail/atomic_impl.hpp" 1264 "negate" [Some SeqCst] [] [0]
    [Step 1266 "negate" [Param 0] [1] [1]];
  Function "detail/atomic_impl.hpp" 1269 "opaque_add" [Some SeqCst] [] [0]
    [Step 1271 "opaque_add" [Param 0] [1] [1]];
  Function "detail/atomic_impl.hpp" 1274 "opaque_sub" [Some SeqCst] [] [0]
    [Step 1276 "opaque_sub" [Param 0] [1] [1]];
  Function "detail/atomic_impl.hpp" 1279 "opaque_negate" [Some SeqCst] [] [0]
    [Step 1281 "opaque_negate" [Param 0] [1] [1]];
  Function "detail/atomic_impl.hpp" 1285 "operator+=" [] [] [0]
    [Step 1287 "add" [] [1] [1]];
  Function "detail/atomic_impl.hpp" 1290 "operator-=" [] [] [0]
    [Step 1292 "sub" [] [1] [1]];
  Function "detail/atomic_impl.hpp" 1295 "wait" [Some SeqCst] [Differs 0 Release; Differs 0 AcqRel] [0]
    [Step 1300 "wait" [Param 0] [1] [1]];
  Function "detail/atomic_impl.hpp" 1305 "wait_until" [Some SeqCst] [Differs 0 Release; Differs 0 AcqRel] [0]
    [Step 1313 "wait_until" [Param 0] [1] [1]];
  Function "detail/atomic_impl.hpp" 1319 "wait_for" [Some SeqCst] [Differs 0 Release; Differs 0 AcqRel] [0]
    [Step 1327 "wait_for" [Param 0] [1] [1]];
  Function "detail/atomic_impl.hpp" 1333 "compare_exchange_strong_impl" [None; None] [] [0]
    [Step 1335 "compare_exchange_strong" [Param 0; Param 1] [1] [1]];
  Function "detail/atomic_impl.hpp" 1340 "compare_exchange_strong_impl" [None; None] [] [0]
    [Step 1343 "compare_exchange_strong" [Param 0; Param 1] [1] [1]];
  Function "detail/atomic_impl.hpp" 1350 "compare_exchange_weak_impl" [None; None] [] [0]
    [Step 1352 "compare_exchange_weak" [Param 0; Param 1] [1] [1]];
  Function "detail/atomic_impl.hpp" 1357 "compare_exchange_weak_impl" [None; None] [] [0]
    [Step 1360 "compare_exchange_weak" [Param 0; Param 1] [1] [1]];
  Function "detail/atomic_impl.hpp" 1415 "store" [Some SeqCst] [Differs 0 Consume; Differs 0 Acquire; Differs 0 AcqRel] [0]
    [Step 1421 "store" [Param 0] [1] [1]];
  Function "detail/atomic_impl.hpp" 1424 "load" [Some SeqCst] [Differs 0 Release; Differs 0 AcqRel] [0]
    [Step 1429 "load" [Param 0] [1] [1]];
  Function "detail/atomic_impl.hpp" 1432 "fetch_add" [Some SeqCst] [] [0]
    [Step 1435 "fetch_add" [Param 0] [1] [1]];
  Function "detail/atomic_impl.hpp" 1438 "fetch_sub" [Some SeqCst] [] [0]
    [Step 1441 "fetch_sub" [Param 0] [1] [1]];
  Function "detail/atomic_impl.hpp" 1444 "exchange" [Some SeqCst] [] [0]
    [Step 1447 "exchange" [Param 0] [1] [1]];
  Function "detail/atomic_impl.hpp" 1450 "compare_exchange_strong" [None; None] [Differs 1 Release; Differs 1 AcqRel; NotStronger 0 1] [0]
    [Step 1456 "compare_exchange_strong_impl" [Param 0; Param 1] [1] [1]];
  Function "detail/atomic_impl.hpp" 1459 "compare_exchange_strong" [Some SeqCst] [] [0]
    [Step 1461 "compare_exchange_strong" [Param 0; Deduced 0] [1] [1]];
  Function "detail/atomic_impl.hpp" 1464 "compare_exchange_weak" [None; None] [Differs 1 Release; Differs 1 AcqRel; NotStronger 0 1] [0]
    [Step 1470 "compare_exchange_weak_impl" [Param 0; Param 1] [1] [1]];
  Function "detail/atomic_impl.hpp" 1473 "compare_exchange_weak" [Some SeqCst] [] [0]
    [Step 1475 "compare_exchange_weak" [Param 0; Deduced 0] [1] [1]];
  Function "detail/atomic_impl.hpp" 1479 "add" [Some SeqCst] [] [0]
    [Step 1482 "add" [Param 0] [1] [1]];
  Function "detail/atomic_impl.hpp" 1485 "sub" [Some SeqCst] [] [0]
    [Step 1488 "sub" [Param 0] [1] [1]];
  Function "detail/atomic_impl.hpp" 1491 "opaque_add" [Some SeqCst] [] [0]
    [Step 1493 "opaque_add" [Param 0] [1] [1]];
  Function "detail/atomic_impl.hpp" 1496 "opaque_sub" [Some SeqCst] [] [0]
    [Step 1498 "opaque_sub" [Param 0] [1] [1]];
  Function "detail/atomic_impl.hpp" 1501 "add_and_test" [Some SeqCst] [] [0]
    [Step 1503 "add_and_test" [Param 0] [1] [1]];
  Function "detail/atomic_impl.hpp" 1506 "sub_and_test" [Some SeqCst] [] [0]
    [Step 1508 "sub_and_test" [Param 0] [1] [1]];
  Function "detail/atomic_impl.hpp" 1512 "operator++" [] [] [0]
    [Step 1514 "fetch_add" [] [1] [1]];
  Function "detail/atomic_impl.hpp" 1517 "operator++" [] [] [0]
    [Step 1519 "add" [] [1] [1]];
  Function "detail/atomic_impl.hpp" 1522 "operator--" [] [] [0]
    [Step 1524 "fetch_sub" [] [1] [1]];
  Function "detail/atomic_impl.hpp" 1527 "operator--" [] [] [0]
    [Step 1529 "sub" [] [1] [1]];
  Function "detail/atomic_impl.hpp" 1532 "operator+=" [] [] [0]
    [Step 1534 "add" [] [1] [1]];
  Function "detail/atomic_impl.hpp" 1537 "operator-=" [] [] [0]
    [Step 1539 "sub" [] [1] [1]];
  Function "detail/atomic_impl.hpp" 1542 "wait" [Some SeqCst] [Differs 0 Release; Differs 0 AcqRel] [0]
    [Step 1548 "wait" [Param 0] [1] [1]];
  Function "detail/atomic_impl.hpp" 1553 "wait_until" [Some SeqCst] [Differs 0 Release; Differs 0 AcqRel] [0]
    [Step 1561 "wait_until" [Param 0] [1] [1]];
  Function "detail/atomic_impl.hpp" 1567 "wait_for" [Some SeqCst] [Differs 0 Release; Differs 0 AcqRel] [0]
    [Step 1575 "wait_for" [Param 0] [1] [1]];
  Function "detail/atomic_impl.hpp" 1581 "compare_exchange_strong_impl" [None; None] [] [0]
    [Step 1583 "compare_exchange_strong" [Param 0; Param 1] [1] [1]];
  Function "detail/atomic_impl.hpp" 1588 "compare_exchange_strong_impl" [None; None] [] [0]
    [Step 1591 "compare_exchange_strong" [Param 0; Param 1] [1] [1]];
  Function "detail/atomic_impl.hpp" 1598 "compare_exchange_weak_impl" [None; None] [] [0]
    [Step 1600 "compare_exchange_weak" [Param 0; Param 1] [1] [1]];
  Function "detail/atomic_impl.hpp" 1605 "compare_exchange_weak_impl" [None; None] [] [0]
    [Step 1608 "compare_exchange_weak" [Param 0; Param 1] [1] [1]];
  Function "detail/atomic_ref_impl.hpp" 178 "store" [Some SeqCst] [Differs 0 Consume; Differs 0 Acquire; Differs 0 AcqRel] [0]
    [Step 184 "store" [Param 0] [1] [1]];
  Function "detail/atomic_ref_impl.hpp" 187 "load" [Some SeqCst] [Differs 0 Release; Differs 0 AcqRel] [0]
    [Step 192 "load" [Param 0] [1] [1]];
  Function "detail/atomic_ref_impl.hpp" 195 "exchange" [Some SeqCst] [] [0]
    [Step 197 "exchange" [Param 0] [1] [1]];
  Function "detail/atomic_ref_impl.hpp" 200 "compare_exchange_strong" [None; None] [Differs 1 Release; Differs 1 AcqRel; NotStronger 0 1] [0]
    [Step 206 "compare_exchange_strong_impl" [Param 0; Param 1] [1] [1]];
  Function "detail/atomic_ref_impl.hpp" 209 "compare_exchange_strong" [Some SeqCst] [] [0]
    [Step 211 "compare_exchange_strong" [Param 0; Deduced 0] [1] [1]];
  Function "detail/atomic_ref_impl.hpp" 214 "compare_exchange_weak" [None; None] [Differs 1 Release; Differs 1 AcqRel; NotStronger 0 1] [0]
    [Step 220 "compare_exchange_weak_impl" [Param 0; Param 1] [1] [1]];
  Function "detail/atomic_ref_impl.hpp" 223 "compare_exchange_weak" [Some SeqCst] [] [0]
    [Step 225 "compare_exchange_weak" [Param 0; Deduced 0] [1] [1]];
  Function "detail/atomic_ref_impl.hpp" 228 "wait" [Some SeqCst] [Differs 0 Release; Differs 0 AcqRel] [0]
    [Step 233 "wait" [Param 0] [1] [1]];
  Function "detail/atomic_ref_impl.hpp" 238 "wait_until" [Some SeqCst] [Differs 0 Release; Differs 0 AcqRel] [0]
    [Step 246 "wait_until" [Param 0] [1] [1]];
  Function "detail/atomic_ref_impl.hpp" 252 "wait_for" [Some SeqCst] [Differs 0 Release; Differs 0 AcqRel] [0]
    [Step 260 "wait_for" [Param 0] [1] [1]];
  Function "detail/atomic_ref_impl.hpp" 266 "compare_exchange_strong_impl" [None; None] [] [0]
    [Step 268 "compare_exchange_strong" [Param 0; Param 1] [1] [1]];
  Function "detail/atomic_ref_impl.hpp" 273 "compare_exchange_strong_impl" [None; None] [] [0]
    [Step 276 "compare_exchange_strong" [Param 0; Param 1] [1] [1]];
  Function "detail/atomic_ref_impl.hpp" 283 "compare_exchange_weak_impl" [None; None] [] [0]
    [Step 285 "compare_exchange_weak" [Param 0; Param 1] [1] [1]];
  Function "detail/atomic_ref_impl.hpp" 290 "compare_exchange_weak_impl" [None; None] [] [0]
    [Step 293 "compare_exchange_weak" [Param 0; Param 1] [1] [1]];
  Function "detail/atomic_ref_impl.hpp" 335 "store" [Some SeqCst] [Differs 0 Consume; Differs 0 Acquire; Differs 0 AcqRel] [0]
    [Step 341 "store" [Param 0] [1] [1]];
  Function "detail/atomic_ref_impl.hpp" 344 "load" [Some SeqCst] [Differs 0 Release; Differs 0 AcqRel] [0]
    [Step 349 "load" [Param 0] [1] [1]];
  Function "detail/atomic_ref_impl.hpp" 352 "exchange" [Some SeqCst] [] [0]
    [Step 354 "exchange" [Param 0] [1] [1]];
  Function "detail/atomic_ref_impl.hpp" 357 "compare_exchange_strong" [None; None] [Differs 1 Release; Differs 1 AcqRel; NotStronger 0 1] [0]
    [Step 363 "compare_exchange_strong_impl" [Param 0; Param 1] [1] [1]];
  Function "detail/atomic_ref_impl.hpp" 366 "compare_exchange_strong" [Some SeqCst] [] [0]
    [Step 368 "compare_exchange_strong" [Param 0; Deduced 0] [1] [1]];
  Function "detail/atomic_ref_impl.hpp" 371 "compare_exchange_weak" [None; None] [Differs 1 Release; Differs 1 AcqRel; NotStronger 0 1] [0]
    [Step 377 "compare_exchange_weak_impl" [Param 0; Param 1] [1] [1]];
  Function "detail/atomic_ref_impl.hpp" 380 "compare_exchange_weak" [Some SeqCst] [] [0]
    [Step 382 "compare_exchange_weak" [Param 0; Deduced 0] [1] [1]];
  Function "detail/atomic_ref_impl.hpp" 385 "fetch_and" [Some SeqCst] [] [0]
    [Step 387 "fetch_and" [Param 0] [1] [1]];
  Function "detail/atomic_ref_impl.hpp" 390 "fetch_or" [Some SeqCst] [] [0]
    [Step 392 "fetch_or" [Param 0] [1] [1]];
  Function "detail/atomic_ref_impl.hpp" 395 "fetch_xor" [Some SeqCst] [] [0]
    [Step 397 "fetch_xor" [Param 0] [1] [1]];
  Function "detail/atomic_ref_impl.hpp" 400 "fetch_complement" [Some SeqCst] [] [0]
    [Step 402 "fetch_complement" [Param 0] [1] [1]];
  Function "detail/atomic_ref_impl.hpp" 405 "bitwise_and" [Some SeqCst] [] [0]
    [Step 407 "bitwise_and" [Param 0] [1] [1]];
  Function "detail/atomic_ref_impl.hpp" 410 "bitwise_or" [Some SeqCst] [] [0]
    [Step 412 "bitwise_or" [Param 0] [1] [1]];
  Function "detail/atomic_ref_impl.hpp" 415 "bitwise_xor" [Some SeqCst] [] [0]
    [Step 417 "bitwise_xor" [Param 0] [1] [1]];
  Function "detail/atomic_ref_impl.hpp" 420 "bitwise_complement" [Some SeqCst] [] [0]
    [Step 422 "bitwise_complement" [Param 0] [1] [1]];
  Function "detail/atomic_ref_impl.hpp" 425 "opaque_and" [Some SeqCst] [] [0]
    [Step 427 "opaque_and" [Param 0] [1] [1]];
  Function "detail/atomic_ref_impl.hpp" 430 "opaque_or" [Some SeqCst] [] [0]
    [Step 432 "opaque_or" [Param 0] [1] [1]];
  Function "detail/atomic_ref_impl.hpp" 435 "opaque_xor" [Some SeqCst] [] [0]
    [Step 437 "opaque_xor" [Param 0] [1] [1]];
  Function "detail/atomic_ref_impl.hpp" 440 "opaque_complement" [Some SeqCst] [] [0]
    [Step 442 "opaque_complement" [Param 0] [1] [1]];
  Function "detail/atomic_ref_impl.hpp" 445 "and_and_test" [Some SeqCst] [] [0]
    [Step 447 "and_and_test" [Param 0] [1] [1]];
  Function "detail/atomic_ref_impl.hpp" 450 "or_and_test" [Some SeqCst] [] [0]
    [Step 452 "or_and_test" [Param 0] [1] [1]];
  Function "detail/atomic_ref_impl.hpp" 455 "xor_and_test" [Some SeqCst] [] [0]
    [Step 457 "xor_and_test" [Param 0] [1] [1]];
  Function "detail/atomic_ref_impl.hpp" 460 "complement_and_test" [Some SeqCst] [] [0]
    [Step 462 "complement_and_test" [Param 0] [1] [1]];
  Function "detail/atomic_ref_impl.hpp" 465 "bit_test_and_set" [Some SeqCst] [] [0]
    [Step 468 "bit_test_and_set" [Param 0] [1] [1]];
  Function "detail/atomic_ref_impl.hpp" 471 "bit_test_and_reset" [Some SeqCst] [] [0]
    [Step 474 "bit_test_and_reset" [Param 0] [1] [1]];
  Function "detail/atomic_ref_impl.hpp" 477 "bit_test_and_complement" [Some SeqCst] [] [0]
    [Step 480 "bit_test_and_complement" [Param 0] [1] [1]];
  Function "detail/atomic_ref_impl.hpp" 483 "operator&=" [] [] [0]
    [Step 485 "bitwise_and" [] [1] [1]];
  Function "detail/atomic_ref_impl.hpp" 488 "operator|=" [] [] [0]
    [Step 490 "bitwise_or" [] [1] [1]];
  Function "detail/atomic_ref_impl.hpp" 493 "operator^=" [] [] [0]
    [Step 495 "bitwise_xor" [] [1] [1]];
  Function "detail/atomic_ref_impl.hpp" 498 "wait" [Some SeqCst] [Differs 0 Release; Differs 0 AcqRel] [0]
    [Step 503 "wait" [Param 0] [1] [1]];
  Function "detail/atomic_ref_impl.hpp" 508 "wait_until" [Some SeqCst] [Differs 0 Release; Differs 0 AcqRel] [0]
    [Step 516 "wait_until" [Param 0] [1] [1]];
  Function "detail/atomic_ref_impl.hpp" 522 "wait_for" [Some SeqCst] [Differs 0 Release; Differs 0 AcqRel] [0]
    [Step 530 "wait_for" [Param 0] [1] [1]];
  Function "detail/atomic_ref_impl.hpp" 536 "compare_exchange_strong_impl" [None; None] [] [0]
    [Step 538 "compare_exchange_strong" [Param 0; Param 1] [1] [1]];
  Function "detail/atomic_ref_impl.hpp" 543 "compare_exchange_strong_impl" [None; None] [] [0]
    [Step 546 "compare_exchange_strong" [Param 0; Param 1] [1] [1]];
  Function "detail/atomic_ref_impl.hpp" 552 "compare_exchange_weak_impl" [None; None] [] [0]
    [Step 554 "compare_exchange_weak" [Param 0; Param 1] [1] [1]];
  Function "detail/atomic_ref_impl.hpp" 559 "compare_exchange_weak_impl" [None; None] [] [0]
    [Step 562 "compare_exchange_weak" [Param 0; Param 1] [1] [1]];
  Function "detail/atomic_ref_impl.hpp" 605 "store" [Some SeqCst] [Differs 0 Consume; Differs 0 Acquire; Differs 0 AcqRel] [0]
    [Step 611 "store" [Param 0] [1] [1]];
  Function "detail/atomic_ref_impl.hpp" 614 "load" [Some SeqCst] [Differs 0 Release; Differs 0 AcqRel] [0]
    [Step 619 "load" [Param 0] [1] [1]];
  Function "detail/atomic_ref_impl.hpp" 622 "fetch_add" [Some SeqCst] [] [0]
    [Step 624 "fetch_add" [Param 0] [1] [1]];
  Function "detail/atomic_ref_impl.hpp" 627 "fetch_sub" [Some SeqCst] [] [0]
    [Step 629 "fetch_sub" [Param 0] [1] [1]];
  Function "detail/atomic_ref_impl.hpp" 632 "exchange" [Some SeqCst] [] [0]
    [Step 634 "exchange" [Param 0] [1] [1]];
  Function "detail/atomic_ref_impl.hpp" 637 "compare_exchange_strong" [None; None] [Differs 1 Release; Differs 1 AcqRel; NotStronger 0 1] [0]
    [Step 643 "compare_exchange_strong_impl" [Param 0; Param 1] [1] [1]];
  Function "detail/atomic_ref_impl.hpp" 646 "compare_exchange_strong" [Some SeqCst] [] [0]
    [Step 648 "compare_exchange_strong" [Param 0; Deduced 0] [1] [1]];
  Function "detail/atomic_ref_impl.hpp" 651 "compare_exchange_weak" [None; None] [Differs 1 Release; Differs 1 AcqRel; NotStronger 0 1] [0]
    [Step 657 "compare_exchange_weak_impl" [Param 0; Param 1] [1] [1]];
  Function "detail/atomic_ref_impl.hpp" 660 "compare_exchange_weak" [Some SeqCst] [] [0]
    [Step 662 "compare_exchange_weak" [Param 0; Deduced 0] [1] [1]];
  Function "detail/atomic_ref_impl.hpp" 665 "fetch_and" [Some SeqCst] [] [0]
    [Step 667 "fetch_and" [Param 0] [1] [1]];
  Function "detail/atomic_ref_impl.hpp" 670 "fetch_or" [Some SeqCst] [] [0]
    [Step 672 "fetch_or" [Param 0] [1] [1]];
  Function "detail/atomic_ref_impl.hpp" 675 "fetch_xor" [Some SeqCst] [] [0]
    [Step 677 "fetch_xor" [Param 0] [1] [1]];
  Function "detail/atomic_ref_impl.hpp" 681 "fetch_negate" [Some SeqCst] [] [0]
    [Step 683 "fetch_negate" [Param 0] [1] [1]];
  Function "detail/atomic_ref_impl.hpp" 686 "fetch_complement" [Some SeqCst] [] [0]
    [Step 688 "fetch_complement" [Param 0] [1] [1]];
  Function "detail/atomic_ref_impl.hpp" 691 "add" [Some SeqCst] [] [0]
    [Step 693 "add" [Param 0] [1] [1]];
  Function "detail/atomic_ref_impl.hpp" 696 "sub" [Some SeqCst] [] [0]
    [Step 698 "sub" [Param 0] [1] [1]];
  Function "detail/atomic_ref_impl.hpp" 701 "negate" [Some SeqCst] [] [0]
    [Step 703 "negate" [Param 0] [1] [1]];
  Function "detail/atomic_ref_impl.hpp" 706 "bitwise_and" [Some SeqCst] [] [0]
    [Step 708 "bitwise_and" [Param 0] [1] [1]];
  Function "detail/atomic_ref_impl.hpp" 711 "bitwise_or" [Some SeqCst] [] [0]
    [Step 713 "bitwise_or" [Param 0] [1] [1]];
  Function "detail/atomic_ref_impl.hpp" 716 "bitwise_xor" [Some SeqCst] [] [0]
    [Step 718 "bitwise_xor" [Param 0] [1] [1]];
  Function "detail/atomic_ref_impl.hpp" 721 "bitwise_complement" [Some SeqCst] [] [0]
    [Step 723 "bitwise_complement" [Param 0] [1] [1]];
  Function "detail/atomic_ref_impl.hpp" 726 "opaque_add" [Some SeqCst] [] [0]
    [Step 728 "opaque_add" [Param 0] [1] [1]];
  Function "detail/atomic_ref_impl.hpp" 731 "opaque_sub" [Some SeqCst] [] [0]
    [Step 733 "opaque_sub" [Param 0] [1] [1]];
  Function "detail/atomic_ref_impl.hpp" 736 "opaque_negate" [Some SeqCst] [] [0]
    [Step 738 "opaque_negate" [Param 0] [1] [1]];
  Function "detail/atomic_ref_impl.hpp" 741 "opaque_and" [Some SeqCst] [] [0]
    [Step 743 "opaque_and" [Param 0] [1] [1]];
  Function "detail/atomic_ref_impl.hpp" 746 "opaque_or" [Some SeqCst] [] [0]
    [Step 748 "opaque_or" [Param 0] [1] [1]];
  Function "detail/atomic_ref_impl.hpp" 751 "opaque_xor" [Some SeqCst] [] [0]
    [Step 753 "opaque_xor" [Param 0] [1] [1]];
  Function "detail/atomic_ref_impl.hpp" 756 "opaque_complement" [Some SeqCst] [] [0]
    [Step 758 "opaque_complement" [Param 0] [1] [1]];
  Function "detail/atomic_ref_impl.hpp" 761 "add_and_test" [Some SeqCst] [] [0]
    [Step 763 "add_and_test" [Param 0] [1] [1]];
  Function "detail/atomic_ref_impl.hpp" 766 "sub_and_test" [Some SeqCst] [] [0]
    [Step 768 "sub_and_test" [Param 0] [1] [1]];
  Function "detail/atomic_ref_impl.hpp" 771 "negate_and_test" [Some SeqCst] [] [0]
    [Step 773 "negate_and_test" [Param 0] [1] [1]];
  Function "detail/atomic_ref_impl.hpp" 776 "and_and_test" [Some SeqCst] [] [0]
    [Step 778 "and_and_test" [Param 0] [1] [1]];
  Function "detail/atomic_ref_impl.hpp" 781 "or_and_test" [Some SeqCst] [] [0]
    [Step 783 "or_and_test" [Param 0] [1] [1]];
  Function "detail/atomic_ref_impl.hpp" 786 "xor_and_test" [Some SeqCst] [] [0]
    [Step 788 "xor_and_test" [Param 0] [1] [1]];
  Function "detail/atomic_ref_impl.hpp" 791 "complement_and_test" [Some SeqCst] [] [0]
    [Step 793 "complement_and_test" [Param 0] [1] [1]];
  Function "detail/atomic_ref_impl.hpp" 796 "bit_test_and_set" [Some SeqCst] [] [0]
    [Step 799 "bit_test_and_set" [Param 0] [1] [1]];
  Function "detail/atomic_ref_impl.hpp" 802 "bit_test_and_reset" [Some SeqCst] [] [0]
    [Step 805 "bit_test_and_reset" [Param 0] [1] [1]];
  Function "detail/atomic_ref_impl.hpp" 808 "bit_test_and_complement" [Some SeqCst] [] [0]
    [Step 811 "bit_test_and_complement" [Param 0] [1] [1]];
  Function "detail/atomic_ref_impl.hpp" 815 "operator++" [] [] [0]
    [Step 817 "fetch_add" [] [1] [1]];
  Function "detail/atomic_ref_impl.hpp" 820 "operator++" [] [] [0]
    [Step 822 "add" [] [1] [1]];
  Function "detail/atomic_ref_impl.hpp" 825 "operator--" [] [] [0]
    [Step 827 "fetch_sub" [] [1] [1]];
  Function "detail/atomic_ref_impl.hpp" 830 "operator--" [] [] [0]
    [Step 832 "sub" [] [1] [1]];
  Function "detail/atomic_ref_impl.hpp" 835 "operator+=" [] [] [0]
    [Step 837 "add" [] [1] [1]];
  Function "detail/atomic_ref_impl.hpp" 840 "operator-=" [] [] [0]
    [Step 842 "sub" [] [1] [1]];
  Function "detail/atomic_ref_impl.hpp" 845 "operator&=" [] [] [0]
    [Step 847 "bitwise_and" [] [1] [1]];
  Function "detail/atomic_ref_impl.hpp" 850 "operator|=" [] [] [0]
    [Step 852 "bitwise_or" [] [1] [1]];
  Function "detail/atomic_ref_impl.hpp" 855 "operator^=" [] [] [0]
    [Step 857 "bitwise_xor" [] [1] [1]];
  Function "detail/atomic_ref_impl.hpp" 860 "wait" [Some SeqCst] [Differs 0 Release; Differs 0 AcqRel] [0]
    [Step 865 "wait" [Param 0] [1] [1]];
  Function "detail/atomic_ref_impl.hpp" 870 "wait_until" [Some SeqCst] [Differs 0 Release; Differs 0 AcqRel] [0]
    [Step 878 "wait_until" [Param 0] [1] [1]];
  Function "detail/atomic_ref_impl.hpp" 884 "wait_for" [Some SeqCst] [Differs 0 Release; Differs 0 AcqRel] [0]
    [Step 892 "wait_for" [Param 0] [1] [1]];
  Function "detail/atomic_ref_impl.hpp" 898 "compare_exchange_strong_impl" [None; None] [] [0]
    [Step 900 "compare_exchange_strong" [Param 0; Param 1] [1] [1]];
  Function "detail/atomic_ref_impl.hpp" 905 "compare_exchange_strong_impl" [None; None] [] [0]
    [Step 908 "compare_exchange_strong" [Param 0; Param 1] [1] [1]];
  Function "detail/atomic_ref_impl.hpp" 914 "compare_exchange_weak_impl" [None; None] [] [0]
    [Step 916 "compare_exchange_weak" [Param 0; Param 1] [1] [1]];
  Function "detail/atomic_ref_impl.hpp" 921 "compare_exchange_weak_impl" [None; None] [] [0]
    [Step 924 "compare_exchange_weak" [Param 0; Param 1] [1] [1]];
  Function "detail/atomic_ref_impl.hpp" 964 "store" [Some SeqCst] [Differs 0 Consume; Differs 0 Acquire; Differs 0 AcqRel] [0]
    [Step 970 "store" [Param 0] [1] [1]];
  Function "detail/atomic_ref_impl.hpp" 973 "load" [Some SeqCst] [Differs 0 Release; Differs 0 AcqRel] [0]
    [Step 978 "load" [Param 0] [1] [1]];
  Function "detail/atomic_ref_impl.hpp" 981 "exchange" [Some SeqCst] [] [0]
    [Step 983 "exchange" [Param 0] [1] [1]];
  Function "detail/atomic_ref_impl.hpp" 986 "compare_exchange_strong" [None; None] [Differs 1 Release; Differs 1 AcqRel; NotStronger 0 1] [0]
    [Step 992 "compare_exchange_strong_impl" [Param 0; Param 1] [1] [1]];
  Function "detail/atomic_ref_impl.hpp" 995 "compare_exchange_strong" [Some SeqCst] [] [0]
    [Step 997 "compare_exchange_strong" [Param 0; Deduced 0] [1] [1]];
  Function "detail/atomic_ref_impl.hpp" 1000 "compare_exchange_weak" [None; None] [Differs 1 Release; Differs 1 AcqRel; NotStronger 0 1] [0]
    [Step 1006 "compare_exchange_weak_impl" [Param 0; Param 1] [1] [1]];
  Function "detail/atomic_ref_impl.hpp" 1009 "compare_exchange_weak" [Some SeqCst] [] [0]
    [Step 1011 "compare_exchange_weak" [Param 0; Deduced 0] [1] [1]];
  Function "detail/atomic_ref_impl.hpp" 1014 "wait" [Some SeqCst] [Differs 0 Release; Differs 0 AcqRel] [0]
    [Step 1019 "wait" [Param 0] [1] [1]];
  Function "detail/atomic_ref_impl.hpp" 1024 "wait_until" [Some SeqCst] [Differs 0 Release; Differs 0 AcqRel] [0]
    [Step 1032 "wait_until" [Param 0] [1] [1]];
  Function "detail/atomic_ref_impl.hpp" 1038 "wait_for" [Some SeqCst] [Differs 0 Release; Differs 0 AcqRel] [0]
    [Step 1046 "wait_for" [Param 0] [1] [1]];
  Function "detail/atomic_ref_impl.hpp" 1052 "compare_exchange_strong_impl" [None; None] [] [0]
    [Step 1054 "compare_exchange_strong" [Param 0; Param 1] [1] [1]];
  Function "detail/atomic_ref_impl.hpp" 1059 "compare_exchange_strong_impl" [None; None] [] [0]
    [Step 1062 "compare_exchange_strong" [Param 0; Param 1] [1] [1]];
  Function "detail/atomic_ref_impl.hpp" 1068 "compare_exchange_weak_impl" [None; None] [] [0]
    [Step 1070 "compare_exchange_weak" [Param 0; Param 1] [1] [1]];
  Function "detail/atomic_ref_impl.hpp" 1075 "compare_exchange_weak_impl" [None; None] [] [0]
    [Step 1078 "compare_exchange_weak" [Param 0; Param 1] [1] [1]];
  Function "detail/atomic_ref_impl.hpp" 1132 "store" [Some SeqCst] [Differs 0 Consume; Differs 0 Acquire; Differs 0 AcqRel] [0]
    [Step 1138 "store" [Param 0] [1] [1]];
  Function "detail/atomic_ref_impl.hpp" 1141 "load" [Some SeqCst] [Differs 0 Release; Differs 0 AcqRel] [0]
    [Step 1146 "load" [Param 0] [1] [1]];
  Function "detail/atomic_ref_impl.hpp" 1149 "fetch_add" [Some SeqCst] [] [0]
    [Step 1151 "fetch_add" [Param 0] [1] [1]];
  Function "detail/atomic_ref_impl.hpp" 1154 "fetch_sub" [Some SeqCst] [] [0]
    [Step 1156 "fetch_sub" [Param 0] [1] [1]];
  Function "detail/atomic_ref_impl.hpp" 1159 "exchange" [Some SeqCst] [] [0]
    [Step 1161 "exchange" [Param 0] [1] [1]];
  Function "detail/atomic_ref_impl.hpp" 1164 "compare_exchange_strong" [None; None] [Differs 1 Release; Differs 1 AcqRel; NotStronger 0 1] [0]
    [Step 1170 "compare_exchange_strong_impl" [Param 0; Param 1] [1] [1]];
  Function "detail/atomic_ref_impl.hpp" 1173 "compare_exchange_strong" [Some SeqCst] [] [0]
    [Step 1175 "compare_exchange_strong" [Param 0; Deduced 0] [1] [1]];
  Function "detail/atomic_ref_impl.hpp" 1178 "compare_exchange_weak" [None; None] [Differs 1 Release; Differs 1 AcqRel; NotStronger 0 1] [0]
    [Step 1184 "compare_exchange_weak_impl" [Param 0; Param 1] [1] [1]];
  Function "detail/atomic_ref_impl.hpp" 1187 "compare_exchange_weak" [Some SeqCst] [] [0]
    [Step 1189 "compare_exchange_weak" [Param 0; Deduced 0] [1] [1]];
  Function "detail/atomic_ref_impl.hpp" 1193 "fetch_negate" [Some SeqCst] [] [0]
    [Step 1195 "fetch_negate" [Param 0] [1] [1]];
  Function "detail/atomic_ref_impl.hpp" 1198 "add" [Some SeqCst] [] [0]
    [Step 1200 "add" [Param 0] [1] [1]];
  Function "detail/atomic_ref_impl.hpp" 1203 "sub" [Some SeqCst] [] [0]
    [Step 1205 "sub" [Param 0] [1] [1]];
  Function "detail/atomic_ref_impl.hpp" 1208 "negate" [Some SeqCst] [] [0]
    [Step 1210 "negate" [Param 0] [1] [1]];
  Function "detail/atomic_ref_impl.hpp" 1213 "opaque_add" [Some SeqCst] [] [0]
    [Step 1215 "opaque_add" [Param 0] [1] [1]];
  Function "detail/atomic_ref_impl.hpp" 1218 "opaque_sub" [Some SeqCst] [] [0]
    [Step 1220 "opaque_sub" [Param 0] [1] [1]];
  Function "detail/atomic_ref_impl.hpp" 1223 "opaque_negate" [Some SeqCst] [] [0]
    [Step 1225 "opaque_negate" [Param 0] [1] [1]];
  Function "detail/atomic_ref_impl.hpp" 1229 "operator+=" [] [] [0]
    [Step 1231 "add" [] [1] [1]];
  Function "detail/atomic_ref_impl.hpp" 1234 "operator-=" [] [] [0]
    [Step 1236 "sub" [] [1] [1]];
  Function "detail/atomic_ref_impl.hpp" 1239 "wait" [Some SeqCst] [Differs 0 Release; Differs 0 AcqRel] [0]
    [Step 1244 "wait" [Param 0] [1] [1]];
  Function "detail/atomic_ref_impl.hpp" 1249 "wait_until" [Some SeqCst] [Differs 0 Release; Differs 0 AcqRel] [0]
    [Step 1257 "wait_until" [Param 0] [1] [1]];
  Function "detail/atomic_ref_impl.hpp" 1263 "wait_for" [Some SeqCst] [Differs 0 Release; Differs 0 AcqRel] [0]
    [Step 1271 "wait_for" [Param 0] [1] [1]];
  Function "detail/atomic_ref_impl.hpp" 1288 "compare_exchange_strong_impl" [None; None] [] [0]
    [Step 1290 "compare_exchange_strong" [Param 0; Param 1] [1] [1]];
  Function "detail/atomic_ref_impl.hpp" 1295 "compare_exchange_strong_impl" [None; None] [] [0]
    [Step 1298 "compare_exchange_strong" [Param 0; Param 1] [1] [1]];
  Function "detail/atomic_ref_impl.hpp" 1305 "compare_exchange_weak_impl" [None; None] [] [0]
    [Step 1307 "compare_exchange_weak" [Param 0; Param 1] [1] [1]];
  Function "detail/atomic_ref_impl.hpp" 1312 "compare_exchange_weak_impl" [None; None] [] [0]
    [Step 1315 "compare_exchange_weak" [Param 0; Param 1] [1] [1]];
  Function "detail/atomic_ref_impl.hpp" 1361 "store" [Some SeqCst] [Differs 0 Consume; Differs 0 Acquire; Differs 0 AcqRel] [0]
    [Step 1367 "store" [Param 0] [1] [1]];
  Function "detail/atomic_ref_impl.hpp" 1370 "load" [Some SeqCst] [Differs 0 Release; Differs 0 AcqRel] [0]
    [Step 1375 "load" [Param 0] [1] [1]];
  Function "detail/atomic_ref_impl.hpp" 1378 "fetch_add" [Some SeqCst] [] [0]
    [Step 1380 "fetch_add" [Param 0] [1] [1]];
  Function "detail/atomic_ref_impl.hpp" 1383 "fetch_sub" [Some SeqCst] [] [0]
    [Step 1385 "fetch_sub" [Param 0] [1] [1]];
  Function "detail/atomic_ref_impl.hpp" 1388 "exchange" [Some SeqCst] [] [0]
    [Step 1390 "exchange" [Param 0] [1] [1]];
  Function "detail/atomic_ref_impl.hpp" 1393 "compare_exchange_strong" [None; None] [Differs 1 Release; Differs 1 AcqRel; NotStronger 0 1] [0]
    [Step 1399 "compare_exchange_strong_impl" [Param 0; Param 1] [1] [1]];
  Function "detail/atomic_ref_impl.hpp" 1402 "compare_exchange_strong" [Some SeqCst] [] [0]
    [Step 1404 "compare_exchange_strong" [Param 0; Deduced 0] [1] [1]];
  Function "detail/atomic_ref_impl.hpp" 1407 "compare_exchange_weak" [None; None] [Differs 1 Release; Differs 1 AcqRel; NotStronger 0 1] [0]
    [Step 1413 "compare_exchange_weak_impl" [Param 0; Param 1] [1] [1]];
  Function "detail/atomic_ref_impl.hpp" 1416 "compare_exchange_weak" [Some SeqCst] [] [0]
    [Step 1418 "compare_exchange_weak" [Param 0; Deduced 0] [1] [1]];
  Function "detail/atomic_ref_impl.hpp" 1422 "add" [Some SeqCst] [] [0]
    [Step 1424 "add" [Param 0] [1] [1]];
  Function "detail/atomic_ref_impl.hpp" 1427 "sub" [Some SeqCst] [] [0]
    [Step 1429 "sub" [Param 0] [1] [1]];
  Function "detail/atomic_ref_impl.hpp" 1432 "opaque_add" [Some SeqCst] [] [0]
    [Step 1434 "opaque_add" [Param 0] [1] [1]];
  Function "detail/atomic_ref_impl.hpp" 1437 "opaque_sub" [Some SeqCst] [] [0]
    [Step 1439 "opaque_sub" [Param 0] [1] [1]];
  Function "detail/atomic_ref_impl.hpp" 1442 "add_and_test" [Some SeqCst] [] [0]
    [Step 1444 "add_and_test" [Param 0] [1] [1]];
  Function "detail/atomic_ref_impl.hpp" 1447 "sub_and_test" [Some SeqCst] [] [0]
    [Step 1449 "sub_and_test" [Param 0] [1] [1]];
  Function "detail/atomic_ref_impl.hpp" 1453 "operator++" [] [] [0]
    [Step 1455 "fetch_add" [] [1] [1]];
  Function "detail/atomic_ref_impl.hpp" 1458 "operator++" [] [] [0]
    [Step 1460 "add" [] [1] [1]];
  Function "detail/atomic_ref_impl.hpp" 1463 "operator--" [] [] [0]
    [Step 1465 "fetch_sub" [] [1] [1]];
  Function "detail/atomic_ref_impl.hpp" 1468 "operator--" [] [] [0]
    [Step 1470 "sub" [] [1] [1]];
  Function "detail/atomic_ref_impl.hpp" 1473 "operator+=" [] [] [0]
    [Step 1475 "add" [] [1] [1]];
  Function "detail/atomic_ref_impl.hpp" 1478 "operator-=" [] [] [0]
    [Step 1480 "sub" [] [1] [1]];
  Function "detail/atomic_ref_impl.hpp" 1483 "wait" [Some SeqCst] [Differs 0 Release; Differs 0 AcqRel] [0]
    [Step 1488 "wait" [Param 0] [1] [1]];
  Function "detail/atomic_ref_impl.hpp" 1493 "wait_until" [Some SeqCst] [Differs 0 Release; Differs 0 AcqRel] [0]
    [Step 1501 "wait_until" [Param 0] [1] [1]];
  Function "detail/atomic_ref_impl.hpp" 1507 "wait_for" [Some SeqCst] [Differs 0 Release; Differs 0 AcqRel] [0]
    [Step 1515 "wait_for" [Param 0] [1] [1]];
  Function "detail/atomic_ref_impl.hpp" 1521 "compare_exchange_strong_impl" [None; None] [] [0]
    [Step 1523 "compare_exchange_strong" [Param 0; Param 1] [1] [1]];
  Function "detail/atomic_ref_impl.hpp" 1528 "compare_exchange_strong_impl" [None; None] [] [0]
    [Step 1531 "compare_exchange_strong" [Param 0; Param 1] [1] [1]];
  Function "detail/atomic_ref_impl.hpp" 1538 "compare_exchange_weak_impl" [None; None] [] [0]
    [Step 1540 "compare_exchange_weak" [Param 0; Param 1] [1] [1]];
  Function "detail/atomic_ref_impl.hpp" 1545 "compare_exchange_weak_impl" [None; None] [] [0]
    [Step 1548 "compare_exchange_weak" [Param 0; Param 1] [1] [1]];
  Function "detail/atomic_flag_impl.hpp" 77 "test" [Some SeqCst] [Differs 0 Release; Differs 0 AcqRel] [0]
    [Step 81 "load" [Param 0] [1] [1]];
  Function "detail/atomic_flag_impl.hpp" 84 "test_and_set" [Some SeqCst] [] [0]
    [Step 86 "test_and_set" [Param 0] [1] [1]];
  Function "detail/atomic_flag_impl.hpp" 89 "clear" [Some SeqCst] [Differs 0 Consume; Differs 0 Acquire; Differs 0 AcqRel] [0]
    [Step 94 "clear" [Param 0] [1] [1]];
  Function "detail/atomic_flag_impl.hpp" 97 "wait" [Some SeqCst] [Differs 0 Release; Differs 0 AcqRel] [0]
    [Step 102 "wait" [Param 0] [1] [1]];
  Function "detail/atomic_flag_impl.hpp" 107 "wait_until" [Some SeqCst] [Differs 0 Release; Differs 0 AcqRel] [0]
    [Step 115 "wait_until" [Param 0] [1] [1]];
  Function "detail/atomic_flag_impl.hpp" 121 "wait_for" [Some SeqCst] [Differs 0 Release; Differs 0 AcqRel] [0]
    [Step 129 "wait_for" [Param 0] [1] [1]];
  Function "detail/wait_ops_generic.hpp" 63 "wait" [None] [] [0]
    [Step 65 "load" [Param 0] [1; 3] [1; 3];
     Step 69 "load" [Param 0] [2; 3] [2; 3];
     Step 73 "load" [Param 0] [2; 3] [2; 3]];
  Function "detail/wait_ops_generic.hpp" 82 "wait_until_fallback" [None] [] [0]
    [Step 92 "load" [Param 0] [2; 1] [2; 1];
     Step 108 "load" [Param 0] [2; 1] [2; 1]];
  Function "detail/wait_ops_generic.hpp" 118 "wait_until_abs_timeout" [None] [] [0]
    [Step 127 "load" [Param 0] [1; 2] [1; 2];
     Step 137 "load" [Param 0] [2; 1] [2; 1]];
  Function "detail/wait_ops_generic.hpp" 154 "wait_until_dispatch" [None] [] [0]
    [Step 164 "wait_until_abs_timeout" [Param 0] [1] [1]];
  Function "detail/wait_ops_generic.hpp" 168 "wait_until_dispatch" [None] [] [0]
    [Step 178 "wait_until_fallback" [Param 0] [1] [1]];
  Function "detail/wait_ops_generic.hpp" 183 "wait_until" [None] [] [0]
    [Step 193 "wait_until_dispatch" [Param 0] [1] [1]];
  Function "detail/wait_ops_generic.hpp" 200 "wait_until" [None] [] [0]
    [Step 209 "wait_until_fallback" [Param 0] [1] [1]];
  Function "detail/wait_ops_generic.hpp" 215 "wait_for" [None] [] [0]
    [Step 225 "wait_until_fallback" [Param 0] [1] [1]];
  Function "detail/wait_ops_generic.hpp" 259 "wait" [None] [] [0]
    [Step 261 "load" [Param 0] [1; 2; 3] [1; 2; 3];
     Step 267 "load" [Param 0] [3; 1; 2] [3; 1; 2];
     Step 275 "load" [Param 0] [2; 3] [2; 3]];
  Function "detail/wait_ops_generic.hpp" 286 "wait_until_impl" [None] [] [0]
    [Step 296 "load" [Param 0] [3; 1; 2] [3; 1; 2];
     Step 310 "load" [Param 0] [3; 1; 2] [3; 1; 2];
     Step 325 "load" [Param 0] [3; 2] [3; 2]];
  Function "detail/wait_ops_generic.hpp" 336 "wait_until" [None] [] [0]
    [Step 345 "wait_until_impl" [Param 0] [1] [1]];
  Function "detail/wait_ops_generic.hpp" 349 "wait_for" [None] [] [0]
    [Step 359 "wait_until_impl" [Param 0] [1] [1]];
  Function "detail/wait_ops_futex.hpp" 115 "wait" [None] [] [0]
    [Step 117 "load" [Param 0] [1; 2] [1; 2];
     Step 121 "load" [Param 0] [1; 2] [1; 2]];
  Function "detail/wait_ops_futex.hpp" 129 "wait_until_fallback" [None] [] [0]
    [Step 140 "load" [Param 0] [2; 1] [2; 1];
     Step 165 "load" [Param 0] [2; 1] [2; 1]];
  Function "detail/wait_ops_futex.hpp" 174 "wait_until_abs_timeout" [None] [] [0]
    [Step 184 "load" [Param 0] [1; 2; 3; 4] [1; 2; 3; 4];
     Step 201 "load" [Param 0] [4] [4];
     Step 207 "wait_until_fallback" [Param 0] [4] [4];
     Step 210 "load" [Param 0] [1; 2; 3; 4] [1; 2; 3; 4]];
  Function "detail/wait_ops_futex.hpp" 222 "wait_until_dispatch" [None] [] [0]
    [Step 232 "wait_until_fallback" [Param 0] [1] [1]];
  Function "detail/wait_ops_futex.hpp" 236 "wait_until_dispatch" [None] [] [0]
    [Step 246 "wait_until_abs_timeout" [Param 0] [1] [1]];
  Function "detail/wait_ops_futex.hpp" 251 "wait_until" [None] [] [0]
    [Step 260 "wait_until_dispatch" [Param 0] [1] [1]];
  Function "detail/wait_ops_futex.hpp" 267 "wait_until" [None] [] [0]
    [Step 276 "wait_until_fallback" [Param 0] [1] [1]];
  Function "detail/wait_ops_futex.hpp" 282 "wait_for" [None] [] [0; 1]
    [Step 305 "load" [Param 0] [2; 1; 3; 4] [2; 1; 3; 4];
     Step 334 "wait_until_fallback" [Param 0] [4] [4];
     Step 314 "load" [Param 0] [4] [4];
     Step 323 "load" [Param 0] [2; 1; 3; 4] [2; 1; 3; 4]];
  Function "detail/wait_ops_freebsd_umtx.hpp" 84 "wait" [None] [] [0]
    [Step 86 "load" [Param 0] [1; 2] [1; 2];
     Step 90 "load" [Param 0] [1; 2] [1; 2]];
  Function "detail/wait_ops_freebsd_umtx.hpp" 100 "wait_until_fallback" [None] [] [0]
    [Step 112 "load" [Param 0] [2; 1] [2; 1];
     Step 144 "load" [Param 0] [2; 1] [2; 1]];
  Function "detail/wait_ops_freebsd_umtx.hpp" 150 "wait_until_abs_timeout" [None] [] [0]
    [Step 159 "load" [Param 0] [1; 2; 3] [1; 2; 3];
     Step 175 "load" [Param 0] [3] [3];
     Step 181 "load" [Param 0] [1; 2; 3] [1; 2; 3]];
  Function "detail/wait_ops_freebsd_umtx.hpp" 188 "wait_until_dispatch" [None] [] [0]
    [Step 198 "wait_until_fallback" [Param 0] [1] [1]];
  Function "detail/wait_ops_freebsd_umtx.hpp" 202 "wait_until_dispatch" [None] [] [0; 1]
    [Step 218 "wait_until_abs_timeout" [Param 0] [2] [2];
     Step 222 "load" [Param 0] [2] [2]];
  Function "detail/wait_ops_freebsd_umtx.hpp" 230 "wait_until" [None] [] [0]
    [Step 240 "wait_until_dispatch" [Param 0] [1] [1]];
  Function "detail/wait_ops_freebsd_umtx.hpp" 244 "wait_for" [None] [] [0; 1]
    [Step 266 "wait_until_abs_timeout" [Param 0] [2] [2];
     Step 272 "wait_until_fallback" [Param 0] [2] [2]];
  Function "detail/wait_ops_freebsd_umtx.hpp" 279 "wait_until_impl" [None] [] [0]
    [Step 290 "load" [Param 0] [2; 1] [2; 1];
     Step 315 "load" [Param 0] [2; 1] [2; 1]];
  Function "detail/wait_ops_freebsd_umtx.hpp" 323 "wait_until" [None] [] [0]
    [Step 332 "wait_until_impl" [Param 0] [1] [1]];
  Function "detail/wait_ops_freebsd_umtx.hpp" 336 "wait_for" [None] [] [0]
    [Step 346 "wait_until_impl" [Param 0] [1] [1]];
  Function "detail/wait_ops_dragonfly_umtx.hpp" 51 "wait" [None] [] [0]
    [Step 53 "load" [Param 0] [1; 2] [1; 2];
     Step 57 "load" [Param 0] [1; 2] [1; 2]];
  Function "detail/wait_ops_dragonfly_umtx.hpp" 65 "wait_until_impl" [None] [] [0]
    [Step 75 "load" [Param 0] [2; 1] [2; 1];
     Step 93 "load" [Param 0] [2; 1] [2; 1]];
  Function "detail/wait_ops_dragonfly_umtx.hpp" 101 "wait_until" [None] [] [0]
    [Step 110 "wait_until_impl" [Param 0] [1] [1]];
  Function "detail/wait_ops_dragonfly_umtx.hpp" 114 "wait_for" [None] [] [0]
    [Step 124 "wait_until_impl" [Param 0] [1] [1]];
  Function "detail/wait_ops_darwin_ulock.hpp" 82 "wait" [None] [] [0]
    [Step 84 "load" [Param 0] [1; 2] [1; 2];
     Step 92 "load" [Param 0] [1; 2] [1; 2]];
  Function "detail/wait_ops_darwin_ulock.hpp" 100 "wait_until_impl" [None] [] [0]
    [Step 110 "load" [Param 0] [2; 1] [2; 1];
     Step 136 "load" [Param 0] [2; 1] [2; 1]];
  Function "detail/wait_ops_darwin_ulock.hpp" 144 "wait_until" [None] [] [0]
    [Step 153 "wait_until_impl" [Param 0] [1] [1]];
  Function "detail/wait_ops_darwin_ulock.hpp" 157 "wait_for" [None] [] [0]
    [Step 167 "wait_until_impl" [Param 0] [1] [1]];
  Function "detail/wait_ops_windows.hpp" 61 "wait" [None] [] [0]
    [Step 63 "load" [Param 0] [1; 2] [1; 2];
     Step 67 "load" [Param 0] [1; 2] [1; 2]];
  Function "detail/wait_ops_windows.hpp" 75 "wait_until_impl" [None] [] [0]
    [Step 85 "load" [Param 0] [2; 1] [2; 1];
     Step 105 "load" [Param 0] [2; 1] [2; 1]];
  Function "detail/wait_ops_windows.hpp" 113 "wait_until" [None] [] [0]
    [Step 122 "wait_until_impl" [Param 0] [1] [1]];
  Function "detail/wait_ops_windows.hpp" 126 "wait_for" [None] [] [0]
    [Step 136 "wait_until_impl" [Param 0] [1] [1]];
  Function "detail/extra_fp_ops_generic.hpp" 57 "fetch_negate" [None] [] [0]
    [Step 61 "non_atomic_load" [] [1] [1];
     Step 68 "compare_exchange_weak" [Param 0; Given Relaxed] [2] [1]];
  Function "detail/extra_fp_ops_generic.hpp" 72 "negate" [None] [] [0]
    [Step 76 "non_atomic_load" [] [1] [1];
     Step 83 "compare_exchange_weak" [Param 0; Given Relaxed] [2] [1]];
  Function "detail/extra_fp_ops_generic.hpp" 87 "opaque_negate" [None] [] [0]
    [Step 89 "fetch_negate" [Param 0] [1] [1]];
  Function "detail/extra_fp_ops_generic.hpp" 107 "fetch_negate" [None] [] [0]
    [Step 109 "fetch_xor" [Param 0] [1] [1]];
  Function "detail/extra_fp_ops_generic.hpp" 112 "negate" [None] [] [0]
    [Step 114 "bitwise_xor" [Param 0] [1] [1]];
  Function "detail/extra_fp_ops_generic.hpp" 117 "opaque_negate" [None] [] [0]
    [Step 119 "opaque_xor" [Param 0] [1] [1]];
  Function "detail/extra_fp_ops_generic.hpp" 134 "add" [None] [] [0]
    [Step 138 "non_atomic_load" [] [1] [1];
     Step 145 "compare_exchange_weak" [Param 0; Given Relaxed] [2] [1]];
  Function "detail/extra_fp_ops_generic.hpp" 149 "sub" [None] [] [0]
    [Step 153 "non_atomic_load" [] [1] [1];
     Step 160 "compare_exchange_weak" [Param 0; Given Relaxed] [2] [1]];
  Function "detail/extra_fp_ops_generic.hpp" 164 "opaque_add" [None] [] [0]
    [Step 166 "fetch_add" [Param 0] [1] [1]];
  Function "detail/extra_fp_ops_generic.hpp" 169 "opaque_sub" [None] [] [0]
    [Step 171 "fetch_sub" [Param 0] [1] [1]];
  Function "detail/fp_ops_generic.hpp" 42 "fetch_add" [None] [] [0]
    [Step 46 "non_atomic_load" [] [1] [1];
     Step 53 "compare_exchange_weak" [Param 0; Given Relaxed] [2] [1]];
  Function "detail/fp_ops_generic.hpp" 57 "fetch_sub" [None] [] [0]
    [Step 61 "non_atomic_load" [] [1] [1];
     Step 68 "compare_exchange_weak" [Param 0; Given Relaxed] [2] [1]];
  Function "detail/extra_ops_generic.hpp" 42 "fetch_negate" [None] [] [0]
    [Step 45 "non_atomic_load" [] [1] [1];
     Step 46 "compare_exchange_weak" [Param 0; Given Relaxed] [2] [1]];
  Function "detail/extra_ops_generic.hpp" 53 "negate" [None] [] [0]
    [Step 56 "non_atomic_load" [] [1] [1];
     Step 61 "compare_exchange_weak" [Param 0; Given Relaxed] [2] [1]];
  Function "detail/extra_ops_generic.hpp" 65 "add" [None] [] [0]
    [Step 67 "fetch_add" [Param 0] [1] [1]];
  Function "detail/extra_ops_generic.hpp" 70 "sub" [None] [] [0]
    [Step 72 "fetch_sub" [Param 0] [1] [1]];
  Function "detail/extra_ops_generic.hpp" 75 "bitwise_and" [None] [] [0]
    [Step 77 "fetch_and" [Param 0] [1] [1]];
  Function "detail/extra_ops_generic.hpp" 80 "bitwise_or" [None] [] [0]
    [Step 82 "fetch_or" [Param 0] [1] [1]];
  Function "detail/extra_ops_generic.hpp" 85 "bitwise_xor" [None] [] [0]
    [Step 87 "fetch_xor" [Param 0] [1] [1]];
  Function "detail/extra_ops_generic.hpp" 90 "fetch_complement" [None] [] [0]
    [Step 92 "fetch_xor" [Param 0] [1] [1]];
  Function "detail/extra_ops_generic.hpp" 96 "bitwise_complement" [None] [] [0]
    [Step 100 "fetch_xor" [Param 0] [1] [1]];
  Function "detail/extra_ops_generic.hpp" 103 "opaque_add" [None] [] [0]
    [Step 105 "fetch_add" [Param 0] [1] [1]];
  Function "detail/extra_ops_generic.hpp" 108 "opaque_sub" [None] [] [0]
    [Step 110 "fetch_sub" [Param 0] [1] [1]];
  Function "detail/extra_ops_generic.hpp" 113 "opaque_negate" [None] [] [0]
    [Step 115 "fetch_negate" [Param 0] [1] [1]];
  Function "detail/extra_ops_generic.hpp" 118 "opaque_and" [None] [] [0]
    [Step 120 "fetch_and" [Param 0] [1] [1]];
  Function "detail/extra_ops_generic.hpp" 123 "opaque_or" [None] [] [0]
    [Step 125 "fetch_or" [Param 0] [1] [1]];
  Function "detail/extra_ops_generic.hpp" 128 "opaque_xor" [None] [] [0]
    [Step 130 "fetch_xor" [Param 0] [1] [1]];
  Function "detail/extra_ops_generic.hpp" 133 "opaque_complement" [None] [] [0]
    [Step 135 "fetch_complement" [Param 0] [1] [1]];
  Function "detail/extra_ops_generic.hpp" 138 "add_and_test" [None] [] [0]
    [Step 140 "add" [Param 0] [1] [1]];
  Function "detail/extra_ops_generic.hpp" 143 "sub_and_test" [None] [] [0]
    [Step 145 "sub" [Param 0] [1] [1]];
  Function "detail/extra_ops_generic.hpp" 148 "negate_and_test" [None] [] [0]
    [Step 150 "negate" [Param 0] [1] [1]];
  Function "detail/extra_ops_generic.hpp" 153 "and_and_test" [None] [] [0]
    [Step 155 "bitwise_and" [Param 0] [1] [1]];
  Function "detail/extra_ops_generic.hpp" 158 "or_and_test" [None] [] [0]
    [Step 160 "bitwise_or" [Param 0] [1] [1]];
  Function "detail/extra_ops_generic.hpp" 163 "xor_and_test" [None] [] [0]
    [Step 165 "bitwise_xor" [Param 0] [1] [1]];
  Function "detail/extra_ops_generic.hpp" 168 "complement_and_test" [None] [] [0]
    [Step 170 "bitwise_complement" [Param 0] [1] [1]];
  Function "detail/extra_ops_generic.hpp" 173 "bit_test_and_set" [None] [] [0]
    [Step 177 "fetch_or" [Param 0] [1] [1]];
  Function "detail/extra_ops_generic.hpp" 181 "bit_test_and_reset" [None] [] [0]
    [Step 185 "fetch_and" [Param 0] [1] [1]];
  Function "detail/extra_ops_generic.hpp" 189 "bit_test_and_complement" [None] [] [0]
    [Step 193 "fetch_xor" [Param 0] [1] [1]];
  Function "detail/extra_ops_generic.hpp" 207 "fetch_negate" [None] [] [0]
    [Step 210 "non_atomic_load" [] [1] [1];
     Step 211 "compare_exchange_weak" [Param 0; Given Relaxed] [2] [1]];
  Function "detail/extra_ops_generic.hpp" 218 "negate" [None] [] [0]
    [Step 221 "non_atomic_load" [] [1] [1];
     Step 226 "compare_exchange_weak" [Param 0; Given Relaxed] [2] [1]];
  Function "detail/extra_ops_generic.hpp" 230 "add" [None] [] [0]
    [Step 233 "non_atomic_load" [] [1] [1];
     Step 238 "compare_exchange_weak" [Param 0; Given Relaxed] [2] [1]];
  Function "detail/extra_ops_generic.hpp" 242 "sub" [None] [] [0]
    [Step 245 "non_atomic_load" [] [1] [1];
     Step 250 "compare_exchange_weak" [Param 0; Given Relaxed] [2] [1]];
  Function "detail/extra_ops_generic.hpp" 254 "bitwise_and" [None] [] [0]
    [Step 257 "non_atomic_load" [] [1] [1];
     Step 262 "compare_exchange_weak" [Param 0; Given Relaxed] [2] [1]];
  Function "detail/extra_ops_generic.hpp" 266 "bitwise_or" [None] [] [0]
    [Step 269 "non_atomic_load" [] [1] [1];
     Step 274 "compare_exchange_weak" [Param 0; Given Relaxed] [2] [1]];
  Function "detail/extra_ops_generic.hpp" 278 "bitwise_xor" [None] [] [0]
    [Step 281 "non_atomic_load" [] [1] [1];
     Step 286 "compare_exchange_weak" [Param 0; Given Relaxed] [2] [1]];
  Function "detail/extra_ops_generic.hpp" 290 "fetch_complement" [None] [] [0]
    [Step 292 "fetch_xor" [Param 0] [1] [1]];
  Function "detail/extra_ops_generic.hpp" 296 "bitwise_complement" [None] [] [0]
    [Step 298 "bitwise_xor" [Param 0] [1] [1]];
  Function "detail/extra_ops_generic.hpp" 302 "opaque_add" [None] [] [0]
    [Step 304 "fetch_add" [Param 0] [1] [1]];
  Function "detail/extra_ops_generic.hpp" 307 "opaque_sub" [None] [] [0]
    [Step 309 "fetch_sub" [Param 0] [1] [1]];
  Function "detail/extra_ops_generic.hpp" 312 "opaque_negate" [None] [] [0]
    [Step 314 "fetch_negate" [Param 0] [1] [1]];
  Function "detail/extra_ops_generic.hpp" 317 "opaque_and" [None] [] [0]
    [Step 319 "fetch_and" [Param 0] [1] [1]];
  Function "detail/extra_ops_generic.hpp" 322 "opaque_or" [None] [] [0]
    [Step 324 "fetch_or" [Param 0] [1] [1]];
  Function "detail/extra_ops_generic.hpp" 327 "opaque_xor" [None] [] [0]
    [Step 329 "fetch_xor" [Param 0] [1] [1]];
  Function "detail/extra_ops_generic.hpp" 332 "opaque_complement" [None] [] [0]
    [Step 334 "fetch_complement" [Param 0] [1] [1]];
  Function "detail/extra_ops_generic.hpp" 337 "add_and_test" [None] [] [0]
    [Step 339 "add" [Param 0] [1] [1]];
  Function "detail/extra_ops_generic.hpp" 342 "sub_and_test" [None] [] [0]
    [Step 344 "sub" [Param 0] [1] [1]];
  Function "detail/extra_ops_generic.hpp" 347 "negate_and_test" [None] [] [0]
    [Step 349 "negate" [Param 0] [1] [1]];
  Function "detail/extra_ops_generic.hpp" 352 "and_and_test" [None] [] [0]
    [Step 354 "bitwise_and" [Param 0] [1] [1]];
  Function "detail/extra_ops_generic.hpp" 357 "or_and_test" [None] [] [0]
    [Step 359 "bitwise_or" [Param 0] [1] [1]];
  Function "detail/extra_ops_generic.hpp" 362 "xor_and_test" [None] [] [0]
    [Step 364 "bitwise_xor" [Param 0] [1] [1]];
  Function "detail/extra_ops_generic.hpp" 367 "complement_and_test" [None] [] [0]
    [Step 369 "bitwise_complement" [Param 0] [1] [1]];
  Function "detail/extra_ops_generic.hpp" 372 "bit_test_and_set" [None] [] [0]
    [Step 376 "fetch_or" [Param 0] [1] [1]];
  Function "detail/extra_ops_generic.hpp" 380 "bit_test_and_reset" [None] [] [0]
    [Step 384 "fetch_and" [Param 0] [1] [1]];
  Function "detail/extra_ops_generic.hpp" 388 "bit_test_and_complement" [None] [] [0]
    [Step 392 "fetch_xor" [Param 0] [1] [1]];
  Function "detail/extra_ops_gcc_x86.hpp" 142 "negate_and_test" [None] [] [0]
    [Step 144 "negate" [Param 0] [1] [1]];
  Function "detail/extra_ops_gcc_x86.hpp" 147 "complement_and_test" [None] [] [0]
    [Step 149 "bitwise_complement" [Param 0] [1] [1]];
  Function "detail/extra_ops_gcc_x86.hpp" 562 "negate_and_test" [None] [] [0]
    [Step 564 "negate" [Param 0] [1] [1]];
  Function "detail/extra_ops_gcc_x86.hpp" 567 "complement_and_test" [None] [] [0]
    [Step 569 "bitwise_complement" [Param 0] [1] [1]];
  Function "detail/extra_ops_gcc_x86.hpp" 1059 "negate_and_test" [None] [] [0]
    [Step 1061 "negate" [Param 0] [1] [1]];
  Function "detail/extra_ops_gcc_x86.hpp" 1064 "complement_and_test" [None] [] [0]
    [Step 1066 "bitwise_complement" [Param 0] [1] [1]];
  Function "detail/extra_ops_gcc_x86.hpp" 1558 "negate_and_test" [None] [] [0]
    [Step 1560 "negate" [Param 0] [1] [1]];
  Function "detail/extra_ops_gcc_x86.hpp" 1563 "complement_and_test" [None] [] [0]
    [Step 1565 "bitwise_complement" [Param 0] [1] [1]];
  Function "detail/extra_ops_gcc_arm.hpp" 45 "opaque_negate" [None] [] [0]
    [Step 47 "fetch_negate" [Param 0] [1] [1]];
  Function "detail/extra_ops_gcc_arm.hpp" 50 "opaque_complement" [None] [] [0]
    [Step 52 "fetch_complement" [Param 0] [1] [1]];
  Function "detail/extra_ops_gcc_arm.hpp" 55 "negate_and_test" [None] [] [0]
    [Step 57 "negate" [Param 0] [1] [1]];
  Function "detail/extra_ops_gcc_arm.hpp" 60 "add_and_test" [None] [] [0]
    [Step 62 "add" [Param 0] [1] [1]];
  Function "detail/extra_ops_gcc_arm.hpp" 65 "sub_and_test" [None] [] [0]
    [Step 67 "sub" [Param 0] [1] [1]];
  Function "detail/extra_ops_gcc_arm.hpp" 70 "and_and_test" [None] [] [0]
    [Step 72 "bitwise_and" [Param 0] [1] [1]];
  Function "detail/extra_ops_gcc_arm.hpp" 75 "or_and_test" [None] [] [0]
    [Step 77 "bitwise_or" [Param 0] [1] [1]];
  Function "detail/extra_ops_gcc_arm.hpp" 80 "xor_and_test" [None] [] [0]
    [Step 82 "bitwise_xor" [Param 0] [1] [1]];
  Function "detail/extra_ops_gcc_arm.hpp" 85 "complement_and_test" [None] [] [0]
    [Step 87 "bitwise_complement" [Param 0] [1] [1]];
  Function "detail/extra_ops_gcc_aarch32.hpp" 46 "opaque_negate" [None] [] [0]
    [Step 48 "negate" [Param 0] [1] [1]];
  Function "detail/extra_ops_gcc_aarch32.hpp" 51 "opaque_complement" [None] [] [0]
    [Step 53 "bitwise_complement" [Param 0] [1] [1]];
  Function "detail/extra_ops_gcc_aarch32.hpp" 56 "opaque_add" [None] [] [0]
    [Step 58 "add" [Param 0] [1] [1]];
  Function "detail/extra_ops_gcc_aarch32.hpp" 61 "opaque_sub" [None] [] [0]
    [Step 63 "sub" [Param 0] [1] [1]];
  Function "detail/extra_ops_gcc_aarch32.hpp" 66 "opaque_and" [None] [] [0]
    [Step 68 "bitwise_and" [Param 0] [1] [1]];
  Function "detail/extra_ops_gcc_aarch32.hpp" 71 "opaque_or" [None] [] [0]
    [Step 73 "bitwise_or" [Param 0] [1] [1]];
  Function "detail/extra_ops_gcc_aarch32.hpp" 76 "opaque_xor" [None] [] [0]
    [Step 78 "bitwise_xor" [Param 0] [1] [1]];
  Function "detail/extra_ops_gcc_aarch32.hpp" 81 "negate_and_test" [None] [] [0]
    [Step 83 "negate" [Param 0] [1] [1]];
  Function "detail/extra_ops_gcc_aarch32.hpp" 86 "add_and_test" [None] [] [0]
    [Step 88 "add" [Param 0] [1] [1]];
  Function "detail/extra_ops_gcc_aarch32.hpp" 91 "sub_and_test" [None] [] [0]
    [Step 93 "sub" [Param 0] [1] [1]];
  Function "detail/extra_ops_gcc_aarch32.hpp" 96 "and_and_test" [None] [] [0]
    [Step 98 "bitwise_and" [Param 0] [1] [1]];
  Function "detail/extra_ops_gcc_aarch32.hpp" 101 "or_and_test" [None] [] [0]
    [Step 103 "bitwise_or" [Param 0] [1] [1]];
  Function "detail/extra_ops_gcc_aarch32.hpp" 106 "xor_and_test" [None] [] [0]
    [Step 108 "bitwise_xor" [Param 0] [1] [1]];
  Function "detail/extra_ops_gcc_aarch32.hpp" 111 "complement_and_test" [None] [] [0]
    [Step 113 "bitwise_complement" [Param 0] [1] [1]];
  Function "detail/extra_ops_gcc_aarch64.hpp" 48 "opaque_negate" [None] [] [0]
    [Step 50 "negate" [Param 0] [1] [1]];
  Function "detail/extra_ops_gcc_aarch64.hpp" 53 "opaque_complement" [None] [] [0]
    [Step 55 "bitwise_complement" [Param 0] [1] [1]];
  Function "detail/extra_ops_gcc_aarch64.hpp" 58 "opaque_add" [None] [] [0]
    [Step 60 "add" [Param 0] [1] [1]];
  Function "detail/extra_ops_gcc_aarch64.hpp" 63 "opaque_sub" [None] [] [0]
    [Step 65 "sub" [Param 0] [1] [1]];
  Function "detail/extra_ops_gcc_aarch64.hpp" 68 "opaque_and" [None] [] [0]
    [Step 70 "bitwise_and" [Param 0] [1] [1]];
  Function "detail/extra_ops_gcc_aarch64.hpp" 73 "opaque_or" [None] [] [0]
    [Step 75 "bitwise_or" [Param 0] [1] [1]];
  Function "detail/extra_ops_gcc_aarch64.hpp" 78 "opaque_xor" [None] [] [0]
    [Step 80 "bitwise_xor" [Param 0] [1] [1]];
  Function "detail/extra_ops_gcc_aarch64.hpp" 83 "negate_and_test" [None] [] [0]
    [Step 85 "negate" [Param 0] [1] [1]];
  Function "detail/extra_ops_gcc_aarch64.hpp" 88 "add_and_test" [None] [] [0]
    [Step 90 "add" [Param 0] [1] [1]];
  Function "detail/extra_ops_gcc_aarch64.hpp" 93 "sub_and_test" [None] [] [0]
    [Step 95 "sub" [Param 0] [1] [1]];
  Function "detail/extra_ops_gcc_aarch64.hpp" 98 "and_and_test" [None] [] [0]
    [Step 100 "bitwise_and" [Param 0] [1] [1]];
  Function "detail/extra_ops_gcc_aarch64.hpp" 103 "or_and_test" [None] [] [0]
    [Step 105 "bitwise_or" [Param 0] [1] [1]];
  Function "detail/extra_ops_gcc_aarch64.hpp" 108 "xor_and_test" [None] [] [0]
    [Step 110 "bitwise_xor" [Param 0] [1] [1]];
  Function "detail/extra_ops_gcc_aarch64.hpp" 113 "complement_and_test" [None] [] [0]
    [Step 115 "bitwise_complement" [Param 0] [1] [1]];
  Function "detail/extra_ops_gcc_ppc.hpp" 43 "opaque_negate" [None] [] [0]
    [Step 45 "fetch_negate" [Param 0] [1] [1]];
  Function "detail/extra_ops_gcc_ppc.hpp" 48 "opaque_complement" [None] [] [0]
    [Step 50 "fetch_complement" [Param 0] [1] [1]];
  Function "detail/extra_ops_gcc_ppc.hpp" 53 "negate_and_test" [None] [] [0]
    [Step 55 "negate" [Param 0] [1] [1]];
  Function "detail/extra_ops_gcc_ppc.hpp" 58 "add_and_test" [None] [] [0]
    [Step 60 "add" [Param 0] [1] [1]];
  Function "detail/extra_ops_gcc_ppc.hpp" 63 "sub_and_test" [None] [] [0]
    [Step 65 "sub" [Param 0] [1] [1]];
  Function "detail/extra_ops_gcc_ppc.hpp" 68 "and_and_test" [None] [] [0]
    [Step 70 "bitwise_and" [Param 0] [1] [1]];
  Function "detail/extra_ops_gcc_ppc.hpp" 73 "or_and_test" [None] [] [0]
    [Step 75 "bitwise_or" [Param 0] [1] [1]];
  Function "detail/extra_ops_gcc_ppc.hpp" 78 "xor_and_test" [None] [] [0]
    [Step 80 "bitwise_xor" [Param 0] [1] [1]];
  Function "detail/extra_ops_gcc_ppc.hpp" 83 "complement_and_test" [None] [] [0]
    [Step 85 "bitwise_complement" [Param 0] [1] [1]];
  Function "detail/core_ops_cas_based.hpp" 37 "fetch_add" [None] [] [0]
    [Step 40 "non_atomic_load" [] [1] [1];
     Step 41 "compare_exchange_weak" [Param 0; Given Relaxed] [2] [1]];
  Function "detail/core_ops_cas_based.hpp" 45 "fetch_sub" [None] [] [0]
    [Step 48 "non_atomic_load" [] [1] [1];
     Step 49 "compare_exchange_weak" [Param 0; Given Relaxed] [2] [1]];
  Function "detail/core_ops_cas_based.hpp" 53 "fetch_and" [None] [] [0]
    [Step 56 "non_atomic_load" [] [1] [1];
     Step 57 "compare_exchange_weak" [Param 0; Given Relaxed] [2] [1]];
  Function "detail/core_ops_cas_based.hpp" 61 "fetch_or" [None] [] [0]
    [Step 64 "non_atomic_load" [] [1] [1];
     Step 65 "compare_exchange_weak" [Param 0; Given Relaxed] [2] [1]];
  Function "detail/core_ops_cas_based.hpp" 69 "fetch_xor" [None] [] [0]
    [Step 72 "non_atomic_load" [] [1] [1];
     Step 73 "compare_exchange_weak" [Param 0; Given Relaxed] [2] [1]];
  Function "detail/core_ops_cas_based.hpp" 77 "test_and_set" [None] [] [0]
    [Step 79 "exchange" [Param 0] [1] [1]];
  Function "detail/core_ops_cas_based.hpp" 82 "clear" [None] [] [0]
    [Step 84 "store" [Param 0] [1] [1]];
  Function "detail/cas_based_exchange.hpp" 35 "exchange" [None] [] [0]
    [Step 38 "non_atomic_load" [] [1] [1];
     Step 39 "compare_exchange_weak" [Param 0; Given Relaxed] [2] [1]];
  Function "detail/extending_cas_based_arithmetic.hpp" 39 "fetch_add" [None] [] [0]
    [Step 42 "non_atomic_load" [] [1] [1];
     Step 48 "compare_exchange_weak" [Param 0; Given Relaxed] [2] [1]];
  Function "detail/extending_cas_based_arithmetic.hpp" 52 "fetch_sub" [None] [] [0]
    [Step 55 "non_atomic_load" [] [1] [1];
     Step 61 "compare_exchange_weak" [Param 0; Given Relaxed] [2] [1]];
  Function "detail/core_ops_gcc_atomic.hpp" 69 "store" [None] [] [0; 1; 2]
    [Step 74 "__atomic_store_n" [Param 0] [3] [3];
     Step 76 "__atomic_exchange_n" [Given SeqCst] [3] [3];
     Step 78 "__atomic_store_n" [Param 0] [3] [3]];
  Function "detail/core_ops_gcc_atomic.hpp" 82 "load" [None] [] [0; 1]
    [Step 89 "load" [Param 0] [2] [2];
     Step 91 "__atomic_load_n" [Param 0] [2] [2]];
  Function "detail/core_ops_gcc_atomic.hpp" 95 "fetch_add" [None] [] [0]
    [Step 97 "__atomic_fetch_add" [Param 0] [1] [1]];
  Function "detail/core_ops_gcc_atomic.hpp" 100 "fetch_sub" [None] [] [0]
    [Step 102 "__atomic_fetch_sub" [Param 0] [1] [1]];
  Function "detail/core_ops_gcc_atomic.hpp" 105 "exchange" [None] [] [0]
    [Step 107 "__atomic_exchange_n" [Param 0] [1] [1]];
  Function "detail/core_ops_gcc_atomic.hpp" 110 "compare_exchange_strong" [None; None] [] [0]
    [Step 113 "__atomic_compare_exchange_n" [Param 0; Param 1] [1] [1]];
  Function "detail/core_ops_gcc_atomic.hpp" 121 "compare_exchange_weak" [None; None] [] [0]
    [Step 124 "__atomic_compare_exchange_n" [Param 0; Param 1] [1] [1]];
  Function "detail/core_ops_gcc_atomic.hpp" 132 "fetch_and" [None] [] [0]
    [Step 134 "__atomic_fetch_and" [Param 0] [1] [1]];
  Function "detail/core_ops_gcc_atomic.hpp" 137 "fetch_or" [None] [] [0]
    [Step 139 "__atomic_fetch_or" [Param 0] [1] [1]];
  Function "detail/core_ops_gcc_atomic.hpp" 142 "fetch_xor" [None] [] [0]
    [Step 144 "__atomic_fetch_xor" [Param 0] [1] [1]];
  Function "detail/core_ops_gcc_atomic.hpp" 147 "test_and_set" [None] [] [0]
    [Step 149 "__atomic_test_and_set" [Param 0] [1] [1]];
  Function "detail/core_ops_gcc_atomic.hpp" 152 "clear" [None] [] [0]
    [Step 154 "__atomic_clear" [Param 0] [1] [1]];
  Function "detail/core_ops_gcc_sync.hpp" 86 "store" [None] [] [0]
    [Step 88 "exchange" [Param 0] [1] [1]];
  Function "detail/core_ops_gcc_sync.hpp" 108 "store" [None] [] [0]
    [Step 110 "store" [Param 0] [1] [1]];
  Function "detail/core_ops_gcc_sync.hpp" 113 "load" [None] [] [0]
    [Step 115 "load" [Param 0] [1] [1]];
  Function "detail/core_ops_gcc_sync.hpp" 155 "compare_exchange_weak" [None; None] [] [0]
    [Step 158 "compare_exchange_strong" [Param 0; Param 1] [1] [1]];
  Function "detail/core_ops_linux_arm.hpp" 112 "compare_exchange_strong" [None; None] [] [0]
    [Step 118 "compare_exchange_weak" [Param 0; Param 1] [1] [1; 0]];
  Function "detail/core_ops_windows.hpp" 72 "store" [None] [] [0]
    [Step 74 "exchange" [Param 0] [1] [1]];
  Function "detail/core_ops_windows.hpp" 77 "load" [None] [] [0]
    [Step 79 "fetch_add_zero" [Param 0] [1] [1]];
  Function "detail/core_ops_windows.hpp" 82 "fetch_sub" [None] [] [0]
    [Step 85 "fetch_add" [Param 0] [1] [1]];
  Function "detail/core_ops_windows.hpp" 88 "compare_exchange_weak" [None; None] [] [0]
    [Step 91 "compare_exchange_strong" [Param 0; Param 1] [1] [1]];
  Function "detail/core_ops_windows.hpp" 94 "test_and_set" [None] [] [0]
    [Step 96 "exchange" [Param 0] [1] [1]];
  Function "detail/core_ops_windows.hpp" 99 "clear" [None] [] [0]
    [Step 101 "store" [Param 0] [1] [1]];
  Function "detail/core_arch_ops_gcc_x86.hpp" 93 "fetch_sub" [None] [] [0]
    [Step 95 "fetch_add" [Param 0] [1] [1]];
  Function "detail/core_arch_ops_gcc_x86.hpp" 98 "compare_exchange_weak" [None; None] [] [0]
    [Step 101 "compare_exchange_strong" [Param 0; Param 1] [1] [1]];
  Function "detail/core_arch_ops_gcc_x86.hpp" 104 "test_and_set" [None] [] [0]
    [Step 106 "exchange" [Param 0] [1] [1]];
  Function "detail/core_arch_ops_gcc_x86.hpp" 109 "clear" [None] [] [0]
    [Step 111 "store" [Param 0] [1] [1]];
  Function "detail/core_arch_ops_gcc_x86.hpp" 694 "compare_exchange_weak" [None; None] [] [0]
    [Step 697 "compare_exchange_strong" [Param 0; Param 1] [1] [1]];
  Function "detail/core_arch_ops_gcc_x86.hpp" 1109 "compare_exchange_weak" [None; None] [] [0]
    [Step 1112 "compare_exchange_strong" [Param 0; Param 1] [1] [1]];
  Function "detail/core_arch_ops_gcc_arm.hpp" 311 "test_and_set" [None] [] [0]
    [Step 313 "exchange" [Param 0] [1] [1]];
  Function "detail/core_arch_ops_gcc_arm.hpp" 316 "clear" [None] [] [0]
    [Step 318 "store" [Param 0] [1] [1]];
  Function "detail/core_arch_ops_gcc_arm.hpp" 577 "test_and_set" [None] [] [0]
    [Step 579 "exchange" [Param 0] [1] [1]];
  Function "detail/core_arch_ops_gcc_arm.hpp" 582 "clear" [None] [] [0]
    [Step 584 "store" [Param 0] [1] [1]];
  Function "detail/core_arch_ops_gcc_arm.hpp" 971 "test_and_set" [None] [] [0]
    [Step 973 "exchange" [Param 0] [1] [1]];
  Function "detail/core_arch_ops_gcc_arm.hpp" 976 "clear" [None] [] [0]
    [Step 978 "store" [Param 0] [1] [1]];
  Function "detail/core_arch_ops_gcc_arm.hpp" 1134 "store" [None] [] [0]
    [Step 1136 "exchange" [Param 0] [1] [1]];
  Function "detail/core_arch_ops_gcc_arm.hpp" 1398 "test_and_set" [None] [] [0]
    [Step 1400 "exchange" [Param 0] [1] [1]];
  Function "detail/core_arch_ops_gcc_arm.hpp" 1403 "clear" [None] [] [0]
    [Step 1405 "store" [Param 0] [1] [1]];
  Function "detail/core_arch_ops_gcc_aarch32.hpp" 323 "test_and_set" [None] [] [0]
    [Step 325 "exchange" [Param 0] [1] [1]];
  Function "detail/core_arch_ops_gcc_aarch32.hpp" 328 "clear" [None] [] [0]
    [Step 330 "store" [Param 0] [1] [1]];
  Function "detail/core_arch_ops_gcc_aarch32.hpp" 605 "test_and_set" [None] [] [0]
    [Step 607 "exchange" [Param 0] [1] [1]];
  Function "detail/core_arch_ops_gcc_aarch32.hpp" 610 "clear" [None] [] [0]
    [Step 612 "store" [Param 0] [1] [1]];
  Function "detail/core_arch_ops_gcc_aarch32.hpp" 885 "test_and_set" [None] [] [0]
    [Step 887 "exchange" [Param 0] [1] [1]];
  Function "detail/core_arch_ops_gcc_aarch32.hpp" 890 "clear" [None] [] [0]
    [Step 892 "store" [Param 0] [1] [1]];
  Function "detail/core_arch_ops_gcc_aarch32.hpp" 1211 "test_and_set" [None] [] [0]
    [Step 1213 "exchange" [Param 0] [1] [1]];
  Function "detail/core_arch_ops_gcc_aarch32.hpp" 1216 "clear" [None] [] [0]
    [Step 1218 "store" [Param 0] [1] [1]];
  Function "detail/core_arch_ops_gcc_aarch64.hpp" 443 "test_and_set" [None] [] [0]
    [Step 445 "exchange" [Param 0] [1] [1]];
  Function "detail/core_arch_ops_gcc_aarch64.hpp" 448 "clear" [None] [] [0]
    [Step 450 "store" [Param 0] [1] [1]];
  Function "detail/core_arch_ops_gcc_aarch64.hpp" 849 "test_and_set" [None] [] [0]
    [Step 851 "exchange" [Param 0] [1] [1]];
  Function "detail/core_arch_ops_gcc_aarch64.hpp" 854 "clear" [None] [] [0]
    [Step 856 "store" [Param 0] [1] [1]];
  Function "detail/core_arch_ops_gcc_aarch64.hpp" 1253 "test_and_set" [None] [] [0]
    [Step 1255 "exchange" [Param 0] [1] [1]];
  Function "detail/core_arch_ops_gcc_aarch64.hpp" 1258 "clear" [None] [] [0]
    [Step 1260 "store" [Param 0] [1] [1]];
  Function "detail/core_arch_ops_gcc_aarch64.hpp" 1657 "test_and_set" [None] [] [0]
    [Step 1659 "exchange" [Param 0] [1] [1]];
  Function "detail/core_arch_ops_gcc_aarch64.hpp" 1662 "clear" [None] [] [0]
    [Step 1664 "store" [Param 0] [1] [1]];
  Function "detail/core_arch_ops_gcc_aarch64.hpp" 2021 "test_and_set" [None] [] [0]
    [Step 2023 "exchange" [Param 0] [1] [1]];
  Function "detail/core_arch_ops_gcc_aarch64.hpp" 2026 "clear" [None] [] [0]
    [Step 2028 "store" [Param 0] [1] [1]];
  Function "detail/core_arch_ops_gcc_ppc.hpp" 331 "test_and_set" [None] [] [0]
    [Step 333 "exchange" [Param 0] [1] [1]];
  Function "detail/core_arch_ops_gcc_ppc.hpp" 336 "clear" [None] [] [0]
    [Step 338 "store" [Param 0] [1] [1]];
  Function "detail/core_arch_ops_gcc_ppc.hpp" 591 "test_and_set" [None] [] [0]
    [Step 593 "exchange" [Param 0] [1] [1]];
  Function "detail/core_arch_ops_gcc_ppc.hpp" 596 "clear" [None] [] [0]
    [Step 598 "store" [Param 0] [1] [1]];
  Function "detail/core_arch_ops_gcc_ppc.hpp" 959 "test_and_set" [None] [] [0]
    [Step 961 "exchange" [Param 0] [1] [1]];
  Function "detail/core_arch_ops_gcc_ppc.hpp" 964 "clear" [None] [] [0]
    [Step 966 "store" [Param 0] [1] [1]];
  Function "detail/core_arch_ops_gcc_ppc.hpp" 1327 "test_and_set" [None] [] [0]
    [Step 1329 "exchange" [Param 0] [1] [1]];
  Function "detail/core_arch_ops_gcc_ppc.hpp" 1332 "clear" [None] [] [0]
    [Step 1334 "store" [Param 0] [1] [1]];
  Function "detail/core_arch_ops_gcc_alpha.hpp" 339 "test_and_set" [None] [] [0]
    [Step 341 "exchange" [Param 0] [1] [1]];
  Function "detail/core_arch_ops_gcc_alpha.hpp" 344 "clear" [None] [] [0]
    [Step 346 "store" [Param 0] [1] [1]];
  Function "detail/core_arch_ops_gcc_alpha.hpp" 850 "test_and_set" [None] [] [0]
    [Step 852 "exchange" [Param 0] [1] [1]];
  Function "detail/core_arch_ops_gcc_alpha.hpp" 855 "clear" [None] [] [0]
    [Step 857 "store" [Param 0] [1] [1]];
  Function "detail/core_arch_ops_gcc_sparc.hpp" 111 "compare_exchange_weak" [None; None] [] [0]
    [Step 114 "compare_exchange_strong" [Param 0; Param 1] [1] [1]];
  Function "detail/core_arch_ops_gcc_sparc.hpp" 196 "compare_exchange_weak" [None; None] [] [0]
    [Step 199 "compare_exchange_strong" [Param 0; Param 1] [1] [1]];
  Function "detail/core_arch_ops_msvc_x86.hpp" 127 "fetch_sub" [None] [] [0]
    [Step 130 "fetch_add" [Param 0] [1] [1]];
  Function "detail/core_arch_ops_msvc_x86.hpp" 133 "compare_exchange_weak" [None; None] [] [0]
    [Step 136 "compare_exchange_strong" [Param 0; Param 1] [1] [1]];
  Function "detail/core_arch_ops_msvc_x86.hpp" 139 "test_and_set" [None] [] [0]
    [Step 141 "exchange" [Param 0] [1] [1]];
  Function "detail/core_arch_ops_msvc_x86.hpp" 144 "clear" [None] [] [0]
    [Step 146 "store" [Param 0] [1] [1]];
  Function "detail/core_arch_ops_msvc_x86.hpp" 182 "fetch_and" [None] [] [0]
    [Step 185 "compare_exchange_strong" [Param 0; Given Relaxed] [1] [0]];
  Function "detail/core_arch_ops_msvc_x86.hpp" 196 "fetch_or" [None] [] [0]
    [Step 199 "compare_exchange_strong" [Param 0; Given Relaxed] [1] [0]];
  Function "detail/core_arch_ops_msvc_x86.hpp" 210 "fetch_xor" [None] [] [0]
    [Step 213 "compare_exchange_strong" [Param 0; Given Relaxed] [1] [0]];
  Function "detail/core_arch_ops_msvc_x86.hpp" 737 "compare_exchange_weak" [None; None] [] [0]
    [Step 740 "compare_exchange_strong" [Param 0; Param 1] [1] [1]];
  Function "detail/core_arch_ops_msvc_x86.hpp" 881 "compare_exchange_weak" [None; None] [] [0]
    [Step 884 "compare_exchange_strong" [Param 0; Param 1] [1] [1]];
  Function "detail/core_arch_ops_msvc_arm.hpp" 130 "fetch_sub" [None] [] [0]
    [Step 133 "fetch_add" [Param 0] [1] [1]];
  Function "detail/core_arch_ops_msvc_arm.hpp" 136 "compare_exchange_weak" [None; None] [] [0]
    [Step 139 "compare_exchange_strong" [Param 0; Param 1] [1] [1]];
  Function "detail/core_arch_ops_msvc_arm.hpp" 142 "test_and_set" [None] [] [0]
    [Step 144 "exchange" [Param 0] [1] [1]];
  Function "detail/core_arch_ops_msvc_arm.hpp" 147 "clear" [None] [] [0]
    [Step 149 "store" [Param 0] [1] [1]]].

Definition machine_functions : list machine_function := [
  Machine "detail/extra_ops_gcc_x86.hpp" 55 "fetch_negate" 1;
  Machine "detail/extra_ops_gcc_x86.hpp" 65 "fetch_complement" 1;
  Machine "detail/extra_ops_gcc_x86.hpp" 75 "negate" 1;
  Machine "detail/extra_ops_gcc_x86.hpp" 85 "bitwise_complement" 1;
  Machine "detail/extra_ops_gcc_x86.hpp" 110 "bitwise_and" 1;
  Machine "detail/extra_ops_gcc_x86.hpp" 120 "bitwise_or" 1;
  Machine "detail/extra_ops_gcc_x86.hpp" 130 "bitwise_xor" 1;
  Machine "detail/extra_ops_gcc_x86.hpp" 152 "opaque_add" 1;
  Machine "detail/extra_ops_gcc_x86.hpp" 178 "opaque_sub" 1;
  Machine "detail/extra_ops_gcc_x86.hpp" 204 "opaque_negate" 1;
  Machine "detail/extra_ops_gcc_x86.hpp" 217 "opaque_and" 1;
  Machine "detail/extra_ops_gcc_x86.hpp" 230 "opaque_or" 1;
  Machine "detail/extra_ops_gcc_x86.hpp" 243 "opaque_xor" 1;
  Machine "detail/extra_ops_gcc_x86.hpp" 256 "opaque_complement" 1;
  Machine "detail/extra_ops_gcc_x86.hpp" 269 "add_and_test" 1;
  Machine "detail/extra_ops_gcc_x86.hpp" 322 "sub_and_test" 1;
  Machine "detail/extra_ops_gcc_x86.hpp" 375 "and_and_test" 1;
  Machine "detail/extra_ops_gcc_x86.hpp" 401 "or_and_test" 1;
  Machine "detail/extra_ops_gcc_x86.hpp" 427 "xor_and_test" 1;
  Machine "detail/extra_ops_gcc_x86.hpp" 475 "fetch_negate" 1;
  Machine "detail/extra_ops_gcc_x86.hpp" 485 "fetch_complement" 1;
  Machine "detail/extra_ops_gcc_x86.hpp" 495 "negate" 1;
  Machine "detail/extra_ops_gcc_x86.hpp" 505 "bitwise_complement" 1;
  Machine "detail/extra_ops_gcc_x86.hpp" 530 "bitwise_and" 1;
  Machine "detail/extra_ops_gcc_x86.hpp" 540 "bitwise_or" 1;
  Machine "detail/extra_ops_gcc_x86.hpp" 550 "bitwise_xor" 1;
  Machine "detail/extra_ops_gcc_x86.hpp" 572 "opaque_add" 1;
  Machine "detail/extra_ops_gcc_x86.hpp" 598 "opaque_sub" 1;
  Machine "detail/extra_ops_gcc_x86.hpp" 624 "opaque_negate" 1;
  Machine "detail/extra_ops_gcc_x86.hpp" 637 "opaque_and" 1;
  Machine "detail/extra_ops_gcc_x86.hpp" 650 "opaque_or" 1;
  Machine "detail/extra_ops_gcc_x86.hpp" 663 "opaque_xor" 1;
  Machine "detail/extra_ops_gcc_x86.hpp" 676 "opaque_complement" 1;
  Machine "detail/extra_ops_gcc_x86.hpp" 689 "add_and_test" 1;
  Machine "detail/extra_ops_gcc_x86.hpp" 742 "sub_and_test" 1;
  Machine "detail/extra_ops_gcc_x86.hpp" 795 "and_and_test" 1;
  Machine "detail/extra_ops_gcc_x86.hpp" 821 "or_and_test" 1;
  Machine "detail/extra_ops_gcc_x86.hpp" 847 "xor_and_test" 1;
  Machine "detail/extra_ops_gcc_x86.hpp" 873 "bit_test_and_set" 1;
  Machine "detail/extra_ops_gcc_x86.hpp" 899 "bit_test_and_reset" 1;
  Machine "detail/extra_ops_gcc_x86.hpp" 925 "bit_test_and_complement" 1;
  Machine "detail/extra_ops_gcc_x86.hpp" 972 "fetch_negate" 1;
  Machine "detail/extra_ops_gcc_x86.hpp" 982 "fetch_complement" 1;
  Machine "detail/extra_ops_gcc_x86.hpp" 992 "negate" 1;
  Machine "detail/extra_ops_gcc_x86.hpp" 1002 "bitwise_complement" 1;
  Machine "detail/extra_ops_gcc_x86.hpp" 1027 "bitwise_and" 1;
  Machine "detail/extra_ops_gcc_x86.hpp" 1037 "bitwise_or" 1;
  Machine "detail/extra_ops_gcc_x86.hpp" 1047 "bitwise_xor" 1;
  Machine "detail/extra_ops_gcc_x86.hpp" 1069 "opaque_add" 1;
  Machine "detail/extra_ops_gcc_x86.hpp" 1095 "opaque_sub" 1;
  Machine "detail/extra_ops_gcc_x86.hpp" 1121 "opaque_negate" 1;
  Machine "detail/extra_ops_gcc_x86.hpp" 1134 "opaque_and" 1;
  Machine "detail/extra_ops_gcc_x86.hpp" 1147 "opaque_or" 1;
  Machine "detail/extra_ops_gcc_x86.hpp" 1160 "opaque_xor" 1;
  Machine "detail/extra_ops_gcc_x86.hpp" 1173 "opaque_complement" 1;
  Machine "detail/extra_ops_gcc_x86.hpp" 1186 "add_and_test" 1;
  Machine "detail/extra_ops_gcc_x86.hpp" 1239 "sub_and_test" 1;
  Machine "detail/extra_ops_gcc_x86.hpp" 1292 "and_and_test" 1;
  Machine "detail/extra_ops_gcc_x86.hpp" 1318 "or_and_test" 1;
  Machine "detail/extra_ops_gcc_x86.hpp" 1344 "xor_and_test" 1;
  Machine "detail/extra_ops_gcc_x86.hpp" 1370 "bit_test_and_set" 1;
  Machine "detail/extra_ops_gcc_x86.hpp" 1396 "bit_test_and_reset" 1;
  Machine "detail/extra_ops_gcc_x86.hpp" 1422 "bit_test_and_complement" 1;
  Machine "detail/extra_ops_gcc_x86.hpp" 1471 "fetch_negate" 1;
  Machine "detail/extra_ops_gcc_x86.hpp" 1481 "fetch_complement" 1;
  Machine "detail/extra_ops_gcc_x86.hpp" 1491 "negate" 1;
  Machine "detail/extra_ops_gcc_x86.hpp" 1501 "bitwise_complement" 1;
  Machine "detail/extra_ops_gcc_x86.hpp" 1526 "bitwise_and" 1;
  Machine "detail/extra_ops_gcc_x86.hpp" 1536 "bitwise_or" 1;
  Machine "detail/extra_ops_gcc_x86.hpp" 1546 "bitwise_xor" 1;
  Machine "detail/extra_ops_gcc_x86.hpp" 1568 "opaque_add" 1;
  Machine "detail/extra_ops_gcc_x86.hpp" 1594 "opaque_sub" 1;
  Machine "detail/extra_ops_gcc_x86.hpp" 1620 "opaque_negate" 1;
  Machine "detail/extra_ops_gcc_x86.hpp" 1633 "opaque_and" 1;
  Machine "detail/extra_ops_gcc_x86.hpp" 1646 "opaque_or" 1;
  Machine "detail/extra_ops_gcc_x86.hpp" 1659 "opaque_xor" 1;
  Machine "detail/extra_ops_gcc_x86.hpp" 1672 "opaque_complement" 1;
  Machine "detail/extra_ops_gcc_x86.hpp" 1685 "add_and_test" 1;
  Machine "detail/extra_ops_gcc_x86.hpp" 1738 "sub_and_test" 1;
  Machine "detail/extra_ops_gcc_x86.hpp" 1791 "and_and_test" 1;
  Machine "detail/extra_ops_gcc_x86.hpp" 1817 "or_and_test" 1;
  Machine "detail/extra_ops_gcc_x86.hpp" 1843 "xor_and_test" 1;
  Machine "detail/extra_ops_gcc_x86.hpp" 1869 "bit_test_and_set" 1;
  Machine "detail/extra_ops_gcc_x86.hpp" 1895 "bit_test_and_reset" 1;
  Machine "detail/extra_ops_gcc_x86.hpp" 1921 "bit_test_and_complement" 1;
  Machine "detail/extra_ops_gcc_arm.hpp" 104 "fetch_negate" 1;
  Machine "detail/extra_ops_gcc_arm.hpp" 130 "negate" 1;
  Machine "detail/extra_ops_gcc_arm.hpp" 156 "add" 1;
  Machine "detail/extra_ops_gcc_arm.hpp" 182 "sub" 1;
  Machine "detail/extra_ops_gcc_arm.hpp" 208 "bitwise_and" 1;
  Machine "detail/extra_ops_gcc_arm.hpp" 234 "bitwise_or" 1;
  Machine "detail/extra_ops_gcc_arm.hpp" 260 "bitwise_xor" 1;
  Machine "detail/extra_ops_gcc_arm.hpp" 286 "fetch_complement" 1;
  Machine "detail/extra_ops_gcc_arm.hpp" 312 "bitwise_complement" 1;
  Machine "detail/extra_ops_gcc_arm.hpp" 357 "fetch_negate" 1;
  Machine "detail/extra_ops_gcc_arm.hpp" 383 "negate" 1;
  Machine "detail/extra_ops_gcc_arm.hpp" 409 "add" 1;
  Machine "detail/extra_ops_gcc_arm.hpp" 435 "sub" 1;
  Machine "detail/extra_ops_gcc_arm.hpp" 461 "bitwise_and" 1;
  Machine "detail/extra_ops_gcc_arm.hpp" 487 "bitwise_or" 1;
  Machine "detail/extra_ops_gcc_arm.hpp" 513 "bitwise_xor" 1;
  Machine "detail/extra_ops_gcc_arm.hpp" 539 "fetch_complement" 1;
  Machine "detail/extra_ops_gcc_arm.hpp" 565 "bitwise_complement" 1;
  Machine "detail/extra_ops_gcc_arm.hpp" 607 "fetch_negate" 1;
  Machine "detail/extra_ops_gcc_arm.hpp" 633 "negate" 1;
  Machine "detail/extra_ops_gcc_arm.hpp" 659 "add" 1;
  Machine "detail/extra_ops_gcc_arm.hpp" 685 "sub" 1;
  Machine "detail/extra_ops_gcc_arm.hpp" 711 "bitwise_and" 1;
  Machine "detail/extra_ops_gcc_arm.hpp" 737 "bitwise_or" 1;
  Machine "detail/extra_ops_gcc_arm.hpp" 763 "bitwise_xor" 1;
  Machine "detail/extra_ops_gcc_arm.hpp" 789 "fetch_complement" 1;
  Machine "detail/extra_ops_gcc_arm.hpp" 815 "bitwise_complement" 1;
  Machine "detail/extra_ops_gcc_arm.hpp" 857 "fetch_negate" 1;
  Machine "detail/extra_ops_gcc_arm.hpp" 886 "negate" 1;
  Machine "detail/extra_ops_gcc_arm.hpp" 915 "add" 1;
  Machine "detail/extra_ops_gcc_arm.hpp" 942 "sub" 1;
  Machine "detail/extra_ops_gcc_arm.hpp" 969 "bitwise_and" 1;
  Machine "detail/extra_ops_gcc_arm.hpp" 996 "bitwise_or" 1;
  Machine "detail/extra_ops_gcc_arm.hpp" 1023 "bitwise_xor" 1;
  Machine "detail/extra_ops_gcc_arm.hpp" 1050 "fetch_complement" 1;
  Machine "detail/extra_ops_gcc_arm.hpp" 1077 "bitwise_complement" 1;
  Machine "detail/extra_ops_gcc_aarch32.hpp" 127 "fetch_negate" 1;
  Machine "detail/extra_ops_gcc_aarch32.hpp" 153 "negate" 1;
  Machine "detail/extra_ops_gcc_aarch32.hpp" 179 "add" 1;
  Machine "detail/extra_ops_gcc_aarch32.hpp" 205 "sub" 1;
  Machine "detail/extra_ops_gcc_aarch32.hpp" 231 "bitwise_and" 1;
  Machine "detail/extra_ops_gcc_aarch32.hpp" 257 "bitwise_or" 1;
  Machine "detail/extra_ops_gcc_aarch32.hpp" 283 "bitwise_xor" 1;
  Machine "detail/extra_ops_gcc_aarch32.hpp" 309 "fetch_complement" 1;
  Machine "detail/extra_ops_gcc_aarch32.hpp" 335 "bitwise_complement" 1;
  Machine "detail/extra_ops_gcc_aarch32.hpp" 376 "fetch_negate" 1;
  Machine "detail/extra_ops_gcc_aarch32.hpp" 402 "negate" 1;
  Machine "detail/extra_ops_gcc_aarch32.hpp" 428 "add" 1;
  Machine "detail/extra_ops_gcc_aarch32.hpp" 454 "sub" 1;
  Machine "detail/extra_ops_gcc_aarch32.hpp" 480 "bitwise_and" 1;
  Machine "detail/extra_ops_gcc_aarch32.hpp" 506 "bitwise_or" 1;
  Machine "detail/extra_ops_gcc_aarch32.hpp" 532 "bitwise_xor" 1;
  Machine "detail/extra_ops_gcc_aarch32.hpp" 558 "fetch_complement" 1;
  Machine "detail/extra_ops_gcc_aarch32.hpp" 584 "bitwise_complement" 1;
  Machine "detail/extra_ops_gcc_aarch32.hpp" 624 "fetch_negate" 1;
  Machine "detail/extra_ops_gcc_aarch32.hpp" 650 "negate" 1;
  Machine "detail/extra_ops_gcc_aarch32.hpp" 676 "add" 1;
  Machine "detail/extra_ops_gcc_aarch32.hpp" 702 "sub" 1;
  Machine "detail/extra_ops_gcc_aarch32.hpp" 728 "bitwise_and" 1;
  Machine "detail/extra_ops_gcc_aarch32.hpp" 754 "bitwise_or" 1;
  Machine "detail/extra_ops_gcc_aarch32.hpp" 780 "bitwise_xor" 1;
  Machine "detail/extra_ops_gcc_aarch32.hpp" 806 "fetch_complement" 1;
  Machine "detail/extra_ops_gcc_aarch32.hpp" 832 "bitwise_complement" 1;
  Machine "detail/extra_ops_gcc_aarch32.hpp" 872 "fetch_negate" 1;
  Machine "detail/extra_ops_gcc_aarch32.hpp" 901 "negate" 1;
  Machine "detail/extra_ops_gcc_aarch32.hpp" 930 "add" 1;
  Machine "detail/extra_ops_gcc_aarch32.hpp" 957 "sub" 1;
  Machine "detail/extra_ops_gcc_aarch32.hpp" 984 "bitwise_and" 1;
  Machine "detail/extra_ops_gcc_aarch32.hpp" 1011 "bitwise_or" 1;
  Machine "detail/extra_ops_gcc_aarch32.hpp" 1038 "bitwise_xor" 1;
  Machine "detail/extra_ops_gcc_aarch32.hpp" 1065 "fetch_complement" 1;
  Machine "detail/extra_ops_gcc_aarch32.hpp" 1092 "bitwise_complement" 1;
  Machine "detail/extra_ops_gcc_aarch64.hpp" 129 "fetch_negate" 1;
  Machine "detail/extra_ops_gcc_aarch64.hpp" 155 "negate" 1;
  Machine "detail/extra_ops_gcc_aarch64.hpp" 183 "add" 1;
  Machine "detail/extra_ops_gcc_aarch64.hpp" 209 "sub" 1;
  Machine "detail/extra_ops_gcc_aarch64.hpp" 235 "bitwise_and" 1;
  Machine "detail/extra_ops_gcc_aarch64.hpp" 261 "bitwise_or" 1;
  Machine "detail/extra_ops_gcc_aarch64.hpp" 287 "bitwise_xor" 1;
  Machine "detail/extra_ops_gcc_aarch64.hpp" 313 "fetch_complement" 1;
  Machine "detail/extra_ops_gcc_aarch64.hpp" 339 "bitwise_complement" 1;
  Machine "detail/extra_ops_gcc_aarch64.hpp" 382 "fetch_negate" 1;
  Machine "detail/extra_ops_gcc_aarch64.hpp" 408 "negate" 1;
  Machine "detail/extra_ops_gcc_aarch64.hpp" 436 "add" 1;
  Machine "detail/extra_ops_gcc_aarch64.hpp" 462 "sub" 1;
  Machine "detail/extra_ops_gcc_aarch64.hpp" 488 "bitwise_and" 1;
  Machine "detail/extra_ops_gcc_aarch64.hpp" 514 "bitwise_or" 1;
  Machine "detail/extra_ops_gcc_aarch64.hpp" 540 "bitwise_xor" 1;
  Machine "detail/extra_ops_gcc_aarch64.hpp" 566 "fetch_complement" 1;
  Machine "detail/extra_ops_gcc_aarch64.hpp" 592 "bitwise_complement" 1;
  Machine "detail/extra_ops_gcc_aarch64.hpp" 635 "fetch_negate" 1;
  Machine "detail/extra_ops_gcc_aarch64.hpp" 661 "negate" 1;
  Machine "detail/extra_ops_gcc_aarch64.hpp" 689 "add" 1;
  Machine "detail/extra_ops_gcc_aarch64.hpp" 715 "sub" 1;
  Machine "detail/extra_ops_gcc_aarch64.hpp" 741 "bitwise_and" 1;
  Machine "detail/extra_ops_gcc_aarch64.hpp" 767 "bitwise_or" 1;
  Machine "detail/extra_ops_gcc_aarch64.hpp" 793 "bitwise_xor" 1;
  Machine "detail/extra_ops_gcc_aarch64.hpp" 819 "fetch_complement" 1;
  Machine "detail/extra_ops_gcc_aarch64.hpp" 845 "bitwise_complement" 1;
  Machine "detail/extra_ops_gcc_aarch64.hpp" 888 "fetch_negate" 1;
  Machine "detail/extra_ops_gcc_aarch64.hpp" 914 "negate" 1;
  Machine "detail/extra_ops_gcc_aarch64.hpp" 942 "add" 1;
  Machine "detail/extra_ops_gcc_aarch64.hpp" 968 "sub" 1;
  Machine "detail/extra_ops_gcc_aarch64.hpp" 994 "bitwise_and" 1;
  Machine "detail/extra_ops_gcc_aarch64.hpp" 1020 "bitwise_or" 1;
  Machine "detail/extra_ops_gcc_aarch64.hpp" 1046 "bitwise_xor" 1;
  Machine "detail/extra_ops_gcc_aarch64.hpp" 1072 "fetch_complement" 1;
  Machine "detail/extra_ops_gcc_aarch64.hpp" 1098 "bitwise_complement" 1;
  Machine "detail/extra_ops_gcc_aarch64.hpp" 1142 "fetch_negate" 1;
  Machine "detail/extra_ops_gcc_aarch64.hpp" 1174 "negate" 1;
  Machine "detail/extra_ops_gcc_aarch64.hpp" 1204 "add" 1;
  Machine "detail/extra_ops_gcc_aarch64.hpp" 1233 "sub" 1;
  Machine "detail/extra_ops_gcc_aarch64.hpp" 1262 "bitwise_and" 1;
  Machine "detail/extra_ops_gcc_aarch64.hpp" 1291 "bitwise_or" 1;
  Machine "detail/extra_ops_gcc_aarch64.hpp" 1320 "bitwise_xor" 1;
  Machine "detail/extra_ops_gcc_aarch64.hpp" 1349 "fetch_complement" 1;
  Machine "detail/extra_ops_gcc_aarch64.hpp" 1379 "bitwise_complement" 1;
  Machine "detail/extra_ops_gcc_ppc.hpp" 101 "fetch_negate" 1;
  Machine "detail/extra_ops_gcc_ppc.hpp" 122 "negate" 1;
  Machine "detail/extra_ops_gcc_ppc.hpp" 143 "add" 1;
  Machine "detail/extra_ops_gcc_ppc.hpp" 164 "sub" 1;
  Machine "detail/extra_ops_gcc_ppc.hpp" 185 "bitwise_and" 1;
  Machine "detail/extra_ops_gcc_ppc.hpp" 206 "bitwise_or" 1;
  Machine "detail/extra_ops_gcc_ppc.hpp" 227 "bitwise_xor" 1;
  Machine "detail/extra_ops_gcc_ppc.hpp" 248 "fetch_complement" 1;
  Machine "detail/extra_ops_gcc_ppc.hpp" 269 "bitwise_complement" 1;
  Machine "detail/extra_ops_gcc_ppc.hpp" 308 "fetch_negate" 1;
  Machine "detail/extra_ops_gcc_ppc.hpp" 329 "negate" 1;
  Machine "detail/extra_ops_gcc_ppc.hpp" 350 "add" 1;
  Machine "detail/extra_ops_gcc_ppc.hpp" 371 "sub" 1;
  Machine "detail/extra_ops_gcc_ppc.hpp" 392 "bitwise_and" 1;
  Machine "detail/extra_ops_gcc_ppc.hpp" 413 "bitwise_or" 1;
  Machine "detail/extra_ops_gcc_ppc.hpp" 434 "bitwise_xor" 1;
  Machine "detail/extra_ops_gcc_ppc.hpp" 455 "fetch_complement" 1;
  Machine "detail/extra_ops_gcc_ppc.hpp" 476 "bitwise_complement" 1;
  Machine "detail/extra_ops_gcc_ppc.hpp" 507 "fetch_negate" 1;
  Machine "detail/extra_ops_gcc_ppc.hpp" 528 "negate" 1;
  Machine "detail/extra_ops_gcc_ppc.hpp" 549 "add" 1;
  Machine "detail/extra_ops_gcc_ppc.hpp" 570 "sub" 1;
  Machine "detail/extra_ops_gcc_ppc.hpp" 591 "bitwise_and" 1;
  Machine "detail/extra_ops_gcc_ppc.hpp" 612 "bitwise_or" 1;
  Machine "detail/extra_ops_gcc_ppc.hpp" 633 "bitwise_xor" 1;
  Machine "detail/extra_ops_gcc_ppc.hpp" 654 "fetch_complement" 1;
  Machine "detail/extra_ops_gcc_ppc.hpp" 675 "bitwise_complement" 1;
  Machine "detail/extra_ops_gcc_ppc.hpp" 712 "fetch_negate" 1;
  Machine "detail/extra_ops_gcc_ppc.hpp" 733 "negate" 1;
  Machine "detail/extra_ops_gcc_ppc.hpp" 754 "add" 1;
  Machine "detail/extra_ops_gcc_ppc.hpp" 775 "sub" 1;
  Machine "detail/extra_ops_gcc_ppc.hpp" 796 "bitwise_and" 1;
  Machine "detail/extra_ops_gcc_ppc.hpp" 817 "bitwise_or" 1;
  Machine "detail/extra_ops_gcc_ppc.hpp" 838 "bitwise_xor" 1;
  Machine "detail/extra_ops_gcc_ppc.hpp" 859 "fetch_complement" 1;
  Machine "detail/extra_ops_gcc_ppc.hpp" 880 "bitwise_complement" 1;
  Machine "detail/core_ops_gcc_sync.hpp" 79 "store" 1;
  Machine "detail/core_ops_gcc_sync.hpp" 91 "load" 1;
  Machine "detail/core_ops_gcc_sync.hpp" 98 "load" 1;
  Machine "detail/core_ops_gcc_sync.hpp" 118 "fetch_add" 1;
  Machine "detail/core_ops_gcc_sync.hpp" 123 "fetch_sub" 1;
  Machine "detail/core_ops_gcc_sync.hpp" 128 "exchange" 1;
  Machine "detail/core_ops_gcc_sync.hpp" 138 "compare_exchange_strong" 2;
  Machine "detail/core_ops_gcc_sync.hpp" 161 "fetch_and" 1;
  Machine "detail/core_ops_gcc_sync.hpp" 166 "fetch_or" 1;
  Machine "detail/core_ops_gcc_sync.hpp" 171 "fetch_xor" 1;
  Machine "detail/core_ops_gcc_sync.hpp" 176 "test_and_set" 1;
  Machine "detail/core_ops_gcc_sync.hpp" 183 "clear" 1;
  Machine "detail/core_ops_linux_arm.hpp" 98 "store" 1;
  Machine "detail/core_ops_linux_arm.hpp" 105 "load" 1;
  Machine "detail/core_ops_linux_arm.hpp" 128 "compare_exchange_weak" 2;
  Machine "detail/core_ops_windows.hpp" 112 "fetch_add" 1;
  Machine "detail/core_ops_windows.hpp" 120 "exchange" 1;
  Machine "detail/core_ops_windows.hpp" 128 "compare_exchange_strong" 2;
  Machine "detail/core_ops_windows.hpp" 140 "fetch_and" 1;
  Machine "detail/core_ops_windows.hpp" 154 "fetch_or" 1;
  Machine "detail/core_ops_windows.hpp" 168 "fetch_xor" 1;
  Machine "detail/core_arch_ops_gcc_x86.hpp" 70 "store" 1;
  Machine "detail/core_arch_ops_gcc_x86.hpp" 85 "load" 1;
  Machine "detail/core_arch_ops_gcc_x86.hpp" 123 "fetch_add" 1;
  Machine "detail/core_arch_ops_gcc_x86.hpp" 137 "exchange" 1;
  Machine "detail/core_arch_ops_gcc_x86.hpp" 151 "compare_exchange_strong" 2;
  Machine "detail/core_arch_ops_gcc_x86.hpp" 194 "fetch_and" 1;
  Machine "detail/core_arch_ops_gcc_x86.hpp" 203 "fetch_or" 1;
  Machine "detail/core_arch_ops_gcc_x86.hpp" 212 "fetch_xor" 1;
  Machine "detail/core_arch_ops_gcc_x86.hpp" 232 "fetch_add" 1;
  Machine "detail/core_arch_ops_gcc_x86.hpp" 246 "exchange" 1;
  Machine "detail/core_arch_ops_gcc_x86.hpp" 260 "compare_exchange_strong" 2;
  Machine "detail/core_arch_ops_gcc_x86.hpp" 303 "fetch_and" 1;
  Machine "detail/core_arch_ops_gcc_x86.hpp" 312 "fetch_or" 1;
  Machine "detail/core_arch_ops_gcc_x86.hpp" 321 "fetch_xor" 1;
  Machine "detail/core_arch_ops_gcc_x86.hpp" 340 "fetch_add" 1;
  Machine "detail/core_arch_ops_gcc_x86.hpp" 354 "exchange" 1;
  Machine "detail/core_arch_ops_gcc_x86.hpp" 368 "compare_exchange_strong" 2;
  Machine "detail/core_arch_ops_gcc_x86.hpp" 411 "fetch_and" 1;
  Machine "detail/core_arch_ops_gcc_x86.hpp" 420 "fetch_or" 1;
  Machine "detail/core_arch_ops_gcc_x86.hpp" 429 "fetch_xor" 1;
  Machine "detail/core_arch_ops_gcc_x86.hpp" 469 "store" 1;
  Machine "detail/core_arch_ops_gcc_x86.hpp" 540 "load" 1;
  Machine "detail/core_arch_ops_gcc_x86.hpp" 623 "compare_exchange_strong" 2;
  Machine "detail/core_arch_ops_gcc_x86.hpp" 700 "exchange" 1;
  Machine "detail/core_arch_ops_gcc_x86.hpp" 817 "fetch_add" 1;
  Machine "detail/core_arch_ops_gcc_x86.hpp" 831 "exchange" 1;
  Machine "detail/core_arch_ops_gcc_x86.hpp" 845 "compare_exchange_strong" 2;
  Machine "detail/core_arch_ops_gcc_x86.hpp" 888 "fetch_and" 1;
  Machine "detail/core_arch_ops_gcc_x86.hpp" 897 "fetch_or" 1;
  Machine "detail/core_arch_ops_gcc_x86.hpp" 906 "fetch_xor" 1;
  Machine "detail/core_arch_ops_gcc_x86.hpp" 938 "store" 1;
  Machine "detail/core_arch_ops_gcc_x86.hpp" 978 "load" 1;
  Machine "detail/core_arch_ops_gcc_x86.hpp" 1054 "compare_exchange_strong" 2;
  Machine "detail/core_arch_ops_gcc_x86.hpp" 1115 "exchange" 1;
  Machine "detail/core_arch_ops_gcc_arm.hpp" 70 "store" 1;
  Machine "detail/core_arch_ops_gcc_arm.hpp" 77 "load" 1;
  Machine "detail/core_arch_ops_gcc_arm.hpp" 84 "exchange" 1;
  Machine "detail/core_arch_ops_gcc_arm.hpp" 106 "compare_exchange_weak" 2;
  Machine "detail/core_arch_ops_gcc_arm.hpp" 142 "compare_exchange_strong" 2;
  Machine "detail/core_arch_ops_gcc_arm.hpp" 181 "fetch_add" 1;
  Machine "detail/core_arch_ops_gcc_arm.hpp" 207 "fetch_sub" 1;
  Machine "detail/core_arch_ops_gcc_arm.hpp" 233 "fetch_and" 1;
  Machine "detail/core_arch_ops_gcc_arm.hpp" 259 "fetch_or" 1;
  Machine "detail/core_arch_ops_gcc_arm.hpp" 285 "fetch_xor" 1;
  Machine "detail/core_arch_ops_gcc_arm.hpp" 336 "store" 1;
  Machine "detail/core_arch_ops_gcc_arm.hpp" 343 "load" 1;
  Machine "detail/core_arch_ops_gcc_arm.hpp" 350 "exchange" 1;
  Machine "detail/core_arch_ops_gcc_arm.hpp" 372 "compare_exchange_weak" 2;
  Machine "detail/core_arch_ops_gcc_arm.hpp" 408 "compare_exchange_strong" 2;
  Machine "detail/core_arch_ops_gcc_arm.hpp" 447 "fetch_add" 1;
  Machine "detail/core_arch_ops_gcc_arm.hpp" 473 "fetch_sub" 1;
  Machine "detail/core_arch_ops_gcc_arm.hpp" 499 "fetch_and" 1;
  Machine "detail/core_arch_ops_gcc_arm.hpp" 525 "fetch_or" 1;
  Machine "detail/core_arch_ops_gcc_arm.hpp" 551 "fetch_xor" 1;
  Machine "detail/core_arch_ops_gcc_arm.hpp" 597 "fetch_add" 1;
  Machine "detail/core_arch_ops_gcc_arm.hpp" 624 "fetch_sub" 1;
  Machine "detail/core_arch_ops_gcc_arm.hpp" 659 "fetch_add" 1;
  Machine "detail/core_arch_ops_gcc_arm.hpp" 686 "fetch_sub" 1;
  Machine "detail/core_arch_ops_gcc_arm.hpp" 730 "store" 1;
  Machine "detail/core_arch_ops_gcc_arm.hpp" 737 "load" 1;
  Machine "detail/core_arch_ops_gcc_arm.hpp" 744 "exchange" 1;
  Machine "detail/core_arch_ops_gcc_arm.hpp" 766 "compare_exchange_weak" 2;
  Machine "detail/core_arch_ops_gcc_arm.hpp" 802 "compare_exchange_strong" 2;
  Machine "detail/core_arch_ops_gcc_arm.hpp" 841 "fetch_add" 1;
  Machine "detail/core_arch_ops_gcc_arm.hpp" 867 "fetch_sub" 1;
  Machine "detail/core_arch_ops_gcc_arm.hpp" 893 "fetch_and" 1;
  Machine "detail/core_arch_ops_gcc_arm.hpp" 919 "fetch_or" 1;
  Machine "detail/core_arch_ops_gcc_arm.hpp" 945 "fetch_xor" 1;
  Machine "detail/core_arch_ops_gcc_arm.hpp" 991 "fetch_add" 1;
  Machine "detail/core_arch_ops_gcc_arm.hpp" 1018 "fetch_sub" 1;
  Machine "detail/core_arch_ops_gcc_arm.hpp" 1053 "fetch_add" 1;
  Machine "detail/core_arch_ops_gcc_arm.hpp" 1080 "fetch_sub" 1;
  Machine "detail/core_arch_ops_gcc_arm.hpp" 1139 "load" 1;
  Machine "detail/core_arch_ops_gcc_arm.hpp" 1167 "exchange" 1;
  Machine "detail/core_arch_ops_gcc_arm.hpp" 1191 "compare_exchange_weak" 2;
  Machine "detail/core_arch_ops_gcc_arm.hpp" 1226 "compare_exchange_strong" 2;
  Machine "detail/core_arch_ops_gcc_arm.hpp" 1263 "fetch_add" 1;
  Machine "detail/core_arch_ops_gcc_arm.hpp" 1290 "fetch_sub" 1;
  Machine "detail/core_arch_ops_gcc_arm.hpp" 1317 "fetch_and" 1;
  Machine "detail/core_arch_ops_gcc_arm.hpp" 1344 "fetch_or" 1;
  Machine "detail/core_arch_ops_gcc_arm.hpp" 1371 "fetch_xor" 1;
  Machine "detail/core_arch_ops_gcc_aarch32.hpp" 63 "store" 1;
  Machine "detail/core_arch_ops_gcc_aarch32.hpp" 82 "load" 1;
  Machine "detail/core_arch_ops_gcc_aarch32.hpp" 104 "exchange" 1;
  Machine "detail/core_arch_ops_gcc_aarch32.hpp" 129 "compare_exchange_weak" 2;
  Machine "detail/core_arch_ops_gcc_aarch32.hpp" 160 "compare_exchange_strong" 2;
  Machine "detail/core_arch_ops_gcc_aarch32.hpp" 193 "fetch_add" 1;
  Machine "detail/core_arch_ops_gcc_aarch32.hpp" 219 "fetch_sub" 1;
  Machine "detail/core_arch_ops_gcc_aarch32.hpp" 245 "fetch_and" 1;
  Machine "detail/core_arch_ops_gcc_aarch32.hpp" 271 "fetch_or" 1;
  Machine "detail/core_arch_ops_gcc_aarch32.hpp" 297 "fetch_xor" 1;
  Machine "detail/core_arch_ops_gcc_aarch32.hpp" 345 "store" 1;
  Machine "detail/core_arch_ops_gcc_aarch32.hpp" 364 "load" 1;
  Machine "detail/core_arch_ops_gcc_aarch32.hpp" 386 "exchange" 1;
  Machine "detail/core_arch_ops_gcc_aarch32.hpp" 411 "compare_exchange_weak" 2;
  Machine "detail/core_arch_ops_gcc_aarch32.hpp" 442 "compare_exchange_strong" 2;
  Machine "detail/core_arch_ops_gcc_aarch32.hpp" 475 "fetch_add" 1;
  Machine "detail/core_arch_ops_gcc_aarch32.hpp" 501 "fetch_sub" 1;
  Machine "detail/core_arch_ops_gcc_aarch32.hpp" 527 "fetch_and" 1;
  Machine "detail/core_arch_ops_gcc_aarch32.hpp" 553 "fetch_or" 1;
  Machine "detail/core_arch_ops_gcc_aarch32.hpp" 579 "fetch_xor" 1;
  Machine "detail/core_arch_ops_gcc_aarch32.hpp" 627 "store" 1;
  Machine "detail/core_arch_ops_gcc_aarch32.hpp" 646 "load" 1;
  Machine "detail/core_arch_ops_gcc_aarch32.hpp" 668 "exchange" 1;
  Machine "detail/core_arch_ops_gcc_aarch32.hpp" 693 "compare_exchange_weak" 2;
  Machine "detail/core_arch_ops_gcc_aarch32.hpp" 723 "compare_exchange_strong" 2;
  Machine "detail/core_arch_ops_gcc_aarch32.hpp" 755 "fetch_add" 1;
  Machine "detail/core_arch_ops_gcc_aarch32.hpp" 781 "fetch_sub" 1;
  Machine "detail/core_arch_ops_gcc_aarch32.hpp" 807 "fetch_and" 1;
  Machine "detail/core_arch_ops_gcc_aarch32.hpp" 833 "fetch_or" 1;
  Machine "detail/core_arch_ops_gcc_aarch32.hpp" 859 "fetch_xor" 1;
  Machine "detail/core_arch_ops_gcc_aarch32.hpp" 924 "store" 1;
  Machine "detail/core_arch_ops_gcc_aarch32.hpp" 959 "load" 1;
  Machine "detail/core_arch_ops_gcc_aarch32.hpp" 985 "exchange" 1;
  Machine "detail/core_arch_ops_gcc_aarch32.hpp" 1010 "compare_exchange_weak" 2;
  Machine "detail/core_arch_ops_gcc_aarch32.hpp" 1042 "compare_exchange_strong" 2;
  Machine "detail/core_arch_ops_gcc_aarch32.hpp" 1076 "fetch_add" 1;
  Machine "detail/core_arch_ops_gcc_aarch32.hpp" 1103 "fetch_sub" 1;
  Machine "detail/core_arch_ops_gcc_aarch32.hpp" 1130 "fetch_and" 1;
  Machine "detail/core_arch_ops_gcc_aarch32.hpp" 1157 "fetch_or" 1;
  Machine "detail/core_arch_ops_gcc_aarch32.hpp" 1184 "fetch_xor" 1;
  Machine "detail/core_arch_ops_gcc_aarch64.hpp" 59 "store" 1;
  Machine "detail/core_arch_ops_gcc_aarch64.hpp" 78 "load" 1;
  Machine "detail/core_arch_ops_gcc_aarch64.hpp" 115 "exchange" 1;
  Machine "detail/core_arch_ops_gcc_aarch64.hpp" 151 "compare_exchange_weak" 2;
  Machine "detail/core_arch_ops_gcc_aarch64.hpp" 199 "compare_exchange_strong" 2;
  Machine "detail/core_arch_ops_gcc_aarch64.hpp" 248 "fetch_add" 1;
  Machine "detail/core_arch_ops_gcc_aarch64.hpp" 286 "fetch_sub" 1;
  Machine "detail/core_arch_ops_gcc_aarch64.hpp" 327 "fetch_and" 1;
  Machine "detail/core_arch_ops_gcc_aarch64.hpp" 367 "fetch_or" 1;
  Machine "detail/core_arch_ops_gcc_aarch64.hpp" 405 "fetch_xor" 1;
  Machine "detail/core_arch_ops_gcc_aarch64.hpp" 465 "store" 1;
  Machine "detail/core_arch_ops_gcc_aarch64.hpp" 484 "load" 1;
  Machine "detail/core_arch_ops_gcc_aarch64.hpp" 521 "exchange" 1;
  Machine "detail/core_arch_ops_gcc_aarch64.hpp" 557 "compare_exchange_weak" 2;
  Machine "detail/core_arch_ops_gcc_aarch64.hpp" 605 "compare_exchange_strong" 2;
  Machine "detail/core_arch_ops_gcc_aarch64.hpp" 654 "fetch_add" 1;
  Machine "detail/core_arch_ops_gcc_aarch64.hpp" 692 "fetch_sub" 1;
  Machine "detail/core_arch_ops_gcc_aarch64.hpp" 733 "fetch_and" 1;
  Machine "detail/core_arch_ops_gcc_aarch64.hpp" 773 "fetch_or" 1;
  Machine "detail/core_arch_ops_gcc_aarch64.hpp" 811 "fetch_xor" 1;
  Machine "detail/core_arch_ops_gcc_aarch64.hpp" 871 "store" 1;
  Machine "detail/core_arch_ops_gcc_aarch64.hpp" 890 "load" 1;
  Machine "detail/core_arch_ops_gcc_aarch64.hpp" 927 "exchange" 1;
  Machine "detail/core_arch_ops_gcc_aarch64.hpp" 963 "compare_exchange_weak" 2;
  Machine "detail/core_arch_ops_gcc_aarch64.hpp" 1010 "compare_exchange_strong" 2;
  Machine "detail/core_arch_ops_gcc_aarch64.hpp" 1058 "fetch_add" 1;
  Machine "detail/core_arch_ops_gcc_aarch64.hpp" 1096 "fetch_sub" 1;
  Machine "detail/core_arch_ops_gcc_aarch64.hpp" 1137 "fetch_and" 1;
  Machine "detail/core_arch_ops_gcc_aarch64.hpp" 1177 "fetch_or" 1;
  Machine "detail/core_arch_ops_gcc_aarch64.hpp" 1215 "fetch_xor" 1;
  Machine "detail/core_arch_ops_gcc_aarch64.hpp" 1275 "store" 1;
  Machine "detail/core_arch_ops_gcc_aarch64.hpp" 1294 "load" 1;
  Machine "detail/core_arch_ops_gcc_aarch64.hpp" 1331 "exchange" 1;
  Machine "detail/core_arch_ops_gcc_aarch64.hpp" 1367 "compare_exchange_weak" 2;
  Machine "detail/core_arch_ops_gcc_aarch64.hpp" 1414 "compare_exchange_strong" 2;
  Machine "detail/core_arch_ops_gcc_aarch64.hpp" 1462 "fetch_add" 1;
  Machine "detail/core_arch_ops_gcc_aarch64.hpp" 1500 "fetch_sub" 1;
  Machine "detail/core_arch_ops_gcc_aarch64.hpp" 1541 "fetch_and" 1;
  Machine "detail/core_arch_ops_gcc_aarch64.hpp" 1581 "fetch_or" 1;
  Machine "detail/core_arch_ops_gcc_aarch64.hpp" 1619 "fetch_xor" 1;
  Machine "detail/core_arch_ops_gcc_aarch64.hpp" 1701 "store" 1;
  Machine "detail/core_arch_ops_gcc_aarch64.hpp" 1736 "load" 1;
  Machine "detail/core_arch_ops_gcc_aarch64.hpp" 1771 "exchange" 1;
  Machine "detail/core_arch_ops_gcc_aarch64.hpp" 1797 "compare_exchange_weak" 2;
  Machine "detail/core_arch_ops_gcc_aarch64.hpp" 1831 "compare_exchange_strong" 2;
  Machine "detail/core_arch_ops_gcc_aarch64.hpp" 1866 "fetch_add" 1;
  Machine "detail/core_arch_ops_gcc_aarch64.hpp" 1897 "fetch_sub" 1;
  Machine "detail/core_arch_ops_gcc_aarch64.hpp" 1928 "fetch_and" 1;
  Machine "detail/core_arch_ops_gcc_aarch64.hpp" 1959 "fetch_or" 1;
  Machine "detail/core_arch_ops_gcc_aarch64.hpp" 1990 "fetch_xor" 1;
  Machine "detail/core_arch_ops_gcc_ppc.hpp" 95 "store" 1;
  Machine "detail/core_arch_ops_gcc_ppc.hpp" 107 "load" 1;
  Machine "detail/core_arch_ops_gcc_ppc.hpp" 139 "exchange" 1;
  Machine "detail/core_arch_ops_gcc_ppc.hpp" 159 "compare_exchange_weak" 2;
  Machine "detail/core_arch_ops_gcc_ppc.hpp" 192 "compare_exchange_strong" 2;
  Machine "detail/core_arch_ops_gcc_ppc.hpp" 226 "fetch_add" 1;
  Machine "detail/core_arch_ops_gcc_ppc.hpp" 247 "fetch_sub" 1;
  Machine "detail/core_arch_ops_gcc_ppc.hpp" 268 "fetch_and" 1;
  Machine "detail/core_arch_ops_gcc_ppc.hpp" 289 "fetch_or" 1;
  Machine "detail/core_arch_ops_gcc_ppc.hpp" 310 "fetch_xor" 1;
  Machine "detail/core_arch_ops_gcc_ppc.hpp" 355 "store" 1;
  Machine "detail/core_arch_ops_gcc_ppc.hpp" 367 "load" 1;
  Machine "detail/core_arch_ops_gcc_ppc.hpp" 399 "exchange" 1;
  Machine "detail/core_arch_ops_gcc_ppc.hpp" 419 "compare_exchange_weak" 2;
  Machine "detail/core_arch_ops_gcc_ppc.hpp" 452 "compare_exchange_strong" 2;
  Machine "detail/core_arch_ops_gcc_ppc.hpp" 486 "fetch_add" 1;
  Machine "detail/core_arch_ops_gcc_ppc.hpp" 507 "fetch_sub" 1;
  Machine "detail/core_arch_ops_gcc_ppc.hpp" 528 "fetch_and" 1;
  Machine "detail/core_arch_ops_gcc_ppc.hpp" 549 "fetch_or" 1;
  Machine "detail/core_arch_ops_gcc_ppc.hpp" 570 "fetch_xor" 1;
  Machine "detail/core_arch_ops_gcc_ppc.hpp" 611 "fetch_add" 1;
  Machine "detail/core_arch_ops_gcc_ppc.hpp" 633 "fetch_sub" 1;
  Machine "detail/core_arch_ops_gcc_ppc.hpp" 663 "fetch_add" 1;
  Machine "detail/core_arch_ops_gcc_ppc.hpp" 685 "fetch_sub" 1;
  Machine "detail/core_arch_ops_gcc_ppc.hpp" 723 "store" 1;
  Machine "detail/core_arch_ops_gcc_ppc.hpp" 735 "load" 1;
  Machine "detail/core_arch_ops_gcc_ppc.hpp" 767 "exchange" 1;
  Machine "detail/core_arch_ops_gcc_ppc.hpp" 787 "compare_exchange_weak" 2;
  Machine "detail/core_arch_ops_gcc_ppc.hpp" 820 "compare_exchange_strong" 2;
  Machine "detail/core_arch_ops_gcc_ppc.hpp" 854 "fetch_add" 1;
  Machine "detail/core_arch_ops_gcc_ppc.hpp" 875 "fetch_sub" 1;
  Machine "detail/core_arch_ops_gcc_ppc.hpp" 896 "fetch_and" 1;
  Machine "detail/core_arch_ops_gcc_ppc.hpp" 917 "fetch_or" 1;
  Machine "detail/core_arch_ops_gcc_ppc.hpp" 938 "fetch_xor" 1;
  Machine "detail/core_arch_ops_gcc_ppc.hpp" 979 "fetch_add" 1;
  Machine "detail/core_arch_ops_gcc_ppc.hpp" 1001 "fetch_sub" 1;
  Machine "detail/core_arch_ops_gcc_ppc.hpp" 1031 "fetch_add" 1;
  Machine "detail/core_arch_ops_gcc_ppc.hpp" 1053 "fetch_sub" 1;
  Machine "detail/core_arch_ops_gcc_ppc.hpp" 1091 "store" 1;
  Machine "detail/core_arch_ops_gcc_ppc.hpp" 1103 "load" 1;
  Machine "detail/core_arch_ops_gcc_ppc.hpp" 1135 "exchange" 1;
  Machine "detail/core_arch_ops_gcc_ppc.hpp" 1155 "compare_exchange_weak" 2;
  Machine "detail/core_arch_ops_gcc_ppc.hpp" 1188 "compare_exchange_strong" 2;
  Machine "detail/core_arch_ops_gcc_ppc.hpp" 1222 "fetch_add" 1;
  Machine "detail/core_arch_ops_gcc_ppc.hpp" 1243 "fetch_sub" 1;
  Machine "detail/core_arch_ops_gcc_ppc.hpp" 1264 "fetch_and" 1;
  Machine "detail/core_arch_ops_gcc_ppc.hpp" 1285 "fetch_or" 1;
  Machine "detail/core_arch_ops_gcc_ppc.hpp" 1306 "fetch_xor" 1;
  Machine "detail/core_arch_ops_gcc_alpha.hpp" 101 "store" 1;
  Machine "detail/core_arch_ops_gcc_alpha.hpp" 108 "load" 1;
  Machine "detail/core_arch_ops_gcc_alpha.hpp" 115 "exchange" 1;
  Machine "detail/core_arch_ops_gcc_alpha.hpp" 141 "compare_exchange_weak" 2;
  Machine "detail/core_arch_ops_gcc_alpha.hpp" 171 "compare_exchange_strong" 2;
  Machine "detail/core_arch_ops_gcc_alpha.hpp" 209 "fetch_add" 1;
  Machine "detail/core_arch_ops_gcc_alpha.hpp" 235 "fetch_sub" 1;
  Machine "detail/core_arch_ops_gcc_alpha.hpp" 261 "fetch_and" 1;
  Machine "detail/core_arch_ops_gcc_alpha.hpp" 287 "fetch_or" 1;
  Machine "detail/core_arch_ops_gcc_alpha.hpp" 313 "fetch_xor" 1;
  Machine "detail/core_arch_ops_gcc_alpha.hpp" 358 "fetch_add" 1;
  Machine "detail/core_arch_ops_gcc_alpha.hpp" 385 "fetch_sub" 1;
  Machine "detail/core_arch_ops_gcc_alpha.hpp" 420 "fetch_add" 1;
  Machine "detail/core_arch_ops_gcc_alpha.hpp" 447 "fetch_sub" 1;
  Machine "detail/core_arch_ops_gcc_alpha.hpp" 483 "fetch_add" 1;
  Machine "detail/core_arch_ops_gcc_alpha.hpp" 510 "fetch_sub" 1;
  Machine "detail/core_arch_ops_gcc_alpha.hpp" 545 "fetch_add" 1;
  Machine "detail/core_arch_ops_gcc_alpha.hpp" 572 "fetch_sub" 1;
  Machine "detail/core_arch_ops_gcc_alpha.hpp" 612 "store" 1;
  Machine "detail/core_arch_ops_gcc_alpha.hpp" 619 "load" 1;
  Machine "detail/core_arch_ops_gcc_alpha.hpp" 626 "exchange" 1;
  Machine "detail/core_arch_ops_gcc_alpha.hpp" 652 "compare_exchange_weak" 2;
  Machine "detail/core_arch_ops_gcc_alpha.hpp" 682 "compare_exchange_strong" 2;
  Machine "detail/core_arch_ops_gcc_alpha.hpp" 720 "fetch_add" 1;
  Machine "detail/core_arch_ops_gcc_alpha.hpp" 746 "fetch_sub" 1;
  Machine "detail/core_arch_ops_gcc_alpha.hpp" 772 "fetch_and" 1;
  Machine "detail/core_arch_ops_gcc_alpha.hpp" 798 "fetch_or" 1;
  Machine "detail/core_arch_ops_gcc_alpha.hpp" 824 "fetch_xor" 1;
  Machine "detail/core_arch_ops_gcc_sparc.hpp" 76 "store" 1;
  Machine "detail/core_arch_ops_gcc_sparc.hpp" 83 "load" 1;
  Machine "detail/core_arch_ops_gcc_sparc.hpp" 90 "compare_exchange_strong" 2;
  Machine "detail/core_arch_ops_gcc_sparc.hpp" 117 "exchange" 1;
  Machine "detail/core_arch_ops_gcc_sparc.hpp" 161 "store" 1;
  Machine "detail/core_arch_ops_gcc_sparc.hpp" 168 "load" 1;
  Machine "detail/core_arch_ops_gcc_sparc.hpp" 175 "compare_exchange_strong" 2;
  Machine "detail/core_arch_ops_msvc_x86.hpp" 106 "store" 1;
  Machine "detail/core_arch_ops_msvc_x86.hpp" 120 "load" 1;
  Machine "detail/core_arch_ops_msvc_x86.hpp" 157 "fetch_add" 1;
  Machine "detail/core_arch_ops_msvc_x86.hpp" 162 "exchange" 1;
  Machine "detail/core_arch_ops_msvc_x86.hpp" 167 "compare_exchange_strong" 2;
  Machine "detail/core_arch_ops_msvc_x86.hpp" 177 "fetch_and" 1;
  Machine "detail/core_arch_ops_msvc_x86.hpp" 191 "fetch_or" 1;
  Machine "detail/core_arch_ops_msvc_x86.hpp" 205 "fetch_xor" 1;
  Machine "detail/core_arch_ops_msvc_x86.hpp" 228 "fetch_add" 1;
  Machine "detail/core_arch_ops_msvc_x86.hpp" 233 "exchange" 1;
  Machine "detail/core_arch_ops_msvc_x86.hpp" 238 "compare_exchange_strong" 2;
  Machine "detail/core_arch_ops_msvc_x86.hpp" 247 "fetch_and" 1;
  Machine "detail/core_arch_ops_msvc_x86.hpp" 252 "fetch_or" 1;
  Machine "detail/core_arch_ops_msvc_x86.hpp" 257 "fetch_xor" 1;
  Machine "detail/core_arch_ops_msvc_x86.hpp" 272 "fetch_add" 1;
  Machine "detail/core_arch_ops_msvc_x86.hpp" 286 "exchange" 1;
  Machine "detail/core_arch_ops_msvc_x86.hpp" 300 "compare_exchange_strong" 2;
  Machine "detail/core_arch_ops_msvc_x86.hpp" 320 "fetch_and" 1;
  Machine "detail/core_arch_ops_msvc_x86.hpp" 341 "fetch_or" 1;
  Machine "detail/core_arch_ops_msvc_x86.hpp" 362 "fetch_xor" 1;
  Machine "detail/core_arch_ops_msvc_x86.hpp" 403 "fetch_add" 1;
  Machine "detail/core_arch_ops_msvc_x86.hpp" 408 "exchange" 1;
  Machine "detail/core_arch_ops_msvc_x86.hpp" 413 "compare_exchange_strong" 2;
  Machine "detail/core_arch_ops_msvc_x86.hpp" 422 "fetch_and" 1;
  Machine "detail/core_arch_ops_msvc_x86.hpp" 427 "fetch_or" 1;
  Machine "detail/core_arch_ops_msvc_x86.hpp" 432 "fetch_xor" 1;
  Machine "detail/core_arch_ops_msvc_x86.hpp" 447 "fetch_add" 1;
  Machine "detail/core_arch_ops_msvc_x86.hpp" 461 "exchange" 1;
  Machine "detail/core_arch_ops_msvc_x86.hpp" 475 "compare_exchange_strong" 2;
  Machine "detail/core_arch_ops_msvc_x86.hpp" 495 "fetch_and" 1;
  Machine "detail/core_arch_ops_msvc_x86.hpp" 516 "fetch_or" 1;
  Machine "detail/core_arch_ops_msvc_x86.hpp" 537 "fetch_xor" 1;
  Machine "detail/core_arch_ops_msvc_x86.hpp" 593 "store" 1;
  Machine "detail/core_arch_ops_msvc_x86.hpp" 647 "load" 1;
  Machine "detail/core_arch_ops_msvc_x86.hpp" 701 "compare_exchange_strong" 2;
  Machine "detail/core_arch_ops_msvc_x86.hpp" 743 "exchange" 1;
  Machine "detail/core_arch_ops_msvc_x86.hpp" 787 "fetch_add" 1;
  Machine "detail/core_arch_ops_msvc_x86.hpp" 792 "exchange" 1;
  Machine "detail/core_arch_ops_msvc_x86.hpp" 797 "compare_exchange_strong" 2;
  Machine "detail/core_arch_ops_msvc_x86.hpp" 806 "fetch_and" 1;
  Machine "detail/core_arch_ops_msvc_x86.hpp" 811 "fetch_or" 1;
  Machine "detail/core_arch_ops_msvc_x86.hpp" 816 "fetch_xor" 1;
  Machine "detail/core_arch_ops_msvc_x86.hpp" 839 "store" 1;
  Machine "detail/core_arch_ops_msvc_x86.hpp" 857 "load" 1;
  Machine "detail/core_arch_ops_msvc_x86.hpp" 875 "compare_exchange_strong" 2;
  Machine "detail/core_arch_ops_msvc_arm.hpp" 160 "store" 1;
  Machine "detail/core_arch_ops_msvc_arm.hpp" 167 "load" 1;
  Machine "detail/core_arch_ops_msvc_arm.hpp" 174 "fetch_add" 1;
  Machine "detail/core_arch_ops_msvc_arm.hpp" 197 "exchange" 1;
  Machine "detail/core_arch_ops_msvc_arm.hpp" 220 "compare_exchange_strong" 2;
  Machine "detail/core_arch_ops_msvc_arm.hpp" 248 "fetch_and" 1;
  Machine "detail/core_arch_ops_msvc_arm.hpp" 271 "fetch_or" 1;
  Machine "detail/core_arch_ops_msvc_arm.hpp" 294 "fetch_xor" 1;
  Machine "detail/core_arch_ops_msvc_arm.hpp" 325 "store" 1;
  Machine "detail/core_arch_ops_msvc_arm.hpp" 332 "load" 1;
  Machine "detail/core_arch_ops_msvc_arm.hpp" 339 "fetch_add" 1;
  Machine "detail/core_arch_ops_msvc_arm.hpp" 362 "exchange" 1;
  Machine "detail/core_arch_ops_msvc_arm.hpp" 385 "compare_exchange_strong" 2;
  Machine "detail/core_arch_ops_msvc_arm.hpp" 413 "fetch_and" 1;
  Machine "detail/core_arch_ops_msvc_arm.hpp" 436 "fetch_or" 1;
  Machine "detail/core_arch_ops_msvc_arm.hpp" 459 "fetch_xor" 1;
  Machine "detail/core_arch_ops_msvc_arm.hpp" 490 "store" 1;
  Machine "detail/core_arch_ops_msvc_arm.hpp" 497 "load" 1;
  Machine "detail/core_arch_ops_msvc_arm.hpp" 504 "fetch_add" 1;
  Machine "detail/core_arch_ops_msvc_arm.hpp" 527 "exchange" 1;
  Machine "detail/core_arch_ops_msvc_arm.hpp" 550 "compare_exchange_strong" 2;
  Machine "detail/core_arch_ops_msvc_arm.hpp" 578 "fetch_and" 1;
  Machine "detail/core_arch_ops_msvc_arm.hpp" 601 "fetch_or" 1;
  Machine "detail/core_arch_ops_msvc_arm.hpp" 624 "fetch_xor" 1;
  Machine "detail/core_arch_ops_msvc_arm.hpp" 655 "store" 1;
  Machine "detail/core_arch_ops_msvc_arm.hpp" 662 "load" 1;
  Machine "detail/core_arch_ops_msvc_arm.hpp" 669 "fetch_add" 1;
  Machine "detail/core_arch_ops_msvc_arm.hpp" 692 "exchange" 1;
  Machine "detail/core_arch_ops_msvc_arm.hpp" 715 "compare_exchange_strong" 2;
  Machine "detail/core_arch_ops_msvc_arm.hpp" 743 "fetch_and" 1;
  Machine "detail/core_arch_ops_msvc_arm.hpp" 766 "fetch_or" 1;
  Machine "detail/core_arch_ops_msvc_arm.hpp" 789 "fetch_xor" 1].

(** All of them, with the intrinsics of OrderFlow.v. *)
Definition machine : list machine_function := machine_functions ++ intrinsics.
