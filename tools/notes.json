{
 "C01": {"note": "All element types, histories and 1 <= W < 2^64."},
 "C02": {"note": "Safety for W >= 1 and undefined behaviour of the first update for W = 0."},
 "C03": {"note": "64-bit wrap-around of windowSize + head - tail is modelled."},
 "C04": {"note": "Sequentially consistent interleaving of single memory accesses; the data race of the unlocked readers is itself UB in C++."},
 "C05": {"note": "The code violates atomicity of size()/empty()/full(): proved as refutations for every W >= 2."},
 "C10": {"note": "The undefined behaviour is proved for every way of reaching an empty list."},
 "C12": {"note": "full() is proved to mean non-empty."},
 "C13": {"note": "Schedules exhibited for every W and items."}
}
