.nra.cache
.nra.cache
.lia.cache
.nia.cache
