rocq/theories/.*.cache
__pycache__/
.nia.cache
.lia.cache
